(** Vocabulary for written results: how a text file is read *)
From Coq Require Import String Ascii List ZArith Reals.
From Verif Require Import Prelude.
Import ListNotations.
Local Open Scope string_scope.
Local Open Scope list_scope.

(** blank: space, tab and the other white space of ASCII *)
Definition blank (c : ascii) : Prop := In (nat_of_ascii c) [32; 9; 10; 11; 12; 13; 28; 29; 30; 31]%nat.
Definition blankb (c : ascii) : bool := existsb (Nat.eqb (nat_of_ascii c)) [32; 9; 10; 11; 12; 13; 28; 29; 30; 31]%nat.
(** a word: not empty and without blanks *)
Fixpoint no_blank (s : string) : Prop := match s with EmptyString => True | String c r => ~ blank c /\ no_blank r end.
Definition word (s : string) : Prop := s <> "" /\ no_blank s.
(** the words of a text, str.split(): [cur] is the word being read *)
Fixpoint words_from (cur : string) (s : string) : list string :=
  match s with
  | EmptyString => if String.eqb cur "" then [] else [cur]
  | String c r => if blankb c then (if String.eqb cur "" then words_from "" r else cur :: words_from "" r) else words_from (cur ++ String c "")%string r
  end.
Definition words (s : string) : list string := words_from "" s.
(** the lines of a text, each ended by a line feed *)
Fixpoint lines_from (cur : string) (s : string) : list string :=
  match s with
  | EmptyString => if String.eqb cur "" then [] else [cur]
  | String c r => if Nat.eqb (nat_of_ascii c) 10 then cur :: lines_from "" r else lines_from (cur ++ String c "")%string r
  end.
Definition lines (s : string) : list string := lines_from "" s.
(** [t] stands in [s] from column [k] on *)
Definition stands_at (k : nat) (t s : string) : Prop := substring k (String.length t) s = t.
(** where columns of these widths begin, two blanks apart *)
Fixpoint columns (from : nat) (ws : list nat) : list nat := match ws with [] => [] | w :: r => from :: columns (from + w + 2) r end.
(** what the columns of the files say they are: number of the peak and of the family, indices, intensities, predicted and measured angles
    and places; grain, completeness, fit, orientation, place, inverse stretch and logarithm of the stretch *)
Definition patch_titles : list string :=
  ["# ID"; "PID"; "H"; "K"; "L"; "sum(int)"; "max(int)"; "pred tth"; "pred eta"; "pred ome"; "meas tth"; "meas eta"; "meas ome"; "pred X"; "pred Y"; "meas X"; "meas Y"].
Definition grain_titles : list string :=
  ["# grain ID"; "completeness"; "chi^2"; "exp_map_c[0]"; "exp_map_c[1]"; "exp_map_c[2]"; "t_vec_c[0]"; "t_vec_c[1]"; "t_vec_c[2]";
   "inv(V_s)[0,0]"; "inv(V_s)[1,1]"; "inv(V_s)[2,2]"; "inv(V_s)[1,2]*sqrt(2)"; "inv(V_s)[0,2]*sqrt(2)"; "inv(V_s)[0,1]*sqrt(2)";
   "ln(V_s)[0,0]"; "ln(V_s)[1,1]"; "ln(V_s)[2,2]"; "ln(V_s)[1,2]"; "ln(V_s)[0,2]"; "ln(V_s)[0,1]"].
