(** More facts that are evaluated group by group: second origins, centring
    translations, the symmorphic flag, the named point groups. *)
From Coq Require Import String Ascii.
From Verif Require Import Prelude SgTables SgModel SgSpec SgProofs.
Local Open Scope Z_scope.

(** the shift spelled at the end of a generator string *)
Definition shift_of (sgnum : Z) : ivec :=
  match GeneratorString sgnum with
  | Ok gs =>
      match char_at gs 1 with
      | Ok d =>
          match digit d with
          | Ok n =>
              let i := (2 + n * 4)%nat in
              match char_at gs (i + 1), char_at gs (i + 2), char_at gs (i + 3) with
              | Ok a, Ok b, Ok c =>
                  match SYM_fillgen "a" a b c 1 with Ok o => op_t o | Err _ => IV 0 0 0 end
              | _, _, _ => IV 0 0 0
              end
          | Err _ => IV 0 0 0
          end
      | Err _ => IV 0 0 0
      end
  | Err _ => IV 0 0 0
  end.

Definition shifted (s : ivec) (a : symop) : symop :=
  op_frac (compose (translation s) (compose a (translation (negv s)))).

Definition ops_subset (l1 l2 : list symop) : bool := forallb (fun x => memb op_eqb x l2) l1.

Definition iv_in (x : ivec) (l : list ivec) : bool := existsb (iv_eqb x) l.

Definition check_more (sgnum : Z) : bool :=
  match GenerateSGSym sgnum 0, GenerateSGSym sgnum 1,
        (do s <- py_index pstr_spacegroup (sgnum - 1); strip_head s) with
  | Ok (sg0, pg0, _, _, s0), Ok (sg1, pg1, _, _, s1), Ok letter =>
      let s := if in_list sgnum two_origins then shift_of sgnum else IV 0 0 0 in
      let tr := map op_t (filter (fun o => im_eqb (op_r o) one) sg0) in
      let tr1 := map op_t (filter (fun o => im_eqb (op_r o) one) sg1) in
      ops_subset (map (shifted s) sg0) sg1
      && ops_subset (map (shifted (negv s)) sg1) sg0
      && forallb (fun o => op_eqb (op_frac o) o) (sg0 ++ sg1)
      && (in_list sgnum two_origins || forallb (fun p => op_eqb (fst p) (snd p)) (combine sg0 sg1)
                                      && (List.length sg0 =? List.length sg1)%nat)
      && (negb (memb im_eqb (negm one) pg1) || memb op_eqb inversion_op sg1)
      && (negb (in_list sgnum two_origins) ||
            memb im_eqb (negm one) pg0 && negb (memb op_eqb inversion_op sg0))
      && forallb (fun t => iv_in t (centring_translations letter)) (tr ++ tr1)
      && forallb (fun t => iv_in t tr && iv_in t tr1) (centring_translations letter)
      && Bool.eqb s0 (forallb (fun r => memb op_eqb (OP r (IV 0 0 0)) sg0) pg0)
      && Bool.eqb s0 s1
      && (negb s0 || forallb (fun r => memb op_eqb (OP r (IV 0 0 0)) sg1) pg1)
  | _, _, _ => false
  end.

Lemma check_more_all : forallb check_more (zrange 1 231) = true.
Proof. vm_compute. reflexivity. Qed.

Definition check_hand (e : Z * (Z * Z)) : bool :=
  match GenerateSGSym (fst e) 0, GenerateSGSym (fst e) 1 with
  | Ok (sg, _, _, _, _), Ok (sg', _, _, _, _) =>
      let '(n, m) := snd e in
      let ok o := negb (im_eqb (op_r o) (rotation_about_c n)) || (v2 (op_t o) * n =? 24 * m) in
      forallb ok sg && forallb ok sg'
      && existsb (fun o => im_eqb (op_r o) (rotation_about_c n)) sg
      && existsb (fun o => im_eqb (op_r o) (rotation_about_c n)) sg'
  | _, _ => false
  end.
Lemma check_hand_all : forallb check_hand enantiomorphic_screws = true.
Proof. vm_compute. reflexivity. Qed.
