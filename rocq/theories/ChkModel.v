(** Model of tiled detectors and of the images of a panel: core/instrument/hedm_instrument.py:132-338 (generate_chunks,
    chunk_instrument, _parse_imgser_dict), over the panels of [DetModel].  Exact rationals stand for floats. *)
From Coq Require Import String QArith.
From Verif Require Import Prelude GridModel DetModel NamesModel.
Local Open Scope string_scope.
Local Notation length := List.length.

(** [[row_start, row_stop], [col_start, col_stop]] *)
Definition rect := ((Z * Z) * (Z * Z))%type.
(** 132-176 *)
Definition starts (n : nat) (base gap : Z) : list Z := map (fun i => (Z.of_nat i * (base + gap))%Z) (seq 0 n).
Definition extents (n : nat) (base gap : Z) : list (Z * Z) := map (fun s => (s, (s + base)%Z)) (starts n base gap).
Definition label (i j : nat) : string := dec i ++ "_" ++ dec j.
Definition generate_chunks (nrows ncols : nat) (base_nrows base_ncols row_gap col_gap : Z) : list rect * list string :=
  let rr := extents nrows base_nrows row_gap in
  let cc := extents ncols base_ncols col_gap in
  (flat_map (fun r => map (fun c => (r, c)) cc) rr,
   flat_map (fun i => map (fun j => label i j) (seq 0 ncols)) (seq 0 nrows)).

(** ** 179-242 *)
Definition vec := (Q * Q * Q)%type.
Record ipanel := IPanel { i_geo : panel; i_rmat : vec * vec * vec (* rows *); i_tvec : vec }.
Local Open Scope Q_scope.
Definition dot (a b : vec) : Q := let '(a0, a1, a2) := a in let '(b0, b1, b2) := b in a0 * b0 + a1 * b1 + a2 * b2.
Definition mv (m : vec * vec * vec) (v : vec) : vec := let '(r0, r1, r2) := m in (dot r0 v, dot r1 v, dot r2 v).
Definition vadd (a b : vec) : vec := let '(a0, a1, a2) := a in let '(b0, b1, b2) := b in (a0 + b0, a1 + b1, a2 + b2).
(** the entries of a panel's configuration that are changed, or that say where its pixels are; the rotation stands for the tilt.
    detector.py:801-929: the roi is its start; a mask is written as borders of zero *)
Record conf := Conf { f_rows : Z; f_cols : Z; f_psr : Q; f_psc : Q; f_roi : option (Z * Z); f_rmat : vec * vec * vec; f_tvec : vec; f_buffer : buffer }.
Definition config_dict (p : ipanel) : conf :=
  let g := i_geo p in
  Conf (p_rows g) (p_cols g) (p_psr g) (p_psc g) (match p_roi g with None => None | Some ((r0, _), (c0, _)) => Some (r0, c0) end) (i_rmat p) (i_tvec p)
    (match p_buffer g with BMask _ => BBorders 0 0 | b => b end).
(** buffer[rect[0, 0] : rect[0, 1], rect[1, 0] : rect[1, 1]]; rectangles with negative ends are not modelled *)
Definition crop {A} (r : rect) (m : list (list A)) : list (list A) := map (slice (fst (snd r)) (snd (snd r))) (slice (fst (fst r)) (snd (fst r)) m).
Section Chunks.
Variable load : string -> result (list (list bool)). (* stored masks, panel_buffer.py:88-102 *)
(** 205-241: one panel and one rectangle *)
Definition chunk (use_roi : bool) (p : ipanel) (r : rect) : result conf :=
  let '((r0, r1), (c0, c1)) := r in
  let h := (r1 - r0)%Z in
  let w := (c1 - c0)%Z in
  let xy := pixelToCart (i_geo p) (qz r0 + (1 # 2) * qz h, qz c0 + (1 # 2) * qz w) in
  let tvec := vadd (mv (i_rmat p) (fst xy, snd xy, 0)) (i_tvec p) in
  let c := config_dict p in
  let roi := if use_roi then Some (r0, c0) else f_roi c in
  do buffer <- match p_buffer (i_geo p) with
               | BName n => do m <- panel_buffer_from_str load n (i_geo p); Ok (BMask (crop r m))
               | BMask m => Ok (BMask (crop r m))
               | _ => Ok (f_buffer c)
               end;
  Ok (Conf h w (f_psr c) (f_psc c) roi (f_rmat c) tvec buffer).
(** a dictionary: a key set again keeps its place *)
Fixpoint dset {A} (k : string) (v : A) (d : list (string * A)) : list (string * A) :=
  match d with [] => [(k, v)] | (k', w) :: r => if String.eqb k k' then (k', v) :: r else (k', w) :: dset k v r end.
Fixpoint chunk_panel (use_roi : bool) (id : string) (p : ipanel) (l : list (rect * string)) (d : list (string * conf)) : result (list (string * conf)) :=
  match l with
  | [] => Ok d
  | (r, lab) :: rest => do c <- chunk use_roi p r; chunk_panel use_roi id p rest (dset (id ++ "_" ++ lab) c d)
  end.
Fixpoint chunk_all (use_roi : bool) (instr : list (string * ipanel)) (l : list (rect * string)) (d : list (string * conf)) : result (list (string * conf)) :=
  match instr with
  | [] => Ok d
  | (id, p) :: rest => do d' <- chunk_panel use_roi id p l d; chunk_all use_roi rest l d'
  end.
Definition chunk_instrument (instr : list (string * ipanel)) (rects : list rect) (labels : list string) (use_roi : bool) :=
  chunk_all use_roi instr (combine rects labels) [].
End Chunks.

(** ** 245-338 *)
(** an image series (with its omegas if it is an OmegaImageSeries), one image, a stack of images, an array of another dimension *)
Inductive images :=
| Series (omegas : option (list (Q * Q))) (frames : list image)
| Picture (img : image)
| Stack (imgs : list image)
| Array (ndim : nat).
Definition shared_key : string := "SHARED-IMAGES". (* constants.py: shared_ims_key *)
Fixpoint dlook {A} (k : string) (d : list (string * A)) : option A :=
  match d with [] => None | (k', v) :: r => if String.eqb k k' then Some v else dlook k r end.
Section Images.
(** what the loop "for i, image in images_in" does for a stack of images with two rows, which can be unpacked, is left open *)
Variable two_rows : list image -> result images.
(** 306-337 *)
Definition restrict (roi : rect) (im : images) : result images :=
  match im with
  | Series om fr => Ok (Series om (map (crop roi) fr))
  | Picture m => Ok (Picture (crop roi m))
  | Stack [] => Ok (Stack [])
  | Stack (m :: r) => if Nat.eqb (length m) 2 then two_rows (m :: r) else Err ValueError
  | Array _ => Err RuntimeError
  end.
Definition parse_imgser_dict (d : list (string * images)) (det_key : string) (roi : option rect) (group : option string) : result images :=
  match dlook det_key d with
  | Some ims => Ok ims
  | None =>
      let matched := filter (fun kv => containsb det_key (fst kv)) d in
      do images_in <-
        match dlook shared_key d with
        | Some im => Ok im
        | None =>
            match matched with
            | [kv] => Ok (snd kv)
            | _ :: _ => Err RuntimeError
            | [] => match group with
                    | Some g => match dlook g d with Some im => Ok im | None => Err RuntimeError end
                    | None => Err RuntimeError
                    end
            end
        end;
      match roi with None => Err RuntimeError | Some r => restrict r images_in end
  end.
End Images.
