(** C05, C06, C07: chunked imageseries statistics. *)
From Verif Require Import Prelude StatsModel StatsSpec StatsProofs.
From Coq Require Import Sorting.Sorted.
Open Scope Z_scope.

(** C05.  For 1 <= k <= n there are exactly k stop points, strictly increasing,
    non-negative, the last one is the last item, and the chunk sizes (distances
    between consecutive stops, counting from -1) are n/k or n/k + 1. *)
Theorem C05_chunk_stops_partition : forall n k, 1 <= k <= n ->
  exists stops, chunk_stops n k = Ok stops /\
    Z.of_nat (length stops) = k /\ StronglySorted Z.lt stops /\
    Forall (fun s => 0 <= s) stops /\ last stops 0 = n - 1.
Proof. exact chunk_stops_correct. Qed.
Print Assumptions C05_chunk_stops_partition.

Theorem C05_chunk_sizes_even : forall n k stops, 1 <= k <= n -> chunk_stops n k = Ok stops ->
  Forall (fun c => n / k <= c <= n / k + 1) (chunk_sizes (-1) stops).
Proof. exact chunk_sizes_even. Qed.
Print Assumptions C05_chunk_sizes_even.

Example C05_ex : 1 <= 3 <= 10 /\ chunk_stops 10 3 = Ok [3; 6; 9] /\ chunk_sizes (-1) [3; 6; 9] = [4; 3; 3].
Proof. repeat split; lia. Qed.

Theorem C05_bad_counts_raise : forall n k, 0 <= n ->
  (k > n -> chunk_stops n k = Err ValueError) /\
  (k = 0 -> chunk_stops n k = Err ZeroDivisionError) /\
  (k < 0 -> chunk_stops n k = Err ValueError).
Proof. exact chunk_stops_errors. Qed.
Print Assumptions C05_bad_counts_raise.

(** C06.  [init], [op], [out] are arbitrary: [max_iter] is [init = id],
    [op = np.maximum], [out _ = id]; [sum_iter] is [op = +]; [average_iter] has
    [out i img = img / (i+1)].  The generator raises nothing, and yield number j
    is the accumulation over frames 0..stops[j] only. *)
Theorem C06_chunked_prefixes :
  forall (A B C : Type) (init : A -> B) (op : B -> A -> B) (out : nat -> B -> C) (out0 : B -> C)
         (f0 : A) (rest : list A) (nchunk nframes : Z),
    1 <= nchunk <= Z.of_nat (nframes_used (length (f0 :: rest)) nframes) ->
    exists stops,
      chunk_stops (Z.of_nat (nframes_used (length (f0 :: rest)) nframes)) nchunk = Ok stops /\
      stat_iter init op out out0 (f0 :: rest) nchunk nframes
      = (map (fun s => if s =? 0 then out0 (init f0)
                       else out (Z.to_nat s) (fold_left op (firstn (Z.to_nat s) rest) (init f0))) stops,
         None).
Proof. exact (fun A B C i o ou ou0 => @stat_iter_spec A B C i o ou ou0). Qed.
Print Assumptions C06_chunked_prefixes.

(** max_iter / min_iter / sum_iter: the last of exactly nchunk yields is the
    one-shot statistic over the same frames. *)
Theorem C06_last_chunk_is_one_shot :
  forall (A B : Type) (init : A -> B) (op : B -> A -> B) (ims : list A) (nchunk nframes : Z) (d : B),
    1 <= nchunk <= Z.of_nat (nframes_used (length ims) nframes) ->
    exists img ys, stat_once init op ims nframes = Ok img /\
      stat_iter init op (fun _ b => b) (fun b => b) ims nchunk nframes = (ys, None) /\
      Z.of_nat (length ys) = nchunk /\ last ys d = img.
Proof. exact last_chunk_is_one_shot. Qed.
Print Assumptions C06_last_chunk_is_one_shot.

(** average_iter: [avg m img] is [img / m].  Dividing by one must not change the image
    (the first yield is not divided); then the last yield is the one-shot average. *)
Theorem C06_last_average_is_one_shot :
  forall (A B : Type) (init : A -> B) (op : B -> A -> B) (avg : nat -> B -> B)
         (ims : list A) (nchunk nframes : Z) (d : B),
    (forall b, avg 1%nat b = b) ->
    1 <= nchunk <= Z.of_nat (nframes_used (length ims) nframes) ->
    exists img ys, stat_once init op ims nframes = Ok img /\
      stat_iter init op (fun i b => avg (i + 1)%nat b) (fun b => b) ims nchunk nframes = (ys, None) /\
      Z.of_nat (length ys) = nchunk /\
      last ys d = avg (nframes_used (length ims) nframes) img.
Proof. exact last_average_is_one_shot. Qed.
Print Assumptions C06_last_average_is_one_shot.

Example C06_ex : 1 <= 2 <= Z.of_nat (nframes_used (length [3;1;4;1;5]) 4) /\
  stat_iter (fun x => x) Z.max (fun _ b => b) (fun b => b) [3;1;4;1;5] 2 4 = ([3;4], None) /\
  stat_once (fun x => x) Z.max [3;1;4;1;5] 4 = Ok 4.
Proof. vm_compute. repeat split; discriminate. Qed.

(** Row-chunked percentile/median: for every per-row statistic [prow], every number of
    chunks, and every initial buffer (absent, or of any size up to the frame count, with arbitrary
    contents) the last yield is the one-shot percentile image. *)
Theorem C06_percentile_chunking_irrelevant :
  forall (row orow : Type) (prow : list row -> orow) (zero : orow) (ims : list (list row))
         (nr : nat) (nchunks nframes : Z) (buf0 : option (list (list row))),
    1 <= nchunks <= Z.of_nat nr ->
    match buf0 with None => True | Some b => (length b <= nframes_used (length ims) nframes)%nat end ->
    exists ys, percentile_iter prow zero ims nr nchunks nframes buf0 = Ok ys /\
      Z.of_nat (length ys) = nchunks /\
      last ys [] = percentile_once prow ims nr (nframes_used (length ims) nframes).
Proof. exact @percentile_iter_spec. Qed.
Print Assumptions C06_percentile_chunking_irrelevant.

Example C06_percentile_ex :
  percentile_iter (fun l => fold_left Z.add l 0) 0 [[1;2;3];[4;5;6]] 3 2 0 (Some [[9;9;9]])
  = Ok [[5;7;0];[5;7;9]].
Proof. reflexivity. Qed.

(** C07.  [stable r]: once the generator is exhausted, every image it handed out still has
    the contents it had when it was yielded. *)
Theorem C07_sum_iter_yields_stay_valid :
  forall (A B : Type) (init : A -> B) (op : B -> A -> B) (fresh : nat -> B -> B)
         (ims : list A) (nchunk nframes : Z),
    stable (heap_iter init op fresh true ims nchunk nframes).
Proof. exact @sum_iter_stable_lemma. Qed.
Print Assumptions C07_sum_iter_yields_stay_valid.

Theorem C07_average_iter_yields_stay_valid_partial :
  forall (A B : Type) (init : A -> B) (op : B -> A -> B) (fresh : nat -> B -> B)
         (ims : list A) (nchunk nframes : Z),
    nchunk < Z.of_nat (nframes_used (length ims) nframes) ->
    stable (heap_iter init op fresh false ims nchunk nframes).
Proof. exact @average_iter_stable_lemma. Qed.
Print Assumptions C07_average_iter_yields_stay_valid_partial.

(** The missing case is a real defect: with one chunk per frame the first image
    handed out by average_iter ends up holding the SUM of all the frames. *)
Theorem C07_average_iter_first_yield_overwritten :
  forall (A B : Type) (init : A -> B) (op : B -> A -> B) (fresh : nat -> B -> B)
         (f0 : A) (rest : list A) (nframes : Z),
    (1 < nframes_used (length (f0 :: rest)) nframes)%nat ->
    exists y ys h,
      heap_iter init op fresh false (f0 :: rest)
                (Z.of_nat (nframes_used (length (f0 :: rest)) nframes)) nframes = (y :: ys, h) /\
      y_val y = init f0 /\
      nth_error h (y_loc y)
      = Some (fold_left op (firstn (nframes_used (length (f0 :: rest)) nframes - 1) rest) (init f0)).
Proof. exact @average_iter_first_overwritten. Qed.
Print Assumptions C07_average_iter_first_yield_overwritten.

Theorem C07_average_iter_refuted :
  exists (ims : list Z) (nchunk nframes : Z),
    1 <= nchunk <= Z.of_nat (nframes_used (length ims) nframes) /\
    ~ stable (heap_iter (fun x => x) Z.add (fun i b => b / Z.of_nat (i + 1)) false ims nchunk nframes).
Proof. exact average_iter_refuted_lemma. Qed.
Print Assumptions C07_average_iter_refuted.

(** The heap model yields the same values as the pure model used for C06. *)
Theorem C07_heap_model_agrees :
  forall (A B : Type) (init : A -> B) (op : B -> A -> B) (fresh : nat -> B -> B) (copies : bool)
         (ims : list A) (nchunk nframes : Z),
    map y_val (fst (heap_iter init op fresh copies ims nchunk nframes))
    = fst (stat_iter init op fresh (fun b => b) ims nchunk nframes).
Proof. exact @heap_iter_values. Qed.
Print Assumptions C07_heap_model_agrees.

Example C07_ex :
  heap_iter (fun x => x) Z.add (fun i b => b / Z.of_nat (i + 1)) false [2;4;6;8] 2 0
  = ([{| y_loc := 1; y_val := 3 |}; {| y_loc := 2; y_val := 5 |}], [20; 3; 5]).
Proof. reflexivity. Qed.
