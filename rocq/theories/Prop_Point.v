(** Point-estimate metrics: C45, C46, C101. *)
From Coq Require Import QArith String List Arith ZArith Bool Lia Reals Lra Sorted Permutation.
From Verif Require Import Num NumProofs Py NdArray NumpyLib ScipyWrap Spec Values SortProofs EvalProofs QuantPdf FitProofs PointMetrics PointProofs PointTheorems PointExamples.
Import ListNotations.
Local Open Scope list_scope.
Local Open Scope R_scope.

(** C45: the bias is the median of the residuals; at least half of them are on either side of it. *)
Theorem C45_bias : forall est ref, usable est ref -> est <> [] ->
  exists b, point_bias est ref = Ok (Fin b) /\ lin_quantile (residuals est ref) (1 / 2) b /\ halves_at (residuals est ref) b.
Proof. exact c45_bias. Qed.

(** C45: the IQR width is the distance of the quartiles over 1.349, and not negative. *)
Theorem C45_iqr : forall est ref, usable est ref -> est <> [] ->
  exists s, sigma_iqr est ref = Ok s /\ is_iqr (residuals est ref) s /\ 0 <= s.
Proof. exact c45_iqr. Qed.

(** C45: the MAD is the median distance from the median times 1.4826, and not negative. *)
Theorem C45_mad : forall est ref, usable est ref -> est <> [] ->
  exists s, sigma_mad est ref = Ok (Fin s) /\ is_mad (residuals est ref) s /\ 0 <= s.
Proof. exact c45_mad. Qed.

(** C45: the outlier rate is the fraction of the residuals further from 0 than 0.06 and than three IQR widths; it lies in [0,1]. *)
Theorem C45_outliers : forall est ref, usable est ref -> est <> [] ->
  exists s, is_iqr (residuals est ref) s /\
    outlier_rate est ref = Ok (INR (count (fun x => if Rlt_dec (Rmax 0.06 (3 * s)) (Rabs x) then true else false) (residuals est ref)) / INR (length est)) /\
    0 <= INR (count (fun x => if Rlt_dec (Rmax 0.06 (3 * s)) (Rabs x) then true else false) (residuals est ref)) / INR (length est) <= 1.
Proof. exact c45_outliers. Qed.

(** C45: these conditions determine the values. *)
Theorem C45_unique : forall l q v w,
  lin_quantile l q v -> lin_quantile l q w -> v = w.
Proof. exact lin_quantile_unique. Qed.

(** C45: no metric depends on the order of the objects. *)
Theorem C45_order : forall est ref est' ref', usable est ref -> usable est' ref' -> Permutation (combine est ref) (combine est' ref') ->
  point_bias est ref = point_bias est' ref' /\ sigma_iqr est ref = sigma_iqr est' ref' /\ sigma_mad est ref = sigma_mad est' ref' /\ outlier_rate est ref = outlier_rate est' ref'.
Proof. exact c45_order. Qed.

(** C45: if all errors are multiplied by k and all residuals shifted by c, the bias follows and the widths are multiplied by |k|. *)
Theorem C45_move : forall k c est ref b s d, usable est ref -> est <> [] ->
  point_bias est ref = Ok (Fin b) -> sigma_iqr est ref = Ok s -> sigma_mad est ref = Ok (Fin d) ->
  point_bias (moved k c est ref) ref = Ok (Fin (k * b + c)) /\ sigma_iqr (moved k c est ref) ref = Ok (Rabs k * s) /\
  sigma_mad (moved k c est ref) ref = Ok (Fin (Rabs k * d)).
Proof. exact c45_move. Qed.

(** C45: without any object the medians are NaN and the quantiles raise. *)
Theorem C45_empty : point_bias (@nil R) [] = Ok NaN /\ sigma_mad (@nil R) [] = Ok NaN /\ sigma_iqr (@nil R) [] = Err IndexError /\ outlier_rate (@nil R) [] = Err IndexError.
Proof. exact c45_empty. Qed.

(** C45: arrays that do not fit raise ValueError. *)
Theorem C45_lengths : forall est ref : list R, length est <> length ref -> length est <> 1%nat -> length ref <> 1%nat ->
  point_bias est ref = Err ValueError /\ sigma_mad est ref = Err ValueError /\ sigma_iqr est ref = Err ValueError /\ outlier_rate est ref = Err ValueError.
Proof. exact c45_lengths. Qed.

(** (four objects) *)
Example C45_example :
  usable [1; 3; 2; 5] [0; 1; 1; 0] /\ residuals [1; 3; 2; 5] [0; 1; 1; 0] = [1; 1; 1 / 2; 5] /\
  moved (-2) 1 [1; 3; 2; 5] [0; 1; 1; 0] = [-1; -1; 1; -9] /\
  (point_bias [1; 3; 2; 5] [0; 1; 1; 0] = Ok (Fin 1) /\ sigma_iqr [1; 3; 2; 5] [0; 1; 1; 0] = Ok (1125 # 1349) /\
   sigma_mad [1; 3; 2; 5] [0; 1; 1; 0] = Ok (Fin (7413 # 20000)) /\ outlier_rate [1; 3; 2; 5] [0; 1; 1; 0] = Ok (1 # 4))%Q.
Proof. exact c45_example. Qed.

(** (two objects swapped) *)
Example C45_order_example : usable [1; 3] [0; 1] /\ usable [3; 1] [1; 0] /\ Permutation (combine [1; 3] [0; 1]) (combine [3; 1] [1; 0]).
Proof. exact c45_order_example. Qed.

(** (three estimates, two references) *)
Example C45_lengths_example : length [1; 2; 3] <> length [1; 2] /\ length [1; 2; 3] <> 1%nat /\ length [1; 2] <> 1%nat.
Proof. exact c45_lengths_example. Qed.

(** C46, partial: whoever calls accumulate on every chunk and finalize on everything returned gets a value computed from all chunks.
    Missing: eval_from_iterator, for which C46 is false. *)
Theorem C46_by_hand_partial : forall (D Cs A : Type) (digest_of : list R -> D) (centroids_of : D -> Cs) (of_centroids : Cs -> D) (add : D -> D -> D) (compute : D -> A),
  forall rep chunks, digest_laws digest_of centroids_of of_centroids add rep -> all_usable chunks -> chunks <> [] ->
    exists cs d, mapM (fun c => accumulate digest_of centroids_of (fst c) (snd c)) chunks = Ok cs /\
      finalize_digests of_centroids add compute cs = Ok (compute d) /\ rep d (all_residuals chunks).
Proof. exact (@c46_by_hand). Qed.

(** C46 is false of eval_from_iterator, even if digests are exact. *)
Theorem C46_refuted : exists ests refs : list (list Q),
  eval_from_iterator (fun l => l) (fun d => d) (fun c => c) (@app Q) np_median ests refs <> point_bias (concat ests) (concat refs) /\
  eval_from_iterator (fun l => l) (fun d => d) (fun c => c) (@app Q) (@length Q) ests refs <> Ok (length (concat ests)).
Proof. exact c46_refuted. Qed.

(** (two chunks) *)
Example C46_example : digest_laws (fun l => l) (fun d => d) (fun c => c) (@app R) (@Permutation R) /\ all_usable [([1; 1], [0; 0]); ([3], [0])] /\
  all_residuals [([1; 1], [0; 0]); ([3], [0])] = [1; 1; 3].
Proof. exact c46_example. Qed.

(** C101: eval_from_iterator evaluates the last chunk; no earlier chunk has any influence on the value. *)
Theorem C101_last : forall (D Cs A : Type) (digest_of : list R -> D) (centroids_of : D -> Cs) (of_centroids : Cs -> D) (add : D -> D -> D) (compute : D -> A),
  forall ests refs est ref, length ests = length refs -> all_usable (combine ests refs) -> usable est ref ->
    eval_from_iterator digest_of centroids_of of_centroids add compute (ests ++ [est]) (refs ++ [ref]) = Ok (compute (of_centroids (centroids_of (digest_of (residuals est ref))))).
Proof. exact (@c101_last). Qed.

(** C101: without a chunk it raises UnboundLocalError. *)
Theorem C101_none : forall (D Cs A : Type) (digest_of : list R -> D) (centroids_of : D -> Cs) (of_centroids : Cs -> D) (add : D -> D -> D) (compute : D -> A),
  forall ests refs, ests = [] \/ refs = [] -> eval_from_iterator digest_of centroids_of of_centroids add compute ests refs = Err UnboundLocalError.
Proof. exact (@c101_none). Qed.

(** C101: an earlier chunk can only make it raise. *)
Theorem C101_misfit : forall (D Cs A : Type) (digest_of : list R -> D) (centroids_of : D -> Cs) (of_centroids : Cs -> D) (add : D -> D -> D) (compute : D -> A),
  forall ests refs i, (i < Nat.min (length ests) (length refs))%nat -> all_usable (firstn i (combine ests refs)) ->
    length (nth i ests []) <> length (nth i refs []) -> length (nth i ests []) <> 1%nat -> length (nth i refs []) <> 1%nat ->
    eval_from_iterator digest_of centroids_of of_centroids add compute ests refs = Err ValueError.
Proof. exact (@c101_misfit). Qed.

(** (two chunks) *)
Example C101_example : all_usable (combine [[1; 1]] [[0; 0]]) /\ usable [3] [0] /\
  eval_from_iterator (fun l => l) (fun d => d) (fun c => c) (@app Q) np_median [[1; 1]; [3]]%Q [[0; 0]; [0]]%Q = Ok (Fin 3%Q).
Proof. exact c101_example. Qed.

(** (the second chunk does not fit) *)
Example C101_misfit_example : all_usable (firstn 1 (combine [[1; 1]; [1; 2; 3]] [[0; 0]; [0; 0]])) /\
  length (nth 1 [[1; 1]; [1; 2; 3]] []) <> length (nth 1 [[0; 0]; [0; 0]] []).
Proof. exact c101_misfit_example. Qed.

Print Assumptions C45_bias.
Print Assumptions C45_iqr.
Print Assumptions C45_mad.
Print Assumptions C45_outliers.
Print Assumptions C45_unique.
Print Assumptions C45_order.
Print Assumptions C45_move.
Print Assumptions C45_empty.
Print Assumptions C45_lengths.
Print Assumptions C46_by_hand_partial.
Print Assumptions C46_refuted.
Print Assumptions C101_last.
Print Assumptions C101_none.
Print Assumptions C101_misfit.
