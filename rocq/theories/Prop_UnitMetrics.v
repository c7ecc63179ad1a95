(** C155: metrics under a change of units.  [both X a b i e e'] (the ensembles of an input and of the same input in the units a x + b): UnitMetricTheorems.v;
    [unit_of], [in_units], [movable]: UnitTheorems.v; [has_density], [metric_grid], [gpoint]: MetricsProofs.v; [eps]: KldProofs.v. *)
From Coq Require Import String List Arith ZArith Bool Lia Reals Lra.
From Verif Require Import Num NumProofs Py NdArray NumpyLib Utils ScipyWrap Spec Values Ensemble Classes BinProofs
  Kinds KindProofs EnsembleProofs KindInputs ReachProofs EnsembleTheorems ConvertTheorems Metrics MetricsProofs KldProofs Moments Fit Pit UnitTheorems UnitMetricTheorems.
Import ListNotations.
Local Open Scope string_scope.
Local Open Scope list_scope.
Local Open Scope R_scope.

(** C155: PIT values do not depend on the units, *)
Theorem C155_pit : forall X a b i e e' truth, fill_outside X -> 0 < a -> both X a b i e e' -> (2 <= input_npdf i)%nat -> length truth = input_npdf i ->
  exists v, gather_pit_samples e truth = Ok v /\ gather_pit_samples e' (map (unit_of a b) truth) = Ok v.
Proof. exact c155_pit. Qed.

(** C155: nor do outlier rates; *)
Theorem C155_outlier : forall X a b i e e' lo hi fuel, fill_outside X -> 0 < a -> both X a b i e e' -> (input_npdf i < fuel)%nat ->
  exists v, calculate_outlier_rate (qp X) e lo hi fuel = Some (Ok v) /\ calculate_outlier_rate (qp X) e' (unit_of a b lo) (unit_of a b hi) fuel = Some (Ok v).
Proof. exact c155_outlier. Qed.

(** C155: root mean square differences are divided by a, *)
Theorem C155_rmse : forall X a b i j p p' q q' lo hi dx n r, fill_outside X -> 0 < a -> both X a b i p p' -> both X a b j q q' -> input_npdf i = input_npdf j -> metric_grid lo hi dx n r ->
  exists v, calculate_rmse sqrt p q lo hi dx = Ok v /\ calculate_rmse sqrt p' q' (unit_of a b lo) (unit_of a b hi) (a * dx) = Ok (map (fun y => y / a) v).
Proof. exact c155_rmse. Qed.

(** C155: the k-th moment about the origin is multiplied by a^k (units without offset), *)
Theorem C155_moment : forall X a i e e' k lo hi dx n r, fill_outside X -> 0 < a -> both X a 0 i e e' -> metric_grid lo hi dx n r ->
  exists v, calculate_moment e k lo hi dx = Ok v /\ calculate_moment e' k (a * lo) (a * hi) (a * dx) = Ok (map (fun y => a ^ k * y) v).
Proof. exact c155_moment. Qed.

(** C155: and divergences stay, where no density is below the floor of the logarithm in either unit. *)
Theorem C155_kld : forall X a b i j p p' q q' lo hi dx n r f h, fill_outside X -> 0 < a -> both X a b i p p' -> both X a b j q q' -> input_npdf i = input_npdf j -> metric_grid lo hi dx n r ->
  has_density X p (input_npdf i) f -> has_density X q (input_npdf i) h ->
  (forall s k, (s < input_npdf i)%nat -> (k < n)%nat -> KldProofs.eps <= f s (gpoint lo r k) /\ KldProofs.eps <= h s (gpoint lo r k) /\ a * KldProofs.eps <= f s (gpoint lo r k) /\ a * KldProofs.eps <= h s (gpoint lo r k)) ->
  exists v, calculate_kld ln p q lo hi dx = Ok v /\ calculate_kld ln p' q' (unit_of a b lo) (unit_of a b hi) (a * dx) = Ok v.
Proof. exact c155_kld. Qed.

Example C155_example : exists X i j p p' q q' a b, fill_outside X /\ 0 < a /\ a <> 1 /\ b <> 0 /\ both X a b i p p' /\ both X a b j q q' /\ input_npdf i = 2%nat /\ input_npdf j = 2%nat /\ p <> q /\ metric_grid (1 / 2) (5 / 2) (1 / 2) 4 (2 / 3).
Proof. exact c155_example. Qed.

Example C155_moment_example : exists X i e e' a, fill_outside X /\ 0 < a /\ a <> 1 /\ both X a 0 i e e' /\ input_npdf i = 2%nat /\ metric_grid (1 / 2) (5 / 2) (1 / 2) 4 (2 / 3).
Proof. exact c155_moment_example. Qed.

Example C155_kld_example : exists X a b i j p p' q q' f h, fill_outside X /\ 0 < a /\ a <> 1 /\ both X a b i p p' /\ both X a b j q q' /\ input_npdf i = 2%nat /\ input_npdf j = 2%nat /\ metric_grid (1 / 2) (5 / 2) (1 / 2) 4 (2 / 3) /\
  has_density X p 2 f /\ has_density X q 2 h /\
  (forall s k, (s < 2)%nat -> (k < 4)%nat -> KldProofs.eps <= f s (gpoint (1 / 2) (2 / 3) k) /\ KldProofs.eps <= h s (gpoint (1 / 2) (2 / 3) k) /\ a * KldProofs.eps <= f s (gpoint (1 / 2) (2 / 3) k) /\ a * KldProofs.eps <= h s (gpoint (1 / 2) (2 / 3) k)).
Proof. exact c155_kld_example. Qed.

Print Assumptions C155_pit.
Print Assumptions C155_outlier.
Print Assumptions C155_rmse.
Print Assumptions C155_moment.
Print Assumptions C155_kld.
