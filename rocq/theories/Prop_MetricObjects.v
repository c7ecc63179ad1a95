(** C133: metric objects.  [says], [has], [only], [callable], [strict], [takes], [outcome], [gives], [numbers]: MetricObjectTheorems.v. *)
From Coq Require Import QArith String List Arith ZArith Bool.
From Verif Require Import Num Py NdArray NumpyLib ScipyWrap Values Ensemble QuantPdf Metrics Fit PointMetrics Pit Digest Rbpe MetricRegistry MetricObjects MetricObjectTheorems.
Import ListNotations.
Local Open Scope string_scope.
Local Close Scope Q_scope.
Local Open Scope nat_scope.
Local Open Scope list_scope.

(** C133: for every name and all keywords the outcome of [create_metric]: an object, a KeyError or a TypeError. *)
Theorem C133_create : forall (T : Type) (N : Num T),
  forall name force (kw : kwargs (T := T)),
    outcome name kw (match new_metric name force kw with Ok _ => None | Err x => Some x end).
Proof. exact (@c133_outcome). Qed.

(** C133: the four predicates about the inputs are true exactly of the inputs that the metric takes. *)
Theorem C133_inputs : forall (T : Type) (N : Num T),
  forall name force (kw : kwargs (T := T)) c self estimate reference, new_metric name force kw = Ok (c, self) -> takes name estimate reference ->
    (uses_distribution_for_estimate (metric_input_type c) = true <-> estimate = Distributions) /\
    (uses_point_for_estimate (metric_input_type c) = true <-> estimate = Points) /\
    (uses_distribution_for_reference (metric_input_type c) = true <-> reference = Some Distributions) /\
    (uses_point_for_reference (metric_input_type c) = true <-> reference = Some Points).
Proof. exact (@c133_inputs). Qed.

(** C133: [evaluate] without a reference that is needed, or with one that is not taken, raises TypeError. *)
Theorem C133_arguments : forall (T : Type) (N : Num T) (nlog nsqrt : T -> T) (class_create : string -> option (vdict T -> res (gobj T))) (quad : (T -> res T) -> T -> T -> res T)
  (minimize : (T -> res T) -> res T) (minimize_within : (T -> res T) -> T -> T -> res T) (rvs : ens T -> nat -> mval (T := T) -> res (list (list T)))
  (quant_create : vdict T -> res (gobj T)) (fuel : nat),
  let measure := MetricObjects.measure nlog nsqrt class_create quad minimize minimize_within rvs quant_create fuel in
  forall name force (kw : kwargs (T := T)) r estimate reference est ref, new_metric name force kw = Ok r -> takes name est ref ->
    (reference = None <-> ref <> None) -> measure name force kw estimate reference = Err TypeError.
Proof. exact (@c133_arity). Qed.

(** C133: the value of the metric is that of the function, with the parameters given as keywords or their defaults. *)
Theorem C133_moment : forall (T : Type) (N : Num T) (nlog nsqrt : T -> T) (class_create : string -> option (vdict T -> res (gobj T))) (quad : (T -> res T) -> T -> T -> res T)
  (minimize : (T -> res T) -> res T) (minimize_within : (T -> res T) -> T -> T -> res T) (rvs : ens T -> nat -> mval (T := T) -> res (list (list T)))
  (quant_create : vdict T -> res (gobj T)) (fuel : nat),
  let measure := MetricObjects.measure nlog nsqrt class_create quad minimize minimize_within rvs quant_create fuel in
  forall force kw e n lo hi dx, callable kw ->
    has kw "moment_order" (MInt 1) (MInt (Z.of_nat n)) -> has kw "limits" limits_03 (MPair (Fin lo) (Fin hi)) -> has kw "dx" (MNum (nfrac 1 100)) (MNum dx) ->
    measure "moment" force kw (GEns e) None = gives (calculate_moment e n lo hi dx) numbers.
Proof. exact (@c133_moment). Qed.

Theorem C133_kld : forall (T : Type) (N : Num T) (nlog nsqrt : T -> T) (class_create : string -> option (vdict T -> res (gobj T))) (quad : (T -> res T) -> T -> T -> res T)
  (minimize : (T -> res T) -> res T) (minimize_within : (T -> res T) -> T -> T -> res T) (rvs : ens T -> nat -> mval (T := T) -> res (list (list T)))
  (quant_create : vdict T -> res (gobj T)) (fuel : nat),
  let measure := MetricObjects.measure nlog nsqrt class_create quad minimize minimize_within rvs quant_create fuel in
  forall force kw p q lo hi dx, callable kw ->
    has kw "limits" limits_03 (MPair (Fin lo) (Fin hi)) -> has kw "dx" (MNum (nfrac 1 100)) (MNum dx) ->
    measure "kld" force kw (GEns p) (Some (GEns q)) = gives (calculate_kld nlog p q lo hi dx) numbers /\
    measure "rmse" force kw (GEns p) (Some (GEns q)) = gives (calculate_rmse nsqrt p q lo hi dx) numbers.
Proof. exact (@c133_kld). Qed.

Theorem C133_rbpe : forall (T : Type) (N : Num T) (nlog nsqrt : T -> T) (class_create : string -> option (vdict T -> res (gobj T))) (quad : (T -> res T) -> T -> T -> res T)
  (minimize : (T -> res T) -> res T) (minimize_within : (T -> res T) -> T -> T -> res T) (rvs : ens T -> nat -> mval (T := T) -> res (list (list T)))
  (quant_create : vdict T -> res (gobj T)) (fuel : nat),
  let measure := MetricObjects.measure nlog nsqrt class_create quad minimize minimize_within rvs quant_create fuel in
  forall force kw e lo hi, callable kw -> has kw "limits" (MPair PInf PInf) (MPair lo hi) ->
    measure "rbpe" force kw (GEns e) None = gives (calculate_rbpe class_create quad minimize minimize_within e (lo, hi)) numbers.
Proof. exact (@c133_rbpe). Qed.

Theorem C133_outlier : forall (T : Type) (N : Num T) (nlog nsqrt : T -> T) (class_create : string -> option (vdict T -> res (gobj T))) (quad : (T -> res T) -> T -> T -> res T)
  (minimize : (T -> res T) -> res T) (minimize_within : (T -> res T) -> T -> T -> res T) (rvs : ens T -> nat -> mval (T := T) -> res (list (list T)))
  (quant_create : vdict T -> res (gobj T)) (fuel : nat),
  let measure := MetricObjects.measure nlog nsqrt class_create quad minimize minimize_within rvs quant_create fuel in
  forall force kw e lo hi r, callable kw ->
    has kw "cdf_limits" (MPair (Fin (nfrac 1 10000)) (Fin (nfrac 9999 10000))) (MPair (Fin lo) (Fin hi)) ->
    calculate_outlier_rate class_create e lo hi fuel = Some r ->
    measure "outlier" force kw (GEns e) None = gives r AValues.
Proof. exact (@c133_outlier). Qed.

(** C133: the samples are drawn with [num_samples] and [_random_state]; a keyword [random_state] has no effect. *)
Theorem C133_fit : forall (T : Type) (N : Num T) (nlog nsqrt : T -> T) (class_create : string -> option (vdict T -> res (gobj T))) (quad : (T -> res T) -> T -> T -> res T)
  (minimize : (T -> res T) -> res T) (minimize_within : (T -> res T) -> T -> T -> res T) (rvs : ens T -> nat -> mval (T := T) -> res (list (list T)))
  (quant_create : vdict T -> res (gobj T)) (fuel : nat),
  let measure := MetricObjects.measure nlog nsqrt class_create quad minimize minimize_within rvs quant_create fuel in
  forall name force kw p q n seed, In name ["ad"; "cvm"; "ks"] -> callable kw ->
    has kw "num_samples" (MInt 100) (MInt (Z.of_nat n)) -> has kw "_random_state" MNone seed ->
    measure name force kw (GEns p) (Some (GEns q)) =
      match rvs p n seed with Err x => Err x | Ok s => gives (calculate_goodness_of_fit nlog s q name) AValues end.
Proof. exact (@c133_fit). Qed.

Theorem C133_brier : forall (T : Type) (N : Num T) (nlog nsqrt : T -> T) (class_create : string -> option (vdict T -> res (gobj T))) (quad : (T -> res T) -> T -> T -> res T)
  (minimize : (T -> res T) -> res T) (minimize_within : (T -> res T) -> T -> T -> res T) (rvs : ens T -> nat -> mval (T := T) -> res (list (list T)))
  (quant_create : vdict T -> res (gobj T)) (fuel : nat),
  let measure := MetricObjects.measure nlog nsqrt class_create quad minimize minimize_within rvs quant_create fuel in
  forall force kw e truth lo hi dx, callable kw -> only kw ["limits"; "dx"; "tdigest_compression"] ->
    has kw "limits" limits_03 (MPair (Fin lo) (Fin hi)) -> has kw "dx" (MNum (nfrac 1 100)) (MNum dx) ->
    measure "brier" force kw (GEns e) (Some (GPoints truth)) = gives (calculate_brier e truth lo hi dx) AValue.
Proof. exact (@c133_brier). Qed.

Theorem C133_pit : forall (T : Type) (N : Num T) (nlog nsqrt : T -> T) (class_create : string -> option (vdict T -> res (gobj T))) (quad : (T -> res T) -> T -> T -> res T)
  (minimize : (T -> res T) -> res T) (minimize_within : (T -> res T) -> T -> T -> res T) (rvs : ens T -> nat -> mval (T := T) -> res (list (list T)))
  (quant_create : vdict T -> res (gobj T)) (fuel : nat),
  let measure := MetricObjects.measure nlog nsqrt class_create quad minimize minimize_within rvs quant_create fuel in
  forall force kw e truth grid, callable kw -> only kw ["eval_grid"; "tdigest_compression"; "limits"; "dx"] ->
    has kw "eval_grid" (MList (np_linspace n0 n1 100)) (MList grid) ->
    measure "pit" force kw (GEns e) (Some (GPoints truth)) = gives (pit_new quant_create e truth grid) (fun r => AEns (snd r)).
Proof. exact (@c133_pit). Qed.

Theorem C133_cde : forall (T : Type) (N : Num T) (nlog nsqrt : T -> T) (class_create : string -> option (vdict T -> res (gobj T))) (quad : (T -> res T) -> T -> T -> res T)
  (minimize : (T -> res T) -> res T) (minimize_within : (T -> res T) -> T -> T -> res T) (rvs : ens T -> nat -> mval (T := T) -> res (list (list T)))
  (quant_create : vdict T -> res (gobj T)) (fuel : nat),
  let measure := MetricObjects.measure nlog nsqrt class_create quad minimize minimize_within rvs quant_create fuel in
  forall force kw e truth grid, callable kw -> has kw "eval_grid" (MList (np_linspace n0 (nfrac 5 2) 301)) (MList grid) ->
    measure "cdeloss" force kw (GEns e) (Some (GPoints truth)) = gives (cde_evaluate grid e truth) AValue.
Proof. exact (@c133_cde). Qed.

Theorem C133_points : forall (T : Type) (N : Num T) (nlog nsqrt : T -> T) (class_create : string -> option (vdict T -> res (gobj T))) (quad : (T -> res T) -> T -> T -> res T)
  (minimize : (T -> res T) -> res T) (minimize_within : (T -> res T) -> T -> T -> res T) (rvs : ens T -> nat -> mval (T := T) -> res (list (list T)))
  (quant_create : vdict T -> res (gobj T)) (fuel : nat),
  let measure := MetricObjects.measure nlog nsqrt class_create quad minimize minimize_within rvs quant_create fuel in
  forall force kw est ref, callable kw ->
    (kw = [] -> measure "point_stats_ez" force kw (GPoints est) (Some (GPoints ref)) = gives (ez est ref) numbers) /\
    measure "point_stats_iqr" force kw (GPoints est) (Some (GPoints ref)) = gives (sigma_iqr est ref) (fun v => AValue (Fin v)) /\
    measure "point_bias" force kw (GPoints est) (Some (GPoints ref)) = gives (point_bias est ref) AValue /\
    measure "point_outlier_rate" force kw (GPoints est) (Some (GPoints ref)) = gives (outlier_rate est ref) (fun v => AValue (Fin v)) /\
    measure "point_stats_sigma_mad" force kw (GPoints est) (Some (GPoints ref)) = gives (sigma_mad est ref) AValue.
Proof. exact (@c133_points). Qed.

(** C133: in chunks every digest is created with [tdigest_compression] and the median of the deviations takes [num_bins] bins. *)
Theorem C133_chunks : forall (T : Type) (N : Num T) (D Cs : Type) (digest_of : mval (T := T) -> list T -> D) (centroids_of : D -> Cs) (of_centroids : mval (T := T) -> Cs -> D) (add : D -> D -> D)
  (view : D -> digest T) (argsort : list T -> list nat),
  let measure_chunks := MetricObjects.measure_chunks D Cs digest_of centroids_of of_centroids add view argsort in
  let digested {A} := @digested T N D Cs digest_of centroids_of of_centroids add A in
  forall force kw chunks k bins, callable kw -> has kw "tdigest_compression" (MInt 1000) k ->
    has kw "num_bins" (MInt 1000000) (MInt (Z.of_nat bins)) ->
    measure_chunks "point_stats_iqr" force kw chunks = digested k (fun d => iqr_digest (view d)) chunks /\
    measure_chunks "point_bias" force kw chunks = digested k (fun d => bias_digest (view d)) chunks /\
    measure_chunks "point_outlier_rate" force kw chunks = digested k (fun d => outlier_digest (view d)) chunks /\
    measure_chunks "point_stats_sigma_mad" force kw chunks =
      match digested k (fun d => mad_digest argsort bins (view d)) chunks with Ok r => r | Err x => Err x end.
Proof. exact (@c133_chunks). Qed.

Example C133_example : callable example_kw /\
  has example_kw "moment_order" (MInt 1) (MInt 2) /\ has example_kw "limits" limits_03 (MPair (Fin 0%Q) (Fin 2%Q)) /\ has example_kw "dx" (MNum (nfrac 1 100)) (MNum (1 # 100)%Q) /\
  outcome "moment" example_kw None /\ outcome "brier" example_kw (Some TypeError) /\ outcome "moments" example_kw (Some KeyError) /\
  only [("dx", MNum (1 # 10)%Q)] ["limits"; "dx"; "tdigest_compression"].
Proof. exact c133_example. Qed.

Example C133_call_example : exists force kw est ref,
  callable kw /\ ~ only kw ["tdigest_compression"] /\
  measure (T := Q) (fun x => x) (fun x => x) (fun _ => None) (fun _ _ _ => Err NotModelled) (fun _ => Err NotModelled) (fun _ _ _ => Err NotModelled)
    (fun _ _ _ => Err NotModelled) (fun _ => Err NotModelled) 0 "point_stats_iqr" force kw (GPoints est) (Some (GPoints ref)) = Ok (AValue (Fin (2000 # 1349)%Q)) /\
  measure (T := Q) (fun x => x) (fun x => x) (fun _ => None) (fun _ _ _ => Err NotModelled) (fun _ => Err NotModelled) (fun _ _ _ => Err NotModelled)
    (fun _ _ _ => Err NotModelled) (fun _ => Err NotModelled) 0 "point_stats_iqr" force kw (GPoints est) None = Err TypeError.
Proof. exact c133_call_example. Qed.

Print Assumptions C133_create.
Print Assumptions C133_inputs.
Print Assumptions C133_arguments.
Print Assumptions C133_moment.
Print Assumptions C133_kld.
Print Assumptions C133_rbpe.
Print Assumptions C133_outlier.
Print Assumptions C133_fit.
Print Assumptions C133_brier.
Print Assumptions C133_pit.
Print Assumptions C133_cde.
Print Assumptions C133_points.
Print Assumptions C133_chunks.
