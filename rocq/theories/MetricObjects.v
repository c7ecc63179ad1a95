(** Model of the metric objects: the classes of qp/metrics/base_metric_classes.py, concrete_metric_classes.py and
    point_estimate_metric_classes.py, their constructors and their methods [evaluate], [accumulate] and [finalize]. *)
From Coq Require Import String List Arith ZArith Bool.
From Verif Require Import Num Py NdArray NumpyLib ScipyWrap Values Ensemble QuantPdf Metrics Fit PointMetrics Pit Digest Rbpe MetricRegistry.
Import ListNotations.
Local Open Scope string_scope.
Local Open Scope list_scope.

(** ** The classes, in the order in which [import qp.metrics] defines them (base_metric_classes.py 71, 111, 121, 132, 151, 177,
    concrete_metric_classes.py 28 to 303, point_estimate_metric_classes.py 10 to 229), with their bases and names *)
Definition qp_classes : list mclass :=
  [ mkmclass [] "";                              (*  0 BaseMetric *)
    mkmclass [0] ""; mkmclass [0] "";            (*  1 SingleEnsembleMetric, 2 DistToDistMetric *)
    mkmclass [0] ""; mkmclass [0] "";            (*  3 DistToPointMetric, 4 PointToPointMetric *)
    mkmclass [0] "";                             (*  5 PointToDistMetric *)
    mkmclass [3] "";                             (*  6 DistToPointMetricDigester *)
    mkmclass [1] "moment"; mkmclass [2] "kld";   (*  7 MomentMetric, 8 KLDMetric *)
    mkmclass [2] "rmse"; mkmclass [1] "rbpe";    (*  9 RMSEMetric, 10 RBPEMetric *)
    mkmclass [6] "brier"; mkmclass [1] "outlier";(* 11 BrierMetric, 12 OutlierMetric *)
    mkmclass [2] "ad"; mkmclass [2] "cvm";       (* 13 ADMetric, 14 CvMMetric *)
    mkmclass [2] "ks"; mkmclass [6] "pit";       (* 15 KSMetric, 16 PITMetric *)
    mkmclass [6] "cdeloss";                      (* 17 CDELossMetric *)
    mkmclass [4] "";                             (* 18 PointToPointMetricDigester *)
    mkmclass [4] "point_stats_ez";               (* 19 PointStatsEz *)
    mkmclass [18] "point_stats_iqr";             (* 20 PointSigmaIQR *)
    mkmclass [18] "point_bias";                  (* 21 PointBias *)
    mkmclass [18] "point_outlier_rate";          (* 22 PointOutlierRate *)
    mkmclass [18] "point_stats_sigma_mad" ].     (* 23 PointSigmaMAD *)
Definition imported : mworld := mkmworld qp_classes [].

(** base_metric_classes.py 6-28 *)
Inductive input_type := IT_unknown | IT_single_ensemble | IT_dist_to_point | IT_dist_to_dist | IT_point_to_point | IT_point_to_dist.
(** 30-53 *)
Definition uses_distribution_for_estimate (t : input_type) : bool :=
  match t with IT_single_ensemble | IT_dist_to_point | IT_dist_to_dist => true | _ => false end.
Definition uses_distribution_for_reference (t : input_type) : bool :=
  match t with IT_dist_to_dist | IT_point_to_dist => true | _ => false end.
Definition uses_point_for_estimate (t : input_type) : bool :=
  match t with IT_point_to_dist | IT_point_to_point => true | _ => false end.
Definition uses_point_for_reference (t : input_type) : bool :=
  match t with IT_dist_to_point | IT_point_to_point => true | _ => false end.
(** The attribute [metric_input_type] (77-79, 114, 126, 137, 156, 182), inherited from the bases otherwise *)
Fixpoint input_type_from (fuel : nat) (c : nat) : input_type :=
  match c with
  | 0 => IT_unknown | 1 => IT_single_ensemble | 2 => IT_dist_to_dist | 3 => IT_dist_to_point | 4 => IT_point_to_point | 5 => IT_point_to_dist
  | _ => match fuel, mc_bases (nth c qp_classes (mkmclass [] "")) with S fuel, b :: _ => input_type_from fuel b | _, _ => IT_unknown end
  end.
Definition metric_input_type (c : nat) : input_type := input_type_from (length qp_classes) c.

Section Objects.
  Context {T : Type} {N : Num T}.
  Local Open Scope num_scope.

  (** The Python values of the parameters: integers, floats, pairs of floats, arrays and None *)
  Inductive mval := MInt (z : Z) | MNum (x : T) | MPair (a b : xnum T) | MList (l : list T) | MNone.
  Definition kwargs := dict string mval.
  Definition attrs := dict string mval.
  (** Binding of the keyword [k] with a default value, and the keywords that are left *)
  Definition bound (kw : kwargs) (k : string) (default : mval) : mval :=
    match dget String.eqb kw k with Some v => v | None => default end.
  Definition rest (kw : kwargs) (k : string) : kwargs := filter (fun p => negb (String.eqb (fst p) k)) kw.
  Definition set (self : attrs) (a : string) (v : mval) : attrs := dset String.eqb self a v.
  (** [self.a] *)
  Definition attr (self : attrs) (a : string) : res mval :=
    match dget String.eqb self a with Some v => Ok v | None => Err AttributeError end.

  Definition default_limits : mval := MPair (Fin n0) (Fin (nofZ 3)).
  Definition default_dx : mval := MNum (nfrac 1 100).

  (** base_metric_classes.py 84-86 [BaseMetric.__init__(self, limits=(0.0, 3.0), dx=0.01)], called with keywords: any other keyword
      is a TypeError *)
  Definition base_init (kw : kwargs) : res attrs :=
    let limits := bound kw "limits" default_limits in
    let dx := bound kw "dx" default_dx in
    match rest (rest kw "limits") "dx" with
    | [] => Ok (set (set [] "_limits" limits) "_dx" dx)
    | _ => Err TypeError
    end.
  (** the same with positional arguments, as in [super().__init__(limits, dx)] *)
  Definition base_init_at (limits dx : mval) : attrs := set (set [] "_limits" limits) "_dx" dx.

  (** concrete_metric_classes.py 30-32 [DistToPointMetricDigester.__init__] *)
  Definition dist_digester_init (kw : kwargs) : res attrs :=
    let compression := bound kw "tdigest_compression" (MInt 1000) in
    let* self := base_init (rest kw "tdigest_compression") in
    Ok (set self "_tdigest_compression" compression).
  (** 74-82 *)
  Definition moment_init (kw : kwargs) : res attrs :=
    Ok (set (base_init_at (bound kw "limits" default_limits) (bound kw "dx" default_dx)) "_moment_order" (bound kw "moment_order" (MInt 1))).
  (** 94-95, 107-108 *)
  Definition kld_init (kw : kwargs) : res attrs := Ok (base_init_at (bound kw "limits" default_limits) (bound kw "dx" default_dx)).
  Definition rmse_init (kw : kwargs) : res attrs := Ok (base_init_at (bound kw "limits" default_limits) (bound kw "dx" default_dx)).
  (** 120-121 *)
  Definition rbpe_init (kw : kwargs) : res attrs := Ok (base_init_at (bound kw "limits" (MPair PInf PInf)) default_dx).
  (** 135-137: [kwargs] are the keywords left, to which limits and dx are added again *)
  Definition brier_init (kw : kwargs) : res attrs :=
    let limits := bound kw "limits" default_limits in
    let dx := bound kw "dx" default_dx in
    dist_digester_init (set (set (rest (rest kw "limits") "dx") "limits" limits) "dx" dx).
  (** 160-162 *)
  Definition outlier_init (kw : kwargs) : res attrs :=
    Ok (set (base_init_at default_limits default_dx) "_cdf_limits" (bound kw "cdf_limits" (MPair (Fin (nfrac 1 10000)) (Fin (nfrac 9999 10000))))).
  (** 176-181, 207-212, 238-243 *)
  Definition fit_init (kw : kwargs) : res attrs :=
    Ok (set (set (base_init_at default_limits default_dx) "_num_samples" (bound kw "num_samples" (MInt 100)))
          "_random_state" (bound kw "_random_state" MNone)).
  (** 268, 270-272 *)
  Definition pit_init (kw : kwargs) : res attrs :=
    let eval_grid := bound kw "eval_grid" (MList (np_linspace n0 n1 100)) in
    let* self := dist_digester_init (rest kw "eval_grid") in
    Ok (set self "_eval_grid" eval_grid).
  (** 308, 310-312 *)
  Definition cde_init (kw : kwargs) : res attrs :=
    let* self := dist_digester_init [] in
    Ok (set self "_xvals" (bound kw "eval_grid" (MList (np_linspace n0 (nfrac 5 2) 301)))).
  (** point_estimate_metric_classes.py 12-14 [PointToPointMetricDigester.__init__] *)
  Definition point_digester_init (kw : kwargs) : res attrs :=
    Ok (set (base_init_at default_limits default_dx) "_tdigest_compression" (bound kw "tdigest_compression" (MInt 1000))).
  (** 78-79 *)
  Definition ez_init (kw : kwargs) : res attrs :=
    match kw with [] => Ok (base_init_at default_limits default_dx) | _ => Err TypeError end.
  (** 238-242 *)
  Definition mad_init (kw : kwargs) : res attrs :=
    let* self := point_digester_init kw in
    let self := set self "_num_bins" (MInt 1000000) in
    Ok (match dget String.eqb kw "num_bins" with Some v => set self "_num_bins" v | None => self end).

  (** [metric_class( **kwargs)] (factory.py 55); 107-108, 147-148, 181-182 hand everything to the base.  Every constructor has the
      parameter [self], which cannot be given again. *)
  Definition construct (c : nat) (kw : kwargs) : res attrs :=
    match dget String.eqb kw "self" with
    | Some _ => Err TypeError
    | None =>
        match c with
        | 7 => moment_init kw | 8 => kld_init kw | 9 => rmse_init kw | 10 => rbpe_init kw | 11 => brier_init kw | 12 => outlier_init kw
        | 13 | 14 | 15 => fit_init kw | 16 => pit_init kw | 17 => cde_init kw
        | 19 => ez_init kw | 20 | 21 | 22 => point_digester_init kw | 23 => mad_init kw
        | _ => Err NotModelled
        end
    end.
  (** factory.py 45-55.  [kw] are the keywords other than [name] and [force_update]; the parameter [cls] cannot be given again. *)
  Definition new_metric (name : string) (force : bool) (kw : kwargs) : res (nat * attrs) :=
    match dget String.eqb kw "cls" with
    | Some _ => Err TypeError
    | None => let* c := fst (create_metric name force imported) in
              let* self := construct c kw in Ok (c, self)
    end.

  (** ** Methods.  What is external: numpy's log and sqrt, the classes of PDFs, scipy's quad and minimize_scalar, sampling
      ([estimate.rvs(size, random_state)]), [qp.quant.create] and pytdigest, whose digests are created with a compression. *)
  Variables nlog nsqrt : T -> T.
  Variable class_create : string -> option (vdict T -> res (gobj T)).
  Variable quad : (T -> res T) -> T -> T -> res T.
  Variable minimize : (T -> res T) -> res T.
  Variable minimize_within : (T -> res T) -> T -> T -> res T.
  Variable rvs : ens T -> nat -> mval -> res (list (list T)).
  Variable quant_create : vdict T -> res (gobj T).
  Variables D Cs : Type.
  Variable digest_of : mval -> list T -> D.
  Variable centroids_of : D -> Cs.
  Variable of_centroids : mval -> Cs -> D.
  Variable add : D -> D -> D.
  Variable view : D -> digest T.
  Variable argsort : list T -> list nat.
  (** steps an iteration over an ensemble may take *)
  Variable fuel : nat.

  (** What a metric is given and what it returns *)
  Inductive minput := GEns (e : ens T) | GPoints (l : list T).
  Inductive manswer := AValues (l : list (xnum T)) | AValue (x : xnum T) | AEns (e : ens T).
  (** SIMPLIFICATION: an object of another type is not modelled *)
  Definition as_ens (i : minput) : res (ens T) := match i with GEns e => Ok e | _ => Err NotModelled end.
  Definition as_points (i : minput) : res (list T) := match i with GPoints l => Ok l | _ => Err NotModelled end.
  Definition as_pair (v : mval) : res (T * T) := match v with MPair (Fin a) (Fin b) => Ok (a, b) | _ => Err NotModelled end.
  Definition as_xpair (v : mval) : res (xnum T * xnum T) := match v with MPair a b => Ok (a, b) | _ => Err NotModelled end.
  Definition as_num (v : mval) : res T := match v with MNum x => Ok x | _ => Err NotModelled end.
  Definition as_nat (v : mval) : res nat := match v with MInt z => if (z <? 0)%Z then Err NotModelled else Ok (Z.to_nat z) | _ => Err NotModelled end.
  Definition as_list (v : mval) : res (list T) := match v with MList l => Ok l | _ => Err NotModelled end.

  (** concrete_metric_classes.py 84-85 *)
  Definition moment_evaluate (self : attrs) (estimate : ens T) : res manswer :=
    let* o := attr self "_moment_order" in let* n := as_nat o in
    let* l := attr self "_limits" in let* lh := as_pair l in
    let* d := attr self "_dx" in let* dx := as_num d in
    let* v := calculate_moment estimate n (fst lh) (snd lh) dx in Ok (AValues (map Fin v)).
  (** 97-98, 110-111 *)
  Definition kld_evaluate (self : attrs) (estimate reference : ens T) : res manswer :=
    let* l := attr self "_limits" in let* lh := as_pair l in
    let* d := attr self "_dx" in let* dx := as_num d in
    let* v := calculate_kld nlog estimate reference (fst lh) (snd lh) dx in Ok (AValues (map Fin v)).
  Definition rmse_evaluate (self : attrs) (estimate reference : ens T) : res manswer :=
    let* l := attr self "_limits" in let* lh := as_pair l in
    let* d := attr self "_dx" in let* dx := as_num d in
    let* v := calculate_rmse nsqrt estimate reference (fst lh) (snd lh) dx in Ok (AValues (map Fin v)).
  (** 123-124 *)
  Definition rbpe_evaluate (self : attrs) (estimate : ens T) : res manswer :=
    let* l := attr self "_limits" in let* lh := as_xpair l in
    let* v := calculate_rbpe class_create quad minimize minimize_within estimate lh in Ok (AValues (map Fin v)).
  (** 139-140 *)
  Definition brier_object_evaluate (self : attrs) (estimate : ens T) (reference : list T) : res manswer :=
    let* l := attr self "_limits" in let* lh := as_pair l in
    let* d := attr self "_dx" in let* dx := as_num d in
    let* v := calculate_brier estimate reference (fst lh) (snd lh) dx in Ok (AValue v).
  (** 164-167; an iteration longer than [fuel] is not modelled *)
  Definition outlier_evaluate (self : attrs) (estimate : ens T) : res manswer :=
    let* l := attr self "_cdf_limits" in let* lh := as_pair l in
    match calculate_outlier_rate class_create estimate (fst lh) (snd lh) fuel with
    | Some r => let* v := r in Ok (AValues v)
    | None => Err NotModelled
    end.
  (** 191-198, 222-229, 253-260: [fit_metric=self.metric_name] *)
  Definition fit_evaluate (name : string) (self : attrs) (estimate reference : ens T) : res manswer :=
    let* s := attr self "_num_samples" in let* n := as_nat s in
    let* seed := attr self "_random_state" in
    let* samples := rvs estimate n seed in
    let* v := calculate_goodness_of_fit nlog samples reference name in Ok (AValues v).
  (** 274-276; pit.py 72-81 [PIT.pit] *)
  Definition pit_evaluate (self : attrs) (estimate : ens T) (reference : list T) : res manswer :=
    let* g := attr self "_eval_grid" in let* grid := as_list g in
    let* r := pit_new quant_create estimate reference grid in Ok (AEns (snd r)).
  (** 314-329 *)
  Definition cde_object_evaluate (self : attrs) (estimate : ens T) (reference : list T) : res manswer :=
    let* g := attr self "_xvals" in let* grid := as_list g in
    let* v := cde_evaluate grid estimate reference in Ok (AValue v).

  (** [metric.evaluate(estimate, reference)] or [metric.evaluate(estimate)]: a missing or an additional argument is a TypeError.
      Classes 19 to 23: point_estimate_metric_classes.py 81-98, 110-130, 150-165, 184-207, 244-264 (PointMetrics.v). *)
  Definition evaluate (c : nat) (self : attrs) (estimate : minput) (reference : option minput) : res manswer :=
    match c, reference with
    | 7, None => let* e := as_ens estimate in moment_evaluate self e
    | 10, None => let* e := as_ens estimate in rbpe_evaluate self e
    | 12, None => let* e := as_ens estimate in outlier_evaluate self e
    | 8, Some r => let* e := as_ens estimate in let* q := as_ens r in kld_evaluate self e q
    | 9, Some r => let* e := as_ens estimate in let* q := as_ens r in rmse_evaluate self e q
    | 13, Some r => let* e := as_ens estimate in let* q := as_ens r in fit_evaluate "ad" self e q
    | 14, Some r => let* e := as_ens estimate in let* q := as_ens r in fit_evaluate "cvm" self e q
    | 15, Some r => let* e := as_ens estimate in let* q := as_ens r in fit_evaluate "ks" self e q
    | 11, Some r => let* e := as_ens estimate in let* t := as_points r in brier_object_evaluate self e t
    | 16, Some r => let* e := as_ens estimate in let* t := as_points r in pit_evaluate self e t
    | 17, Some r => let* e := as_ens estimate in let* t := as_points r in cde_object_evaluate self e t
    | 19, Some r => let* e := as_points estimate in let* t := as_points r in let* v := ez e t in Ok (AValues (map Fin v))
    | 20, Some r => let* e := as_points estimate in let* t := as_points r in let* v := sigma_iqr e t in Ok (AValue (Fin v))
    | 21, Some r => let* e := as_points estimate in let* t := as_points r in let* v := point_bias e t in Ok (AValue v)
    | 22, Some r => let* e := as_points estimate in let* t := as_points r in let* v := outlier_rate e t in Ok (AValue (Fin v))
    | 23, Some r => let* e := as_points estimate in let* t := as_points r in let* v := sigma_mad e t in Ok (AValue v)
    | _, _ => Err TypeError
    end.

  (** [create_metric(name, force_update, **kwargs).evaluate(...)] *)
  Definition measure (name : string) (force : bool) (kw : kwargs) (estimate : minput) (reference : option minput) : res manswer :=
    let* cs := new_metric name force kw in evaluate (fst cs) (snd cs) estimate reference.

  (** ** Chunks of points: [accumulate] (point_estimate_metric_classes.py 19-39) and [finalize] (41-63) with the
      [compute_from_digest] of the class (132-136, 167-168, 209-226, 266-284) *)
  Definition object_accumulate (self : attrs) (estimate reference : list T) : res Cs :=
    let* k := attr self "_tdigest_compression" in
    accumulate (digest_of k) centroids_of estimate reference.
  Definition compute_from_digest (c : nat) (self : attrs) (d : D) : res T :=
    match c with
    | 20 => Ok (iqr_digest (view d))
    | 21 => Ok (bias_digest (view d))
    | 22 => Ok (outlier_digest (view d))
    | 23 => let* b := attr self "_num_bins" in let* n := as_nat b in mad_digest argsort n (view d)
    | _ => Err NotModelled
    end.
  Definition object_finalize (c : nat) (self : attrs) (centroids : list Cs) : res T :=
    let* k := attr self "_tdigest_compression" in
    let* r := finalize_digests (of_centroids k) add (compute_from_digest c self) centroids in r.
  (** A program that creates the metric, accumulates the chunks and finalizes *)
  Definition measure_chunks (name : string) (force : bool) (kw : kwargs) (chunks : list (list T * list T)) : res T :=
    let* cs := new_metric name force kw in
    let* cents := mapM (fun er => object_accumulate (snd cs) (fst er) (snd er)) chunks in
    object_finalize (fst cs) (snd cs) cents.
End Objects.
