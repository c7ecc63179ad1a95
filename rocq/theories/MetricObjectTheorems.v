(** Metric objects: what the constructors accept and what is computed with the parameters given or left out (C133). *)
From Coq Require Import QArith String List Arith ZArith Bool Lia.
From Verif Require Import Num Py NdArray NumpyLib ScipyWrap Values Ensemble QuantPdf Metrics Fit PointMetrics Pit Digest Rbpe MetricRegistry MetricObjects.
Import ListNotations.
Local Open Scope string_scope.
Local Close Scope Q_scope.
Local Open Scope nat_scope.
Local Open Scope list_scope.

(** ** What the statements say *)
(** the keyword [k] is given with the value [v] *)
Definition says {V} (kw : list (string * V)) (k : string) (v : V) : Prop := exists before after, kw = before ++ (k, v) :: after /\ ~ In k (map fst before).
(** the parameter [k] has the value [v]: given, or the default [d] *)
Definition has {V} (kw : list (string * V)) (k : string) (d v : V) : Prop := says kw k v \/ (~ In k (map fst kw) /\ v = d).
(** only keywords of the list [allowed] are given *)
Definition only {V} (kw : list (string * V)) (allowed : list string) : Prop := forall k, In k (map fst kw) -> In k allowed.
(** no keyword repeats the first parameter of the factory or of a constructor *)
Definition callable {V} (kw : list (string * V)) : Prop := ~ In "self" (map fst kw) /\ ~ In "cls" (map fst kw).
Definition metric_names : list string :=
  ["moment"; "kld"; "rmse"; "rbpe"; "brier"; "outlier"; "ad"; "cvm"; "ks"; "pit"; "cdeloss";
   "point_stats_ez"; "point_stats_iqr"; "point_bias"; "point_outlier_rate"; "point_stats_sigma_mad"].
(** the keywords that a metric refuses nothing but *)
Definition strict (name : string) (allowed : list string) : Prop :=
  (name = "brier" /\ allowed = ["limits"; "dx"; "tdigest_compression"]) \/
  (name = "pit" /\ allowed = ["eval_grid"; "tdigest_compression"; "limits"; "dx"]) \/
  (name = "point_stats_ez" /\ allowed = []).
Inductive kind_of_input := Distributions | Points.
(** what [evaluate] takes *)
Definition takes (name : string) (estimate : kind_of_input) (reference : option kind_of_input) : Prop :=
  (In name ["moment"; "rbpe"; "outlier"] /\ estimate = Distributions /\ reference = None) \/
  (In name ["kld"; "rmse"; "ad"; "cvm"; "ks"] /\ estimate = Distributions /\ reference = Some Distributions) \/
  (In name ["brier"; "pit"; "cdeloss"] /\ estimate = Distributions /\ reference = Some Points) \/
  (In name ["point_stats_ez"; "point_stats_iqr"; "point_bias"; "point_outlier_rate"; "point_stats_sigma_mad"] /\ estimate = Points /\ reference = Some Points).

(** ** Dictionaries *)
Lemma dget_none {V} (kw : dict string V) k : dget String.eqb kw k = None <-> ~ In k (map fst kw).
Proof.
  induction kw as [|[a v] t IH]; simpl; [tauto|]. destruct (String.eqb_spec k a) as [<-|E].
  - split; [discriminate|]. intros H. destruct H; auto.
  - rewrite IH. split; intros H; [intros [A|A]; [congruence|tauto]|tauto].
Qed.
Lemma dget_says {V} (kw : dict string V) k v : dget String.eqb kw k = Some v <-> says kw k v.
Proof.
  unfold says. induction kw as [|[a w] t IH]; simpl.
  - split; [discriminate|]. intros (b & r & E & _). destruct b; discriminate.
  - destruct (String.eqb_spec k a) as [<-|E].
    + split.
      * intros [= ->]. exists [], t. split; auto.
      * intros (b & r & E & H). destruct b as [|[x y] b]; injection E as E1 E2.
        -- congruence.
        -- intros. subst. exfalso. apply H. simpl. auto.
    + rewrite IH. split.
      * intros (b & r & -> & H). exists ((a, w) :: b), r. split; auto. simpl. intros [A|A]; congruence || tauto.
      * intros (b & r & E1 & H). destruct b as [|[x y] b]; injection E1 as E1 E2.
        -- congruence.
        -- intros. exists b, r. split; auto. intros A. apply H. simpl. auto.
Qed.
Lemma has_bound {T} (kw : kwargs (T := T)) k d v : has kw k d v <-> bound kw k d = v.
Proof.
  unfold has, bound. destruct (dget String.eqb kw k) as [w|] eqn:E.
  - pose proof E as E'. apply dget_says in E'. split.
    + intros [H|[H _]]; [apply dget_says in H; congruence|]. apply dget_none in H. congruence.
    + intros ->. auto.
  - pose proof E as E'. apply dget_none in E'. split.
    + intros [H|[_ H]]; [apply dget_says in H; congruence|auto].
    + intros <-. auto.
Qed.
Lemma rest_in {T} (kw : kwargs (T := T)) k x : In x (map fst (rest kw k)) <-> In x (map fst kw) /\ x <> k.
Proof.
  unfold rest. rewrite !in_map_iff. split.
  - intros ([a v] & <- & H). apply filter_In in H. destruct H as [H B]. simpl in *. apply negb_true_iff, String.eqb_neq in B. split; auto.
    exists (a, v). auto.
  - intros (([a v] & <- & H) & B). exists (a, v). split; auto. apply filter_In. split; auto. simpl in *. apply negb_true_iff, String.eqb_neq. auto.
Qed.
Lemma rest_other {T} (kw : kwargs (T := T)) k x : x <> k -> dget String.eqb (rest kw k) x = dget String.eqb kw x.
Proof.
  intros N. unfold rest. induction kw as [|[a v] t IH]; simpl; auto. destruct (String.eqb_spec a k) as [->|E]; simpl.
  - rewrite IH. destruct (String.eqb_spec x k); congruence.
  - rewrite IH. auto.
Qed.
Lemma empty_keys {V} (l : list (string * V)) : l = [] <-> forall x, ~ In x (map fst l).
Proof. split; [intros ->; simpl; auto|]. destruct l as [|[a v] t]; auto. intros H. exfalso. apply (H a). simpl. auto. Qed.

(** ** The classes *)
Definition class_of (name : string) : option nat := dget String.eqb (metrics_of qp_classes) name.
Lemma metrics_list : metrics_of qp_classes =
  [("moment", 7); ("rbpe", 10); ("outlier", 12); ("kld", 8); ("rmse", 9); ("ad", 13); ("cvm", 14); ("ks", 15); ("brier", 11); ("pit", 16); ("cdeloss", 17);
   ("point_stats_iqr", 20); ("point_bias", 21); ("point_outlier_rate", 22); ("point_stats_sigma_mad", 23); ("point_stats_ez", 19)].
Proof. vm_compute. reflexivity. Qed.
Lemma create_class name force : fst (create_metric name force imported) = match class_of name with Some c => Ok c | None => Err KeyError end.
Proof.
  unfold create_metric, class_of. change (refresh force imported) with (update_metrics imported). unfold update_metrics.
  cbn [mw_dict mw_classes imported]. destruct (dget String.eqb (metrics_of qp_classes) name); reflexivity.
Qed.
Lemma class_names name : class_of name <> None <-> In name metric_names.
Proof.
  unfold class_of. rewrite dget_none, metrics_list. unfold metric_names. cbn [map fst In]. split.
  - intros H. destruct (in_dec string_dec name metric_names) as [A|A]; [exact A|]. exfalso. apply H. intros B. apply A. unfold metric_names. cbn [In]. tauto.
  - intros H A. apply A. tauto.
Qed.

Section Keywords.
  Context {T : Type} {N : Num T}.
  Notation kwargs := (@kwargs T).

  Lemma dset_keys (d : kwargs) k v x : In x (map fst (set d k v)) <-> x = k \/ In x (map fst d).
  Proof.
    unfold set. induction d as [|[a w] t IH]; simpl; [intuition congruence|]. destruct (String.eqb_spec k a) as [<-|E]; simpl; [intuition congruence|].
    rewrite IH. tauto.
  Qed.
  Lemma dset_get (d : kwargs) k v x : dget String.eqb (set d k v) x = if String.eqb x k then Some v else dget String.eqb d x.
  Proof.
    unfold set. induction d as [|[a w] t IH]; simpl; auto.
    destruct (String.eqb_spec k a) as [<-|E]; simpl.
    - destruct (String.eqb x k); reflexivity.
    - rewrite IH. destruct (String.eqb_spec x a) as [->|E2]; auto. destruct (String.eqb_spec a k); congruence.
  Qed.
  Lemma base_init_ok (kw : kwargs) : (exists s, base_init kw = Ok s) <-> only kw ["limits"; "dx"].
  Proof.
    unfold base_init. assert (H : rest (rest kw "limits") "dx" = [] <-> only kw ["limits"; "dx"]).
    { rewrite (empty_keys (rest (rest kw "limits") "dx")). unfold only. split.
      - intros H x Hx. specialize (H x). rewrite !rest_in in H. simpl. destruct (string_dec x "limits"), (string_dec x "dx"); auto. tauto.
      - intros H x Hx. rewrite !rest_in in Hx. destruct Hx as ((A & B) & C). apply H in A. simpl in A. intuition congruence. }
    rewrite <- H. destruct (rest (rest kw "limits") "dx"); split; try discriminate; [eauto|eauto|]. intros (s & A). discriminate.
  Qed.
  Lemma base_init_err (kw : kwargs) x : base_init kw = Err x -> x = TypeError.
  Proof. unfold base_init. destruct (rest (rest kw "limits") "dx"); [discriminate|congruence]. Qed.
  Lemma base_init_val (kw : kwargs) s : base_init kw = Ok s ->
    dget String.eqb s "_limits" = Some (bound kw "limits" default_limits) /\ dget String.eqb s "_dx" = Some (bound kw "dx" default_dx).
  Proof. unfold base_init. destruct (rest (rest kw "limits") "dx"); [|discriminate]. intros [= <-]. split; reflexivity. Qed.
  Lemma digester_ok (kw : kwargs) : (exists s, dist_digester_init kw = Ok s) <-> only kw ["tdigest_compression"; "limits"; "dx"].
  Proof.
    unfold dist_digester_init. assert (H : only (rest kw "tdigest_compression") ["limits"; "dx"] <-> only kw ["tdigest_compression"; "limits"; "dx"]).
    { unfold only. split; intros H x Hx.
      - specialize (H x). rewrite rest_in in H. destruct (string_dec x "tdigest_compression") as [->|E]; [simpl; auto|].
        specialize (H (conj Hx E)). simpl in *. tauto.
      - rewrite rest_in in Hx. destruct Hx as [A B]. apply H in A. simpl in *. intuition congruence. }
    rewrite <- H, <- base_init_ok. destruct (base_init (rest kw "tdigest_compression")); simpl; split; intros (s & A); try discriminate; eauto.
  Qed.
  Lemma digester_err (kw : kwargs) x : dist_digester_init kw = Err x -> x = TypeError.
  Proof.
    unfold dist_digester_init. destruct (base_init (rest kw "tdigest_compression")) eqn:E; simpl; [discriminate|]. intros [= <-]. apply base_init_err in E. auto.
  Qed.
  Lemma digester_val (kw : kwargs) s : dist_digester_init kw = Ok s ->
    dget String.eqb s "_limits" = Some (bound kw "limits" default_limits) /\ dget String.eqb s "_dx" = Some (bound kw "dx" default_dx) /\
    dget String.eqb s "_tdigest_compression" = Some (bound kw "tdigest_compression" (MInt 1000)).
  Proof.
    unfold dist_digester_init. destruct (base_init (rest kw "tdigest_compression")) eqn:E; simpl; [|discriminate]. intros [= <-].
    apply base_init_val in E. destruct E as [A B]. rewrite !dset_get. simpl. rewrite A, B. unfold bound. rewrite !rest_other by discriminate. auto.
  Qed.
  Definition brier_kw (kw : kwargs) : kwargs :=
    set (set (rest (rest kw "limits") "dx") "limits" (bound kw "limits" default_limits)) "dx" (bound kw "dx" default_dx).
  Lemma brier_only (kw : kwargs) : only (brier_kw kw) ["tdigest_compression"; "limits"; "dx"] <-> only kw ["limits"; "dx"; "tdigest_compression"].
  Proof.
    unfold only, brier_kw. split; intros H x Hx.
    - destruct (string_dec x "limits") as [->|A]; [simpl; auto|]. destruct (string_dec x "dx") as [->|B]; [simpl; auto|].
      specialize (H x). rewrite !dset_keys, !rest_in in H. assert (In x ["tdigest_compression"; "limits"; "dx"]) as G by (apply H; tauto). simpl in *. tauto.
    - rewrite !dset_keys, !rest_in in Hx. destruct Hx as [->|[->|((A & _) & _)]]; [simpl; auto|simpl; auto|]. apply H in A. simpl in *. tauto.
  Qed.
  Lemma brier_val (kw : kwargs) s : brier_init kw = Ok s ->
    dget String.eqb s "_limits" = Some (bound kw "limits" default_limits) /\ dget String.eqb s "_dx" = Some (bound kw "dx" default_dx) /\
    dget String.eqb s "_tdigest_compression" = Some (bound kw "tdigest_compression" (MInt 1000)).
  Proof.
    unfold brier_init. cbv zeta. fold (brier_kw kw). intros E. apply digester_val in E. destruct E as (A & B & C). rewrite A, B, C. unfold brier_kw, bound.
    rewrite !dset_get. simpl. rewrite !rest_other by discriminate. auto.
  Qed.
  Lemma pit_only (kw : kwargs) : only (rest kw "eval_grid") ["tdigest_compression"; "limits"; "dx"] <-> only kw ["eval_grid"; "tdigest_compression"; "limits"; "dx"].
  Proof.
    unfold only. split; intros H x Hx.
    - destruct (string_dec x "eval_grid") as [->|A]; [simpl; auto|]. specialize (H x). rewrite rest_in in H. specialize (H (conj Hx A)). simpl in *. tauto.
    - rewrite rest_in in Hx. destruct Hx as [A B]. apply H in A. simpl in *. intuition congruence.
  Qed.

  (** What the factory creates *)
  Lemma new_of name force (kw : kwargs) c : callable kw -> class_of name = Some c ->
    new_metric name force kw = (let* self := construct c kw in Ok (c, self)).
  Proof.
    intros [A B] H. unfold new_metric. apply dget_none in B. rewrite B, create_class, H. reflexivity.
  Qed.
  Lemma construct_of c (kw : kwargs) : callable kw -> construct c kw =
    match c with
        | 7 => moment_init kw | 8 => kld_init kw | 9 => rmse_init kw | 10 => rbpe_init kw | 11 => brier_init kw | 12 => outlier_init kw
        | 13 | 14 | 15 => fit_init kw | 16 => pit_init kw | 17 => cde_init kw
        | 19 => ez_init kw | 20 | 21 | 22 => point_digester_init kw | 23 => mad_init kw
        | _ => Err NotModelled
    end.
  Proof. intros [A _]. unfold construct. apply dget_none in A. rewrite A. reflexivity. Qed.

  (** The outcome of creating a metric *)
  Definition outcome (name : string) (kw : kwargs) : option exn -> Prop := fun o =>
    match o with
    | None => In name metric_names /\ callable kw /\ forall allowed, strict name allowed -> only kw allowed
    | Some KeyError => ~ In name metric_names /\ ~ In "cls" (map fst kw)
    | Some TypeError => In "cls" (map fst kw) \/ (In name metric_names /\ (In "self" (map fst kw) \/ exists allowed, strict name allowed /\ ~ only kw allowed))
    | _ => False
    end.
  Lemma only_dec (kw : kwargs) l : only kw l \/ ~ only kw l.
  Proof.
    unfold only. induction (map fst kw) as [|a t IH]; [left; simpl; tauto|]. destruct (in_dec string_dec a l) as [A|A].
    - destruct IH as [B|B].
      + left. intros k [<-|H]; auto.
      + right. intros H. apply B. intros k Hk. apply H. simpl. auto.
    - right. intros H. apply A, H. simpl. auto.
  Qed.
  Lemma plain name c (kw : kwargs) : class_of name = Some c -> callable kw -> (forall allowed, ~ strict name allowed) ->
    (exists s, construct c kw = Ok s) -> outcome name kw (match construct c kw with Ok _ => None | Err x => Some x end).
  Proof.
    intros H C S (s & E). rewrite E. simpl. split; [apply class_names; congruence|]. split; auto. intros a A. destruct (S a A).
  Qed.
  Lemma c133_outcome : forall name force (kw : kwargs),
    outcome name kw (match new_metric name force kw with Ok _ => None | Err x => Some x end).
  Proof.
    intros name force kw. unfold new_metric. destruct (dget String.eqb kw "cls") eqn:Ec.
    { simpl. left. destruct (in_dec string_dec "cls" (map fst kw)) as [A|A]; auto. apply dget_none in A. congruence. }
    rewrite create_class. destruct (class_of name) as [c|] eqn:H; simpl.
    2: { split; [|apply dget_none; exact Ec]. intros A. apply class_names in A. congruence. }
    destruct (dget String.eqb kw "self") eqn:Es.
    { unfold construct. rewrite Es. simpl. right. split; [apply class_names; congruence|]. left.
      destruct (in_dec string_dec "self" (map fst kw)) as [A|A]; auto. apply dget_none in A. congruence. }
    assert (C : callable kw) by (split; apply dget_none; auto).
    assert (G : outcome name kw (match construct c kw with Ok _ => None | Err x => Some x end)).
    2: { destruct (construct c kw); exact G. }
    pose proof H as H0. unfold class_of in H. rewrite metrics_list in H. cbn [dget] in H.
    repeat match type of H with
    | (if String.eqb name ?s then _ else _) = _ => destruct (String.eqb_spec name s) as [->|?]; [injection H as <-|]
    end; [..|discriminate H].
    all: try (apply plain; auto; [intros a [(X & _)|[(X & _)|(X & _)]]; discriminate X|rewrite construct_of by auto; eexists; reflexivity]).
    - (* brier *)
      rewrite construct_of by auto. unfold brier_init. cbv zeta. fold (brier_kw kw).
      destruct (only_dec kw ["limits"; "dx"; "tdigest_compression"]) as [A|A].
      + pose proof A as A'. apply brier_only, digester_ok in A'. destruct A' as (s & E). rewrite E. simpl. split; [tauto|]. split; auto.
        intros a [(_ & ->)|[(X & _)|(X & _)]]; auto; discriminate X.
      + destruct (dist_digester_init (brier_kw kw)) as [s|x] eqn:E.
        * exfalso. apply A, brier_only, digester_ok. eauto.
        * apply digester_err in E. subst x. simpl. right. split; [tauto|]. right. eexists. split; [left; split; reflexivity|auto].
    - (* pit *)
      rewrite construct_of by auto. unfold pit_init.
      destruct (only_dec kw ["eval_grid"; "tdigest_compression"; "limits"; "dx"]) as [A|A].
      + pose proof A as A'. apply pit_only, digester_ok in A'. destruct A' as (s & E). rewrite E. simpl. split; [tauto|]. split; auto.
        intros a [(X & _)|[(_ & ->)|(X & _)]]; auto; discriminate X.
      + destruct (dist_digester_init (rest kw "eval_grid")) as [s|x] eqn:E.
        * exfalso. apply A, pit_only, digester_ok. eauto.
        * apply digester_err in E. subst x. simpl. right. split; [tauto|]. right. eexists. split; [right; left; split; reflexivity|auto].
    - (* ez *)
      rewrite construct_of by auto. unfold ez_init. destruct kw as [|p t].
      + simpl. split; [tauto|]. split; auto. intros a _ k [].
      + simpl. right. split; [tauto|]. right. exists []. split; [right; right; auto|]. intros A. apply (A (fst p)). simpl. auto.
  Qed.
End Keywords.

Section Values.
  Context {T : Type} {N : Num T}.
  Variables nlog nsqrt : T -> T.
  Variable class_create : string -> option (vdict T -> res (gobj T)).
  Variable quad : (T -> res T) -> T -> T -> res T.
  Variable minimize : (T -> res T) -> res T.
  Variable minimize_within : (T -> res T) -> T -> T -> res T.
  Variable rvs : ens T -> nat -> mval (T := T) -> res (list (list T)).
  Variable quant_create : vdict T -> res (gobj T).
  Variables D Cs : Type.
  Variable digest_of : mval (T := T) -> list T -> D.
  Variable centroids_of : D -> Cs.
  Variable of_centroids : mval (T := T) -> Cs -> D.
  Variable add : D -> D -> D.
  Variable view : D -> digest T.
  Variable argsort : list T -> list nat.
  Variable fuel : nat.
  Notation measure := (measure nlog nsqrt class_create quad minimize minimize_within rvs quant_create fuel).
  Notation measure_chunks := (measure_chunks D Cs digest_of centroids_of of_centroids add view argsort).
  (** the outcome of a calculation as the answer of a metric *)
  Definition gives {A} (r : res A) (f : A -> manswer (T := T)) : res (manswer (T := T)) := match r with Ok v => Ok (f v) | Err x => Err x end.
  Definition numbers (l : list T) : manswer := AValues (map Fin l).

  Definition limits_03 : mval (T := T) := MPair (Fin n0) (Fin (nofZ 3%Z)).
  Ltac start name :=
    match goal with C : callable ?kw |- _ =>
      unfold MetricObjects.measure; rewrite (new_of name _ kw _ C) by (vm_compute; reflexivity); rewrite construct_of by exact C end.
  Ltac use := repeat match goal with H : has _ _ _ _ |- _ => apply has_bound in H end.

  Lemma c133_moment : forall force kw e n lo hi dx, callable kw ->
    has kw "moment_order" (MInt 1) (MInt (Z.of_nat n)) -> has kw "limits" limits_03 (MPair (Fin lo) (Fin hi)) -> has kw "dx" (MNum (nfrac 1 100)) (MNum dx) ->
    measure "moment" force kw (GEns e) None = gives (calculate_moment e n lo hi dx) numbers.
  Proof.
    intros force kw e n lo hi dx C H1 H2 H3. start "moment". use. unfold moment_init, default_limits, default_dx. fold limits_03. rewrite H1, H2, H3. cbn.
    assert (B : (Z.of_nat n <? 0)%Z = false) by (apply Z.ltb_ge; lia). unfold moment_evaluate. cbn. rewrite B. cbn. rewrite Nat2Z.id.
    unfold numbers, gives. destruct (calculate_moment e n lo hi dx); reflexivity.
  Qed.
  Lemma c133_kld : forall force kw p q lo hi dx, callable kw ->
    has kw "limits" limits_03 (MPair (Fin lo) (Fin hi)) -> has kw "dx" (MNum (nfrac 1 100)) (MNum dx) ->
    measure "kld" force kw (GEns p) (Some (GEns q)) = gives (calculate_kld nlog p q lo hi dx) numbers /\
    measure "rmse" force kw (GEns p) (Some (GEns q)) = gives (calculate_rmse nsqrt p q lo hi dx) numbers.
  Proof.
    intros force kw p q lo hi dx C H2 H3. use. split; [start "kld"; unfold kld_init|start "rmse"; unfold rmse_init]; unfold default_limits, default_dx; fold limits_03;
      rewrite H2, H3; cbn; unfold numbers, gives; [unfold kld_evaluate|unfold rmse_evaluate]; cbn;
      [destruct (calculate_kld nlog p q lo hi dx)|destruct (calculate_rmse nsqrt p q lo hi dx)]; reflexivity.
  Qed.
  Lemma c133_rbpe : forall force kw e lo hi, callable kw -> has kw "limits" (MPair PInf PInf) (MPair lo hi) ->
    measure "rbpe" force kw (GEns e) None = gives (calculate_rbpe class_create quad minimize minimize_within e (lo, hi)) numbers.
  Proof.
    intros force kw e lo hi C H. use. start "rbpe". unfold rbpe_init. rewrite H. cbn. unfold rbpe_evaluate. cbn. unfold numbers, gives.
    destruct (calculate_rbpe class_create quad minimize minimize_within e (lo, hi)); reflexivity.
  Qed.
  Lemma c133_outlier : forall force kw e lo hi r, callable kw ->
    has kw "cdf_limits" (MPair (Fin (nfrac 1 10000)) (Fin (nfrac 9999 10000))) (MPair (Fin lo) (Fin hi)) ->
    calculate_outlier_rate class_create e lo hi fuel = Some r ->
    measure "outlier" force kw (GEns e) None = gives r AValues.
  Proof.
    intros force kw e lo hi r C H R. use. start "outlier". unfold outlier_init. rewrite H. cbn. unfold outlier_evaluate. cbn. rewrite R. destruct r; reflexivity.
  Qed.
  Lemma c133_fit : forall name force kw p q n seed, In name ["ad"; "cvm"; "ks"] -> callable kw ->
    has kw "num_samples" (MInt 100) (MInt (Z.of_nat n)) -> has kw "_random_state" MNone seed ->
    measure name force kw (GEns p) (Some (GEns q)) =
      match rvs p n seed with Err x => Err x | Ok s => gives (calculate_goodness_of_fit nlog s q name) AValues end.
  Proof.
    intros name force kw p q n seed HN C H1 H2. use. assert (B : (Z.of_nat n <? 0)%Z = false) by (apply Z.ltb_ge; lia).
    destruct HN as [<-|[<-|[<-|[]]]]; [start "ad"|start "cvm"|start "ks"]; unfold fit_init; rewrite H1, H2; cbn -[calculate_goodness_of_fit Z.of_nat];
      unfold fit_evaluate; cbn -[calculate_goodness_of_fit Z.of_nat]; rewrite B; cbn -[calculate_goodness_of_fit Z.of_nat];
      rewrite Nat2Z.id; (destruct (rvs p n seed) as [s|x]; [|reflexivity]); cbn -[calculate_goodness_of_fit]; unfold gives;
      match goal with |- context [calculate_goodness_of_fit ?a ?b ?c ?d] => destruct (calculate_goodness_of_fit a b c d); reflexivity end.
  Qed.
  Lemma c133_brier : forall force kw e truth lo hi dx, callable kw -> only kw ["limits"; "dx"; "tdigest_compression"] ->
    has kw "limits" limits_03 (MPair (Fin lo) (Fin hi)) -> has kw "dx" (MNum (nfrac 1 100)) (MNum dx) ->
    measure "brier" force kw (GEns e) (Some (GPoints truth)) = gives (calculate_brier e truth lo hi dx) AValue.
  Proof.
    intros force kw e truth lo hi dx C O H1 H2. use. start "brier". apply brier_only, digester_ok in O. destruct O as (s & E).
    assert (E' : brier_init kw = Ok s) by exact E. rewrite E'. cbn. apply brier_val in E'. destruct E' as (A & B & _).
    unfold default_limits, default_dx in *. fold limits_03 in A. rewrite H1 in A. rewrite H2 in B.
    unfold brier_object_evaluate, attr. rewrite A, B. cbn. unfold gives. destruct (calculate_brier e truth lo hi dx); reflexivity.
  Qed.
  Lemma c133_pit : forall force kw e truth grid, callable kw -> only kw ["eval_grid"; "tdigest_compression"; "limits"; "dx"] ->
    has kw "eval_grid" (MList (np_linspace n0 n1 100)) (MList grid) ->
    measure "pit" force kw (GEns e) (Some (GPoints truth)) = gives (pit_new quant_create e truth grid) (fun r => AEns (snd r)).
  Proof.
    intros force kw e truth grid C O H. use. start "pit". apply pit_only, digester_ok in O. destruct O as (s & E). unfold pit_init. rewrite E, H. cbn.
    unfold pit_evaluate, attr. rewrite dset_get. cbn. unfold gives. destruct (pit_new quant_create e truth grid); reflexivity.
  Qed.
  Lemma c133_cde : forall force kw e truth grid, callable kw -> has kw "eval_grid" (MList (np_linspace n0 (nfrac 5 2) 301)) (MList grid) ->
    measure "cdeloss" force kw (GEns e) (Some (GPoints truth)) = gives (cde_evaluate grid e truth) AValue.
  Proof.
    intros force kw e truth grid C H. use. start "cdeloss". unfold cde_init. cbn -[np_linspace]. rewrite H. unfold cde_object_evaluate. cbn. unfold gives.
    destruct (cde_evaluate grid e truth); reflexivity.
  Qed.
  Lemma c133_points : forall force kw est ref, callable kw ->
    (kw = [] -> measure "point_stats_ez" force kw (GPoints est) (Some (GPoints ref)) = gives (ez est ref) numbers) /\
    measure "point_stats_iqr" force kw (GPoints est) (Some (GPoints ref)) = gives (sigma_iqr est ref) (fun v => AValue (Fin v)) /\
    measure "point_bias" force kw (GPoints est) (Some (GPoints ref)) = gives (point_bias est ref) AValue /\
    measure "point_outlier_rate" force kw (GPoints est) (Some (GPoints ref)) = gives (outlier_rate est ref) (fun v => AValue (Fin v)) /\
    measure "point_stats_sigma_mad" force kw (GPoints est) (Some (GPoints ref)) = gives (sigma_mad est ref) AValue.
  Proof.
    intros force kw est ref C. repeat split.
    - intros ->. start "point_stats_ez". cbn. unfold gives, numbers. destruct (ez est ref); reflexivity.
    - start "point_stats_iqr". cbn. unfold gives. destruct (sigma_iqr est ref); reflexivity.
    - start "point_bias". cbn. unfold gives. destruct (point_bias est ref); reflexivity.
    - start "point_outlier_rate". cbn. unfold gives. destruct (outlier_rate est ref); reflexivity.
    - start "point_stats_sigma_mad". cbn. unfold gives. destruct (sigma_mad est ref); reflexivity.
  Qed.

  (** Chunks: the compression, and the number of bins of the MAD *)
  Definition digested {A} (k : mval (T := T)) (compute : D -> A) (chunks : list (list T * list T)) : res A :=
    match mapM (fun er => accumulate (digest_of k) centroids_of (fst er) (snd er)) chunks with
    | Err x => Err x
    | Ok cs => finalize_digests (of_centroids k) add compute cs
    end.
  Lemma c133_chunks : forall force kw chunks k bins, callable kw -> has kw "tdigest_compression" (MInt 1000) k ->
    has kw "num_bins" (MInt 1000000) (MInt (Z.of_nat bins)) ->
    measure_chunks "point_stats_iqr" force kw chunks = digested k (fun d => iqr_digest (view d)) chunks /\
    measure_chunks "point_bias" force kw chunks = digested k (fun d => bias_digest (view d)) chunks /\
    measure_chunks "point_outlier_rate" force kw chunks = digested k (fun d => outlier_digest (view d)) chunks /\
    measure_chunks "point_stats_sigma_mad" force kw chunks =
      match digested k (fun d => mad_digest argsort bins (view d)) chunks with Ok r => r | Err x => Err x end.
  Proof.
    intros force kw chunks k bins C H1 H2. use. unfold digested.
    assert (B : (Z.of_nat bins <? 0)%Z = false) by (apply Z.ltb_ge; lia).
    repeat split; unfold MetricObjects.measure_chunks.
    1-3: match goal with |- context [new_metric ?n _ _] => rewrite (new_of n force kw _ C) by (vm_compute; reflexivity) end;
      rewrite construct_of by exact C; unfold point_digester_init; rewrite H1; cbn; unfold object_accumulate; cbn;
      (destruct (mapM _ chunks) as [cs|x]; [|reflexivity]); cbn; unfold object_finalize; cbn; unfold finalize_digests;
      destruct (map (of_centroids k) cs); reflexivity.
    rewrite (new_of "point_stats_sigma_mad" force kw _ C) by (vm_compute; reflexivity). rewrite construct_of by exact C.
    assert (E : exists t, mad_init kw = Ok (t ++ [("_num_bins", MInt (Z.of_nat bins))]) /\ t = [("_limits", default_limits); ("_dx", default_dx); ("_tdigest_compression", k)]).
    { unfold mad_init, point_digester_init. rewrite H1. unfold bound in H2. cbn -[Z.of_nat]. eexists. split; [|reflexivity].
      destruct (dget String.eqb kw "num_bins"); rewrite <- H2; reflexivity. }
    destruct E as (t & E & ->). rewrite E. cbn -[Z.of_nat]. unfold object_accumulate. cbn -[Z.of_nat].
    destruct (mapM _ chunks) as [cs|x]; [|reflexivity]. cbn -[Z.of_nat]. unfold object_finalize. cbn -[Z.of_nat]. unfold finalize_digests.
    destruct (map (of_centroids k) cs); [reflexivity|]. cbn -[Z.of_nat]. rewrite B. cbn -[Z.of_nat]. rewrite Nat2Z.id. reflexivity.
  Qed.

  (** What the metric says about its inputs, and what it takes *)
  Lemma c133_inputs : forall name force (kw : kwargs (T := T)) c self estimate reference, new_metric name force kw = Ok (c, self) -> takes name estimate reference ->
    (uses_distribution_for_estimate (metric_input_type c) = true <-> estimate = Distributions) /\
    (uses_point_for_estimate (metric_input_type c) = true <-> estimate = Points) /\
    (uses_distribution_for_reference (metric_input_type c) = true <-> reference = Some Distributions) /\
    (uses_point_for_reference (metric_input_type c) = true <-> reference = Some Points).
  Proof.
    intros name force kw c self est ref H K. unfold new_metric in H. destruct (dget String.eqb kw "cls"); [discriminate|]. rewrite create_class in H.
    destruct K as [(K & -> & ->)|[(K & -> & ->)|[(K & -> & ->)|(K & -> & ->)]]]; simpl in K;
    repeat match goal with K : _ \/ _ |- _ => destruct K as [<-|K] end; try contradiction;
    match type of H with context [class_of ?n] => let v := eval vm_compute in (class_of n) in change (class_of n) with v in H end;
    cbn [bind] in H; match type of H with context [construct ?n kw] => destruct (construct n kw); [|discriminate] end;
    injection H as <- <-; vm_compute; repeat split; congruence.
  Qed.
  Lemma c133_arity : forall name force (kw : kwargs (T := T)) r estimate reference est ref, new_metric name force kw = Ok r -> takes name est ref ->
    (reference = None <-> ref <> None) -> measure name force kw estimate reference = Err TypeError.
  Proof.
    intros name force kw r e q est ref H K A. unfold MetricObjects.measure. rewrite H. unfold new_metric in H. destruct (dget String.eqb kw "cls"); [discriminate|].
    rewrite create_class in H.
    destruct K as [(K & -> & ->)|[(K & -> & ->)|[(K & -> & ->)|(K & -> & ->)]]]; simpl in K;
    (destruct q as [q|]; [try (exfalso; destruct A as [_ A]; discriminate (A ltac:(discriminate)))|try (exfalso; destruct A as [A _]; apply (A eq_refl); reflexivity)]);
    repeat match goal with K : _ \/ _ |- _ => destruct K as [<-|K] end; try contradiction;
    match type of H with context [class_of ?n] => let v := eval vm_compute in (class_of n) in change (class_of n) with v in H end;
    cbn [bind] in H; match type of H with context [construct ?n kw] => destruct (construct n kw); [|discriminate] end;
    injection H as <-; reflexivity.
  Qed.
End Values.

(** ** Examples.  Keywords with one that no class knows: accepted by most metrics, and the parameters have the values given or the defaults *)
Definition example_kw : kwargs (T := Q) := [("limit", MPair (Fin 1%Q) (Fin 2%Q)); ("moment_order", MInt 2); ("limits", MPair (Fin 0%Q) (Fin 2%Q))].
Lemma c133_example : callable example_kw /\
  has example_kw "moment_order" (MInt 1) (MInt 2) /\ has example_kw "limits" limits_03 (MPair (Fin 0%Q) (Fin 2%Q)) /\ has example_kw "dx" (MNum (nfrac 1 100)) (MNum (1 # 100)%Q) /\
  outcome "moment" example_kw None /\ outcome "brier" example_kw (Some TypeError) /\ outcome "moments" example_kw (Some KeyError) /\
  only [("dx", MNum (1 # 10)%Q)] ["limits"; "dx"; "tdigest_compression"].
Proof.
  assert (C : callable example_kw) by (split; vm_compute; intuition congruence).
  split; [exact C|]. split; [apply has_bound; reflexivity|]. split; [apply has_bound; reflexivity|]. split; [apply has_bound; vm_compute; reflexivity|].
  pose proof (c133_outcome "moment" false example_kw) as A. pose proof (c133_outcome "brier" false example_kw) as B. pose proof (c133_outcome "moments" false example_kw) as D.
  split; [vm_compute in A |- *; exact A|]. split; [vm_compute in B |- *; exact B|]. split; [vm_compute in D |- *; exact D|].
  intros k [<-|[]]. simpl. auto.
Qed.
(** One call: estimates 1, 2, 3, 4, 5 of the true value 0, and a misspelt keyword *)
Lemma c133_call_example : exists force kw est ref,
  callable kw /\ ~ only kw ["tdigest_compression"] /\
  measure (T := Q) (fun x => x) (fun x => x) (fun _ => None) (fun _ _ _ => Err NotModelled) (fun _ => Err NotModelled) (fun _ _ _ => Err NotModelled)
    (fun _ _ _ => Err NotModelled) (fun _ => Err NotModelled) 0 "point_stats_iqr" force kw (GPoints est) (Some (GPoints ref)) = Ok (AValue (Fin (2000 # 1349)%Q)) /\
  measure (T := Q) (fun x => x) (fun x => x) (fun _ => None) (fun _ _ _ => Err NotModelled) (fun _ => Err NotModelled) (fun _ _ _ => Err NotModelled)
    (fun _ _ _ => Err NotModelled) (fun _ => Err NotModelled) 0 "point_stats_iqr" force kw (GPoints est) None = Err TypeError.
Proof.
  exists false, [("tdigest_compresion", MInt 5)], [1; 2; 3; 4; 5]%Q, [0; 0; 0; 0; 0]%Q.
  split; [split; vm_compute; intuition congruence|]. split; [intros O; specialize (O "tdigest_compresion" (or_introl eq_refl)); vm_compute in O; intuition congruence|].
  split; vm_compute; reflexivity.
Qed.
