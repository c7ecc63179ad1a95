(** Conversions in other units: changing the units of the numbers and converting can be done in either order (C160). *)
From Coq Require Import String List Arith ZArith Bool Lia Reals Lra.
From Verif Require Import Num NumProofs Py NdArray NumpyLib Utils ScipyWrap Spec Values Ensemble Classes Registry RegistryTheorems Convert
  SortProofs BinProofs EvalProofs NdProofs InterpProofs HistProofs HistTheorems Kinds KindProofs EnsembleProofs KindInputs ReachProofs RowProofs EnsembleTheorems IntegrateTheorems ConvertTheorems ConvertExamples
  MetricsExamples ProfileTheorems CommuteTheorems ScaleTheorems UnitTheorems UnitMetricTheorems.
Import ListNotations.
Local Open Scope string_scope.
Local Open Scope list_scope.
Local Open Scope R_scope.

(** [e'] answers the method as [e] does, with points and answers in the new units *)
Definition follows (a b : R) (m : method) (e e' : ens R) : Prop :=
  e_npdf e' = e_npdf e /\ forall p, on_points p -> exists t, evaluate m e p = Ok t /\ evaluate m e' (moved_points a b m p) = Ok (map (map (moved_answer a b m)) t).
(** the conversion with its grid in the new units *)
Definition moved_target (a b : R) (t : target) : target :=
  match t with ToHist l => ToHist (map (unit_of a b) l) | ToInterp l => ToInterp (map (unit_of a b) l) | ToIrr l => ToIrr (map (unit_of a b) l) end.
(** for histograms numpy's closeness test answers the same for both lists of edges *)
Definition target_movable (a b : R) (t : target) : Prop := match t with ToHist l => looks_uniform (map (unit_of a b) l) <-> looks_uniform l | _ => True end.

Definition factor (a : R) (t : target) : R := match t with ToHist _ => 1 | _ => / a end.
Lemma moved_grid a b t : grid (moved_target a b t) = map (unit_of a b) (grid t).
Proof. destruct t; reflexivity. Qed.
Lemma moved_name a b t : class_name (moved_target a b t) = class_name t.
Proof. destruct t; reflexivity. Qed.
Lemma moved_asks a b t : asks (moved_target a b t) = asks t.
Proof. destruct t; reflexivity. Qed.
Lemma moved_usable a b t : 0 < a -> usable t -> usable (moved_target a b t).
Proof. intros Ha [H1 H2]. split; rewrite moved_grid; [apply g_increasing; assumption|rewrite map_length; exact H2]. Qed.
Lemma repeat_scales {A B} (s : A) (f : A -> B -> B) : forall l, map2 f (repeat s (length l)) l = map (f s) l.
Proof. induction l as [|x l IH]; [reflexivity|]. cbn [length repeat map2 map]. f_equal. exact IH. Qed.
Lemma given_npdf t L : input_npdf (given t L) = length L.
Proof. destruct t; cbn; rewrite ?map_length; reflexivity. Qed.
Lemma given_moved a b t L : in_units a b (scaled (repeat (factor a t) (length L)) (given t L)) = given (moved_target a b t) (map (times (factor a t)) L).
Proof.
  destruct t as [l|l|l]; cbn [given scaled in_units moved_target factor].
  - rewrite !map_length. set (h := fun l0 : list R => map (fun i => nth0 (S i) l0 - nth0 i l0) (seq 0 (pred (length l)))).
    replace (length L) with (length (map h L)) by apply map_length. rewrite repeat_scales, !map_map. f_equal. apply map_ext. intros x. rewrite !times_1. reflexivity.
  - rewrite repeat_scales. reflexivity.
  - rewrite repeat_scales, !map_map, map_length. reflexivity.
Qed.
Lemma given_movable a b t L c : target_movable a b t -> movable a b (scaled c (given t L)).
Proof. destruct t; cbn; auto. Qed.
Lemma given_scalable t L : scalable (given t L).
Proof. destruct t; exact I. Qed.
(** the curves in the new units *)
Lemma moved_curves a b t e e' F : 0 < a -> g_shape (e_obj e') = [e_npdf e'] -> curves (asks t) e F -> follows a b (asks t) e e' ->
  curves (asks t) e' (fun r y => factor a t * F r ((y - b) / a)).
Proof.
  intros Ha Hs [_ [H1 H2]] [Hn H]. split; [exact Hs|]. rewrite Hn. assert (U : forall y, unit_of a b ((y - b) / a) = y) by (intros y; unfold unit_of; field; lra). split.
  - intros y. destruct (H (PScalar ((y - b) / a)) I) as (tb & E & E'). rewrite H1 in E. injection E as <-. replace (moved_points a b (asks t) (PScalar ((y - b) / a))) with (PScalar y) in E' by (destruct t; cbn; rewrite U; reflexivity).
    rewrite E'. f_equal. rewrite map_map. apply map_ext. intros r. destruct t; cbn; do 2 f_equal; [ring|unfold Rdiv; ring|unfold Rdiv; ring].
  - intros l Hl. set (l0 := map (fun y => (y - b) / a) l).
    assert (Hl0 : increasing l0).
    { replace l0 with (map (unit_of (/ a) (- b / a)) l) by (apply map_ext; intros y; unfold unit_of; field; lra). apply g_increasing; [apply Rinv_0_lt_compat; exact Ha|exact Hl]. }
    assert (El : map (unit_of a b) l0 = l) by (unfold l0; rewrite map_map; rewrite <- (map_id l) at 2; apply map_ext; exact U).
    destruct (H (PGrid l0) Hl0) as (tb & E & E'). rewrite H2 in E by exact Hl0. unfold table in E. injection E as <-. replace (moved_points a b (asks t) (PGrid l0)) with (PGrid l) in E' by (destruct t; cbn; rewrite El; reflexivity).
    rewrite E'. unfold table. f_equal. rewrite map_map. apply map_ext. intros r. unfold l0, fin. rewrite !map_map. apply map_ext. intros y. destruct t; cbn; f_equal; [ring|unfold Rdiv; ring|unfold Rdiv; ring].
Qed.
(** C160: conversion of any two ensembles that agree up to the units *)
Lemma c160_convert : forall X hs mf xy a b t e e' F, fill_outside X -> 0 < a -> usable t -> target_movable a b t ->
  (0 < e_npdf e)%nat -> g_shape (e_obj e') = [e_npdf e'] -> curves (asks t) e F -> (forall r, (r < e_npdf e)%nat -> suits t (F r)) -> follows a b (asks t) e e' ->
  exists c c', factory_convert (QH X hs mf xy) (QW X hs mf xy) e (class_name t) (keywords t) = Ok c /\
    factory_convert (QH X hs mf xy) (QW X hs mf xy) e' (class_name (moved_target a b t)) (keywords (moved_target a b t)) = Ok c' /\
    follows a b MPdf c c' /\ follows a b MCdf c c' /\ follows a b MPpf c c'.
Proof.
  intros X hs mf xy a b t e e' F HX Ha Ht Hmv Hpos Hs' HF Hsuit Hfo. pose proof (moved_curves a b t e e' F Ha Hs' HF Hfo) as HF'. destruct Hfo as [Hn _].
  set (n := e_npdf e) in *. set (L := at_grid F (grid t) n). assert (HL : length L = n) by (unfold L, at_grid; rewrite map_length, seq_length; reflexivity).
  pose proof (given_ok t F n Ht Hpos Hsuit) as Hok. fold L in Hok. set (s := repeat (factor a t) (length L)).
  assert (Hfa : 0 < factor a t) by (destruct t; cbn; [lra| |]; apply Rinv_0_lt_compat; exact Ha).
  assert (Hls : length s = input_npdf (given t L)) by (unfold s; rewrite repeat_length, given_npdf; reflexivity).
  assert (Hps : forall x, In x s -> 0 < x) by (intros x Hx; apply repeat_spec in Hx; subst x; exact Hfa).
  destruct (c153_scale X (given t L) s HX Hok (given_scalable t L) Hls Hps) as (c & c1 & Ec & Ec1 & Hid).
  destruct (c154_units X (scaled s (given t L)) a b HX Ha (scaled_ok s _ Hok Hls Hps) (given_movable a b t L s Hmv)) as (c2 & c' & Ec2 & Ec' & Hnn & Hev).
  assert (N1 : input_name (scaled s (given t L)) = input_name (given t L)) by (destruct t; reflexivity). rewrite N1 in Ec2, Ec'. rewrite Ec1 in Ec2. injection Ec2 as <-.
  exists c, c'. split; [|split].
  - rewrite (conv_target X hs mf xy t e F Ht Hpos HF). rewrite given_name in Ec. exact Ec.
  - rewrite (conv_target X hs mf xy (moved_target a b t) e' _ (moved_usable a b t Ha Ht) ltac:(rewrite Hn; exact Hpos) ltac:(rewrite moved_asks; exact HF')).
    rewrite Hn. fold n. unfold s in Ec'. rewrite given_moved, given_name in Ec'. rewrite moved_name, moved_grid. rewrite <- Ec'. do 3 f_equal. unfold L, at_grid. rewrite map_map. apply map_ext. intros r. unfold times. rewrite !map_map. apply map_ext. intros x.
    unfold unit_of. replace ((a * x + b - b) / a) with x by (field; lra). reflexivity.
  - assert (Hn1 : e_npdf c1 = e_npdf c) by (unfold e_npdf, g_npdf; destruct Hid as (_ & -> & _); reflexivity).
    assert (G : forall m, In m [MPdf; MCdf; MPpf] -> follows a b m c c').
    { intros m Hm. split; [congruence|]. intros p Hp. destruct (Hev m p) as (tb & E & _ & E'); [destruct t; exact Hm|exact Hp|]. exists tb. split; [|exact E']. rewrite <- E. symmetry. apply Hid. }
    split; [apply G; simpl; auto|]. split; apply G; simpl; auto.
Qed.
(** C160: ensembles created from parameters in the two units *)
Lemma c160_both : forall X a b i e e' m, fill_outside X -> 0 < a -> both X a b i e e' -> In m (input_methods i) -> follows a b m e e'.
Proof.
  intros X a b i e e' m HX Ha (Hi & Hm & E & E') HM. destruct (c154_units X i a b HX Ha Hi Hm) as (e1 & e2 & E1 & E2 & Hn & H). rewrite E in E1. injection E1 as <-. rewrite E' in E2. injection E2 as <-.
  split; [exact Hn|]. intros p Hp. destruct (H m p HM Hp) as (t & T1 & _ & T2). eauto.
Qed.
(** C160: the two ensembles created from parameters, converted *)
Lemma c160_created : forall X hs mf xy a b i t e e' F, fill_outside X -> 0 < a -> both X a b i e e' -> usable t -> target_movable a b t -> In (asks t) (input_methods i) ->
  curves (asks t) e F -> (forall r, (r < input_npdf i)%nat -> suits t (F r)) ->
  exists c c', factory_convert (QH X hs mf xy) (QW X hs mf xy) e (class_name t) (keywords t) = Ok c /\
    factory_convert (QH X hs mf xy) (QW X hs mf xy) e' (class_name (moved_target a b t)) (keywords (moved_target a b t)) = Ok c' /\
    follows a b MPdf c c' /\ follows a b MCdf c c' /\ follows a b MPpf c c'.
Proof.
  intros X hs mf xy a b i t e e' F HX Ha Hb Ht Hmv HM HF Hsuit. pose proof (c160_both X a b i e e' (asks t) HX Ha Hb HM) as Hfo.
  destruct (both_curves X a b i e e' HX Ha Hb) as (_ & _ & _ & _ & (_ & N & _) & _ & _ & _ & _ & _ & (M & Mm) & (M' & Mm') & _).
  pose proof (made_shape X M e HX Mm) as [_ Hpos]. pose proof (made_shape X M' e' HX Mm') as [Hs' _].
  apply (c160_convert X hs mf xy a b t e e' F); auto. rewrite N. exact Hsuit.
Qed.

(** ** Examples: two normal distributions *)
Lemma c160_example : exists X a b i e e', fill_outside X /\ 0 < a /\ a <> 1 /\ b <> 0 /\ both X a b i e e' /\ input_npdf i = 2%nat /\
  forall t, In t [ToHist [-1; 0; 3]; ToInterp [-1; 0; 3]; ToIrr [-1; 0; 3]] -> usable t /\ target_movable a b t /\ In (asks t) (input_methods i) /\
    exists F, curves (asks t) e F /\ forall r, (r < input_npdf i)%nat -> suits t (F r).
Proof.
  destruct (created scipy1 _ scipy1_fill norm1_ok) as (e & E & Hm & HD & Hsh & _). destruct (created scipy1 _ scipy1_fill (in_units_ok 2 5 _ ltac:(lra) norm1_ok)) as (e' & E' & _). rewrite in_units_name in E'.
  exists scipy1, 2, 5, norm1, e, e'. split; [exact scipy1_fill|]. split; [lra|]. split; [lra|]. split; [lra|]. split; [split; [exact norm1_ok|]; split; [exact I|]; split; assumption|]. split; [reflexivity|].
  set (D := input_rows norm1) in HD. assert (Hrow : forall r, (r < 2)%nat -> nth r D [] = [Nums [loc1 r]; Nums [scale1 r]]) by (intros [|[|r]] Hr; [reflexivity|reflexivity|lia]).
  assert (Hn : e_npdf e = 2%nat) by (unfold e_npdf, g_npdf; rewrite Hsh; reflexivity).
  assert (Hexp : forall z, 0 < 1 + exp (- z)) by (intros z; pose proof (exp_pos (- z)); lra).
  set (f := fun r => pdf_of scipy1 KNorm (nth r D [])). set (F := fun r => cdf_of scipy1 KNorm (nth r D [])).
  assert (Hf : curves MPdf e f) by (split; [rewrite Hn; exact Hsh|]; rewrite Hn; exact (proj2 (proj2 (rep_densities scipy1 _ _ e HD ltac:(discriminate))))).
  assert (HF : curves MCdf e F) by (split; [rewrite Hn; exact Hsh|]; exact (rep_computes scipy1 _ D e MCdf _ HD (cdf_in _) (cdf_fin scipy1 _))).
  assert (Hs : forall r, (r < 2)%nat -> suits (ToHist [-1; 0; 3]) (F r) /\ suits (ToInterp [-1; 0; 3]) (f r) /\ suits (ToIrr [-1; 0; 3]) (f r)).
  { apply two_targets.
    - intros r x Hr. unfold f. rewrite Hrow by auto. unfold pdf_of. cbn [val num_at cell_at nth nums]. cbn. unfold nth0. cbn.
      pose proof (scale1_pos r). apply Rdiv_lt_0_compat; [|lra]. apply Rdiv_lt_0_compat; [apply exp_pos|]. rewrite Rmult_1_r. apply Rmult_lt_0_compat; apply Hexp.
    - intros r x y Hr Hxy. unfold F. rewrite Hrow by auto. unfold cdf_of. cbn [val num_at cell_at nth nums]. cbn. unfold nth0. cbn.
      pose proof (scale1_pos r) as Hs. apply Rinv_lt_contravar; [apply Rmult_lt_0_compat; apply Hexp|]. apply Rplus_lt_compat_l. apply exp_increasing. apply Ropp_lt_contravar.
      apply Rmult_lt_compat_r; [apply Rinv_0_lt_compat; lra|lra]. }
  destruct pair_usable as (U1 & U2 & U3).
  intros t [<-|[<-|[<-|[]]]]; (split; [assumption|]).
  - split; [|split; [cbn; tauto|exists F; split; [exact HF|intros r Hr; apply Hs; exact Hr]]]. apply (unequal_movable 2 5 [-1; 0; 3] []); exists 1%nat; (split; [simpl; lia|]); unfold nth0, unit_of; cbn [nth map]; rewrite !Rabs_pos_eq by lra; lra.
  - split; [exact I|split; [cbn; tauto|exists f; split; [exact Hf|intros r Hr; apply Hs; exact Hr]]].
  - split; [exact I|split; [cbn; tauto|exists f; split; [exact Hf|intros r Hr; apply Hs; exact Hr]]].
Qed.
