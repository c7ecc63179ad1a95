(** The registry of metrics over all histories (C47, C103). *)
From Coq Require Import String List Arith Bool Lia Sorted.
From Verif Require Import Num Py RegistryTheorems MetricRegistry.
Import ListNotations.
Local Open Scope string_scope.
Local Open Scope list_scope.
Local Open Scope nat_scope.

(** ** Specification *)
(** Class [s] names class [c] among its bases. *)
Definition child (cs : list mclass) (c s : nat) : Prop := exists m, nth_error cs s = Some m /\ In c (mc_bases m).
(** [s] is derived from [c], directly or not. *)
Inductive derived (cs : list mclass) : nat -> nat -> Prop :=
| derived_one c s : child cs c s -> derived cs c s
| derived_more c s t : child cs c s -> derived cs s t -> derived cs c t.
Definition named (cs : list mclass) (c : nat) (name : string) : Prop := exists m, nth_error cs c = Some m /\ mc_name m = name.
(** [without s t]: [t] is [s] with every occurrence of "Metric" removed, from left to right. *)
Inductive without : string -> string -> Prop :=
| without_end : without "" ""
| without_hit r t : without r t -> without ("Metric" ++ r) t
| without_keep a r t : (forall q, String a r <> ("Metric" ++ q)%string) -> without r t -> without (String a r) (String a t).
(** [c] is a metric registered under [key]. *)
Definition metric (cs : list mclass) (key : string) (c : nat) : Prop := derived cs 0 c /\ exists name, named cs c name /\ name <> "" /\ without name key.
(** The classes below [c], depth first, in the order of definition *)
Inductive traversal (cs : list mclass) : nat -> list nat -> Prop :=
| traverse c ss l : StronglySorted lt ss -> (forall s, In s ss <-> child cs c s) -> branches cs ss l -> traversal cs c l
with branches (cs : list mclass) : list nat -> list nat -> Prop :=
| no_branch : branches cs [] []
| branch s ss l1 l2 : traversal cs s l1 -> branches cs ss l2 -> branches cs (s :: ss) (s :: l1 ++ l2).
(** The last metric under [key] *)
Definition last_metric (cs : list mclass) (key : string) (c : nat) : Prop :=
  exists l l1 l2, traversal cs 0 l /\ l = l1 ++ c :: l2 /\ metric cs key c /\ forall c', In c' l2 -> ~ metric cs key c'.
(** All histories; the bases of a class statement exist. *)
Inductive reached : mworld -> Prop :=
| reach_start : reached mstart
| reach_step w c : reached w -> match c with CDefine bases _ => forall b, In b bases -> b < length (mw_classes w) | _ => True end -> reached (mstep w c).

(** ** Classes *)
Definition sound (cs : list mclass) : Prop := forall s m b, nth_error cs s = Some m -> In b (mc_bases m) -> b < s.
Lemma child_lt cs c s : sound cs -> child cs c s -> c < s < length cs.
Proof. intros Hs (m & E & Hb). split; [apply (Hs s m); auto|]. apply nth_error_Some. congruence. Qed.
Lemma subclasses_in cs c s : In s (subclasses cs c) <-> child cs c s.
Proof.
  unfold subclasses. rewrite filter_In, in_seq, existsb_exists. split.
  - intros (Hs & b & Hb & E). apply Nat.eqb_eq in E. subst b. exists (nth s cs (mkmclass [] "")). split; [apply nth_error_nth'; lia|exact Hb].
  - intros (m & E & Hb). assert (s < length cs) by (apply nth_error_Some; congruence). split; [lia|]. exists c. split; [|apply Nat.eqb_refl]. erewrite nth_error_nth; eauto.
Qed.
Lemma subclasses_sorted cs c : StronglySorted lt (subclasses cs c).
Proof.
  unfold subclasses. set (p := fun i => _). generalize 0 as a. induction (length cs) as [|n IH]; intros a; [constructor|]. cbn [seq filter].
  destruct (p a); [|apply IH]. constructor; [apply IH|]. apply Forall_forall. intros x Hx. apply filter_In in Hx. destruct Hx as [Hx _]. apply in_seq in Hx. lia.
Qed.
Lemma all_in cs : sound cs -> forall fuel c, length cs <= fuel + c -> forall s, In s (all_subclasses fuel cs c) <-> derived cs c s.
Proof.
  intros Hs. induction fuel as [|fuel IH]; intros c Hf s; cbn [all_subclasses].
  - split; [contradiction|]. intros H. assert (G : exists x, child cs c x) by (inversion H; eauto). destruct G as (x & Hx). apply (child_lt cs c x Hs) in Hx. lia.
  - rewrite in_flat_map. split.
    + intros (x & Hx & H). apply subclasses_in in Hx. destruct H as [->|H]; [apply derived_one; exact Hx|]. apply (child_lt cs c x Hs) in Hx as Hl.
      apply IH in H; [|lia]. apply (derived_more cs c x); auto.
    + intros H. inversion H as [? ? Hx|? x ? Hx Hd]; subst; [exists s|exists x]; (split; [apply subclasses_in; exact Hx|]); [left; reflexivity|right]. apply (child_lt cs c x Hs) in Hx. apply IH; [lia|exact Hd].
Qed.
Lemma all_traversal cs : sound cs -> forall fuel c, length cs <= fuel + c -> traversal cs c (all_subclasses fuel cs c).
Proof.
  intros Hs. induction fuel as [|fuel IH]; intros c Hf; cbn [all_subclasses].
  - apply (traverse cs c []); [constructor| |constructor]. intros s. split; [contradiction|]. intros Hx. apply (child_lt cs c s Hs) in Hx. lia.
  - apply (traverse cs c (subclasses cs c)); [apply subclasses_sorted|intros s; apply subclasses_in|].
    assert (G : forall ss, (forall s, In s ss -> child cs c s) -> branches cs ss (flat_map (fun s => s :: all_subclasses fuel cs s) ss)).
    { induction ss as [|s ss IHs]; intros Hc; [constructor|]. cbn [flat_map app]. apply (branch cs s ss); [|apply IHs; intros; apply Hc; right; assumption].
      pose proof (child_lt cs c s Hs (Hc s (or_introl eq_refl))). apply IH. lia. }
    apply G. intros s. apply subclasses_in.
Qed.
Scheme traversal_ind2 := Minimality for traversal Sort Prop with branches_ind2 := Minimality for branches Sort Prop.
Lemma sorted_ext l1 : StronglySorted lt l1 -> forall l2, StronglySorted lt l2 -> (forall x : nat, In x l1 <-> In x l2) -> l1 = l2.
Proof.
  induction 1 as [|a l1 H1 IH F1]; intros l2 H2 E.
  - destruct l2 as [|b l2]; [reflexivity|]. exfalso. apply (E b). left. reflexivity.
  - destruct H2 as [|b l2 H2 F2]; [exfalso; apply (E a); left; reflexivity|]. rewrite Forall_forall in *.
    assert (a = b).
    { assert (A : In a (b :: l2)) by (apply E; left; reflexivity). assert (B : In b (a :: l1)) by (apply E; left; reflexivity).
      destruct A as [->|A]; [reflexivity|]. destruct B as [->|B]; [reflexivity|]. specialize (F1 b B). specialize (F2 a A). lia. }
    subst b. f_equal. apply IH; [exact H2|]. intros x. split; intros Hx.
    + assert (A : In x (a :: l2)) by (apply E; right; exact Hx). destruct A as [->|A]; [|exact A]. specialize (F1 x Hx). lia.
    + assert (A : In x (a :: l1)) by (apply E; right; exact Hx). destruct A as [->|A]; [|exact A]. specialize (F2 x Hx). lia.
Qed.
Lemma traversal_unique cs c l : traversal cs c l -> forall l', traversal cs c l' -> l = l'.
Proof.
  revert c l. apply (traversal_ind2 cs (fun c l => forall l', traversal cs c l' -> l = l') (fun ss l => forall l', branches cs ss l' -> l = l')).
  - intros c ss l Hs Hc _ IH l' H'. inversion H' as [? ss' ? Hs' Hc' Hb]; subst. apply IH. replace ss with ss'; [exact Hb|]. apply sorted_ext; auto. intros x. rewrite Hc, Hc'. tauto.
  - intros l' H'. inversion H'. reflexivity.
  - intros s ss l1 l2 _ IH1 _ IH2 l' H'. inversion H' as [|? ? m1 m2 Hm1 Hm2]; subst. f_equal. f_equal; auto.
Qed.

(** ** The dictionary *)
Lemma name_of_named cs c : c < length cs -> named cs c (name_of cs c).
Proof. intros H. exists (nth c cs (mkmclass [] "")). split; [apply nth_error_nth'; exact H|reflexivity]. Qed.
Lemma named_name_of cs c n : named cs c n -> name_of cs c = n.
Proof. intros (m & E & <-). unfold name_of. erewrite nth_error_nth; eauto. Qed.
Lemma prefix_append p s : prefix p s = true <-> exists q, s = (p ++ q)%string.
Proof.
  revert s. induction p as [|a p IH]; intros s; [split; [exists s; reflexivity|destruct s; reflexivity]|]. destruct s as [|b s]; [split; [discriminate|intros (q & E); discriminate]|].
  cbn [prefix append]. destruct (Ascii.ascii_dec a b) as [<-|N].
  - rewrite IH. split; intros (q & E); exists q; congruence.
  - split; [discriminate|]. intros (q & E). congruence.
Qed.
Lemma strip_without s : without s (strip s).
Proof.
  remember (String.length s) as n eqn:En. revert s En. induction n as [n IH] using lt_wf_ind. intros s En. destruct s as [|a r]; [constructor|].
  unfold strip. cbn [strip_from]. destruct (prefix "Metric" (String a r)) eqn:P.
  - apply prefix_append in P. destruct P as (q & E). rewrite E. injection E as -> ->. cbn [append strip_from]. apply without_hit. apply (IH (String.length q)); [subst n; cbn; lia|reflexivity].
  - apply without_keep; [|apply (IH (String.length r)); [subst n; cbn; lia|reflexivity]]. intros q E.
    assert (Q : prefix "Metric" (String a r) = true) by (apply prefix_append; exists q; exact E). congruence.
Qed.
Lemma without_fun s t : without s t -> forall t', without s t' -> t = t'.
Proof.
  induction 1 as [|r t H IH|a r t N H IH]; intros t' H'.
  - inversion H'; reflexivity.
  - inversion H' as [|r' ? H1 E|a' r' t1 N1 H1 E]; subst; [apply IH; exact H1|]. exfalso. apply (N1 r). reflexivity.
  - inversion H' as [|r' ? H1 E|a' r' t1 N1 H1 E]; subst; [exfalso; apply (N r'); reflexivity|]. f_equal. apply IH. exact H1.
Qed.
Lemma strip_iff s t : strip s = t <-> without s t.
Proof. split; [intros <-; apply strip_without|intros H; exact (without_fun _ _ (strip_without s) _ H)]. Qed.
Definition key_match (cs : list mclass) (k : string) (c : nat) : bool := negb (String.eqb (name_of cs c) "") && String.eqb (strip (name_of cs c)) k.
Lemma key_match_spec cs k c : c < length cs -> key_match cs k c = true <-> exists name, named cs c name /\ name <> "" /\ without name k.
Proof.
  intros Hc. unfold key_match. rewrite andb_true_iff, negb_true_iff, String.eqb_eq, String.eqb_neq, strip_iff. split.
  - intros [H1 H2]. exists (name_of cs c). split; [apply name_of_named; exact Hc|auto].
  - intros (n & Hn & H1 & H2). apply named_name_of in Hn. subst. auto.
Qed.
Definition dict_step cs := fun (d : dict string nat) c => if String.eqb (name_of cs c) "" then d else dset String.eqb d (strip (name_of cs c)) c.
Lemma dget_fold cs k l : dget String.eqb (fold_left (dict_step cs) l []) k = find (key_match cs k) (rev l).
Proof.
  induction l as [|c l IH] using rev_ind; [reflexivity|]. rewrite fold_left_app, rev_app_distr. cbn [fold_left rev app find]. unfold dict_step at 1, key_match at 1.
  destruct (String.eqb_spec (name_of cs c) "") as [E|E]; cbn [negb andb]; [exact IH|].
  destruct (String.eqb_spec (strip (name_of cs c)) k) as [<-|Hk].
  - apply (dget_dset_same String.eqb String.eqb_eq).
  - rewrite (dget_dset_other String.eqb String.eqb_eq) by congruence. exact IH.
Qed.
Lemma find_split {A} (p : A -> bool) l c : find p (rev l) = Some c <-> exists l1 l2, l = l1 ++ c :: l2 /\ p c = true /\ forall x, In x l2 -> p x = false.
Proof.
  induction l as [|a l IH] using rev_ind; cbn.
  - split; [discriminate|]. intros (l1 & l2 & E & _). destruct l1; discriminate.
  - rewrite rev_app_distr. cbn. destruct (p a) eqn:Ea.
    + split.
      * intros E. injection E as <-. exists l, []. split; [reflexivity|]. split; [exact Ea|]. contradiction.
      * intros (l1 & l2 & E & Hc & Hn). destruct l2 as [|b l2] using rev_ind; [apply app_inj_tail in E; destruct E as [_ ->]; reflexivity|]. clear IHl2.
        rewrite app_comm_cons, app_assoc in E. apply app_inj_tail in E. destruct E as [_ ->]. rewrite Hn in Ea; [discriminate|]. apply in_or_app. right. left. reflexivity.
    + rewrite IH. split.
      * intros (l1 & l2 & -> & Hc & Hn). exists l1, (l2 ++ [a]). rewrite <- app_assoc. split; [reflexivity|]. split; [exact Hc|]. intros x Hx. apply in_app_or in Hx. destruct Hx as [Hx|[<-|[]]]; auto.
      * intros (l1 & l2 & E & Hc & Hn). destruct l2 as [|b l2] using rev_ind; [apply app_inj_tail in E; destruct E as [_ ->]; congruence|]. clear IHl2.
        rewrite app_comm_cons, app_assoc in E. apply app_inj_tail in E. destruct E as [-> ->]. exists l1, l2. split; [reflexivity|]. split; [exact Hc|]. intros x Hx. apply Hn. apply in_or_app. left. exact Hx.
Qed.
Lemma metrics_none cs k : sound cs -> dget String.eqb (metrics_of cs) k = None <-> forall c, ~ metric cs k c.
Proof.
  intros Hs. unfold metrics_of. change (fun d c => _) with (dict_step cs). rewrite dget_fold.
  assert (Hin : forall c, In c (get_all_subclasses cs 0) <-> derived cs 0 c) by (intros c; apply (all_in cs Hs); lia).
  assert (Hlt : forall c, derived cs 0 c -> c < length cs).
  { assert (G : forall a c, derived cs a c -> c < length cs) by (induction 1 as [a s Hc|a s t Hc Hd IH]; [apply (child_lt cs a s Hs Hc)|exact IH]). exact (G 0). }
  split.
  - intros E c [Hd Hk]. apply (key_match_spec cs k c (Hlt c Hd)) in Hk. rewrite (find_none _ _ E c) in Hk; [discriminate|]. apply in_rev. rewrite rev_involutive. apply Hin. exact Hd.
  - intros H. destruct (find (key_match cs k) (rev (get_all_subclasses cs 0))) as [c|] eqn:E; [|reflexivity]. exfalso. apply find_some in E. destruct E as [E1 E2]. apply in_rev, Hin in E1.
    apply (H c). split; [exact E1|]. apply key_match_spec; auto.
Qed.
Lemma metrics_some cs k c : sound cs -> dget String.eqb (metrics_of cs) k = Some c <-> last_metric cs k c.
Proof.
  intros Hs. unfold metrics_of. change (fun d c => _) with (dict_step cs). rewrite dget_fold, find_split.
  assert (Hin : forall c, In c (get_all_subclasses cs 0) <-> derived cs 0 c) by (intros x; apply (all_in cs Hs); lia).
  assert (Hlt : forall c, derived cs 0 c -> c < length cs).
  { assert (G : forall a c, derived cs a c -> c < length cs) by (induction 1 as [a s Hc|a s t Hc Hd IH]; [apply (child_lt cs a s Hs Hc)|exact IH]). exact (G 0). }
  assert (Ht : traversal cs 0 (get_all_subclasses cs 0)) by (apply (all_traversal cs Hs); lia).
  assert (Hk : forall x, In x (get_all_subclasses cs 0) -> key_match cs k x = true <-> metric cs k x).
  { intros x Hx. apply Hin in Hx. rewrite (key_match_spec cs k x (Hlt x Hx)). unfold metric. tauto. }
  split.
  - intros (l1 & l2 & E & Hc & Hn). exists (get_all_subclasses cs 0), l1, l2. split; [exact Ht|]. split; [exact E|]. split.
    + apply Hk; [|exact Hc]. rewrite E. apply in_or_app. right. left. reflexivity.
    + intros x Hx Hm. rewrite <- Hk in Hm; [rewrite Hn in Hm; [discriminate|exact Hx]|]. rewrite E. apply in_or_app. right. right. exact Hx.
  - intros (l & l1 & l2 & Hl & E & Hc & Hn). rewrite <- (traversal_unique cs 0 l Hl _ Ht) in *. exists l1, l2. split; [exact E|]. split.
    + apply Hk; [|exact Hc]. rewrite E. apply in_or_app. right. left. reflexivity.
    + intros x Hx. destruct (key_match cs k x) eqn:Ek; [|reflexivity]. exfalso. apply (Hn x Hx). apply Hk; [|exact Ek]. rewrite E. apply in_or_app. right. right. exact Hx.
Qed.

(** ** Histories *)
Lemma refresh_classes force w : mw_classes (refresh force w) = mw_classes w.
Proof. unfold refresh. destruct (mw_dict w); [reflexivity|]. destruct force; reflexivity. Qed.
Lemma step_classes w c : match c with CDefine b n => mw_classes (mstep w c) = mw_classes w ++ [mkmclass b n] | _ => mw_classes (mstep w c) = mw_classes w end.
Proof.
  destruct c as [b n| |force|name force]; try reflexivity; cbn [mstep]; unfold create_metric, list_metrics; cbn [snd]; cbv zeta.
  - apply refresh_classes.
  - destruct (dget _ _ _); cbn [snd]; rewrite !refresh_classes; reflexivity.
Qed.
Lemma reached_sound w : reached w -> sound (mw_classes w) /\ 0 < length (mw_classes w).
Proof.
  induction 1 as [|w c Hw [IH IH0] Hc].
  - split; [|cbn; lia]. intros [|[|s]] m b E Hb; cbn in E; try discriminate. injection E as <-. contradiction.
  - pose proof (step_classes w c) as E. destruct c as [b n| | |]; rewrite E; auto. split; [|rewrite app_length; lia].
    intros s m x Em Hx. destruct (Nat.lt_ge_cases s (length (mw_classes w))) as [Hlt|Hge].
    + rewrite nth_error_app1 in Em by exact Hlt. apply (IH s m); auto.
    + rewrite nth_error_app2 in Em by exact Hge. destruct (s - length (mw_classes w)) as [|d] eqn:Ed; [|destruct d; discriminate]. injection Em as <-. cbn in Hx. specialize (Hc x Hx). lia.
Qed.
(** The dictionary always shows the classes as they were at one moment. *)
Definition shows (w : mworld) (k : nat) : Prop := k <= length (mw_classes w) /\ mw_dict w = metrics_of (firstn k (mw_classes w)).
Lemma shows_update w : shows (update_metrics w) (length (mw_classes w)).
Proof. split; [cbn; lia|]. cbn. rewrite firstn_all. reflexivity. Qed.
Lemma shows_refresh w k force : shows w k -> shows (refresh force w) k \/ shows (refresh force w) (length (mw_classes w)).
Proof. intros H. unfold refresh. destruct (mw_dict w) eqn:E; [right; apply shows_update|]. destruct force; [right; apply shows_update|left; exact H]. Qed.
Lemma c103_snapshot : forall w, reached w -> exists k, shows w k.
Proof.
  induction 1 as [|w c Hw (k & Hk) Hc]; [exists 0; split; [cbn; lia|reflexivity]|]. destruct c as [b n| |force|name force]; cbn [mstep].
  - exists k. destruct Hk as [H1 H2]. split; cbn; [rewrite app_length; lia|]. rewrite firstn_app. replace (k - length (mw_classes w)) with 0 by lia. rewrite app_nil_r. exact H2.
  - eexists. apply shows_update.
  - unfold list_metrics. cbn [snd]. destruct (shows_refresh w k force Hk); eauto.
  - unfold create_metric. cbv zeta. destruct (dget _ _ _); cbn [snd]; [destruct (shows_refresh w k force Hk); eauto|]. unfold list_metrics. cbn [snd].
    destruct (shows_refresh w k force Hk) as [H|H].
    + destruct (shows_refresh _ k false H) as [G|G]; eauto.
    + destruct (shows_refresh _ _ false H) as [G|G]; eauto.
Qed.

(** ** Statements *)
Lemma create_fresh w name force : mw_dict w = [] \/ force = true ->
  fst (create_metric name force w) = match dget String.eqb (metrics_of (mw_classes w)) name with Some c => Ok c | None => Err KeyError end.
Proof.
  intros H. assert (E : refresh force w = update_metrics w) by (unfold refresh; destruct H as [->| ->]; [reflexivity|destruct (mw_dict w); reflexivity]).
  unfold create_metric. rewrite E. cbv zeta. cbn [mw_dict update_metrics]. destruct (dget _ _ _); reflexivity.
Qed.
Lemma c103_create : forall w name c, reached w -> (fst (create_metric name true w) = Ok c <-> last_metric (mw_classes w) name c).
Proof.
  intros w name c Hw. destruct (reached_sound w Hw) as [Hs _]. rewrite (create_fresh w name true) by (right; reflexivity). rewrite <- (metrics_some _ name c Hs).
  destruct (dget _ _ _); split; intros E; try discriminate; congruence.
Qed.
Lemma c103_unknown : forall w name, reached w -> (fst (create_metric name true w) = Err KeyError <-> forall c, ~ metric (mw_classes w) name c).
Proof.
  intros w name Hw. destruct (reached_sound w Hw) as [Hs _]. rewrite (create_fresh w name true) by (right; reflexivity). rewrite <- (metrics_none _ name Hs).
  destruct (dget _ _ _); split; intros E; try discriminate; congruence.
Qed.
(** Without [force_update] the answer is the one for the classes that existed when the dictionary was last filled. *)
Lemma sound_firstn cs k : sound cs -> sound (firstn k cs).
Proof.
  intros Hs s m b E Hb. apply (Hs s m); auto. destruct (Nat.lt_ge_cases s k) as [H|H].
  - rewrite <- E. symmetry. clear - H. revert s cs H. induction k as [|k IH]; intros s cs H; [lia|]. destruct cs as [|a cs]; [destruct s; reflexivity|]. destruct s as [|s]; [reflexivity|]. cbn. apply IH. lia.
  - exfalso. assert (s < length (firstn k cs)) by (apply nth_error_Some; congruence). rewrite firstn_length in *. lia.
Qed.
Lemma c103_stale : forall w, reached w -> mw_dict w <> [] -> exists k, k <= length (mw_classes w) /\
  forall name, (forall c, fst (create_metric name false w) = Ok c <-> last_metric (firstn k (mw_classes w)) name c) /\
    (fst (create_metric name false w) = Err KeyError <-> forall c, ~ metric (firstn k (mw_classes w)) name c) /\
    snd (create_metric name false w) = w.
Proof.
  intros w Hw Hne. destruct (c103_snapshot w Hw) as (k & Hk & E). exists k. split; [exact Hk|]. intros name. destruct (reached_sound w Hw) as [Hs _]. apply (sound_firstn _ k) in Hs.
  assert (Er : refresh false w = w) by (unfold refresh; destruct (mw_dict w); [congruence|reflexivity]).
  assert (Ec : create_metric name false w = (match dget String.eqb (metrics_of (firstn k (mw_classes w))) name with Some c => Ok c | None => Err KeyError end, w)).
  { unfold create_metric, list_metrics. cbv zeta. rewrite !Er, E. destruct (dget _ _ _); reflexivity. }
  rewrite Ec. cbn [fst snd]. split; [|split; [|reflexivity]].
  - intros c. rewrite <- (metrics_some _ name c Hs). destruct (dget _ _ _); split; intros G; try discriminate; congruence.
  - rewrite <- (metrics_none _ name Hs). destruct (dget _ _ _); split; intros G; try discriminate; congruence.
Qed.
(** Names already known stay known; the class behind one changes only if another class is registered under it. *)
Lemma child_firstn cs k c s : child (firstn k cs) c s -> child cs c s.
Proof. intros (m & E & Hb). exists m. split; [|exact Hb]. rewrite <- (firstn_skipn k cs), nth_error_app1; [exact E|]. apply nth_error_Some. congruence. Qed.
Lemma metric_firstn cs k name c : metric (firstn k cs) name c -> metric cs name c.
Proof.
  intros [Hd (n & (m & E & En) & H1 & H2)]. split.
  - clear - Hd. induction Hd as [a s H|a s t H Hd IH]; [apply derived_one; eapply child_firstn; eauto|eapply derived_more; [eapply child_firstn; eauto|exact IH]].
  - exists n. split; [|auto]. exists m. split; [|exact En]. rewrite <- (firstn_skipn k cs), nth_error_app1; [exact E|]. apply nth_error_Some. congruence.
Qed.
Lemma c103_keep : forall w name c, reached w -> mw_dict w <> [] -> fst (create_metric name false w) = Ok c ->
  exists c', fst (create_metric name true w) = Ok c' /\ metric (mw_classes w) name c /\ metric (mw_classes w) name c'.
Proof.
  intros w name c Hw Hne E. destruct (c103_stale w Hw Hne) as (k & Hk & H). destruct (H name) as [H1 _]. apply H1 in E. destruct E as (l & l1 & l2 & _ & _ & Hm & _). apply metric_firstn in Hm.
  destruct (fst (create_metric name true w)) as [c'|x] eqn:E'.
  - exists c'. split; [reflexivity|]. split; [exact Hm|]. apply (c103_create w name c' Hw) in E'. destruct E' as (? & ? & ? & _ & _ & Hm' & _). exact Hm'.
  - exfalso. assert (E2 : fst (create_metric name true w) = Err KeyError) by (rewrite (create_fresh w name true) in * by (right; reflexivity); destruct (dget _ _ _); [discriminate|reflexivity]).
    apply (proj1 (c103_unknown w name Hw) E2 c). exact Hm.
Qed.
(** A class derived from a metric and registered under the same name hides it. *)
Lemma flat_map_split {A B} (f : A -> list B) xs : forall l1 p l2, flat_map f xs = l1 ++ p :: l2 -> exists x xs1 xs2 m1 m2, xs = xs1 ++ x :: xs2 /\ f x = m1 ++ p :: m2 /\ l2 = m2 ++ flat_map f xs2.
Proof.
  induction xs as [|x xs IH]; intros l1 p l2 E; cbn in E; [destruct l1; discriminate|].
  assert (D : (exists m2, f x = l1 ++ p :: m2 /\ l2 = m2 ++ flat_map f xs) \/ exists m1, l1 = f x ++ m1 /\ flat_map f xs = m1 ++ p :: l2).
  { revert l1 E. generalize (f x) as u. induction u as [|b u IHu]; intros l1 E; [right; exists l1; auto|]. destruct l1 as [|a l1]; cbn in E; injection E as -> E.
    - left. exists u. auto.
    - destruct (IHu l1 E) as [(m2 & -> & ->)|(m1 & -> & G)]; [left; exists m2; auto|right; exists m1; auto]. }
  destruct D as [(m2 & E1 & ->)|(m1 & -> & E1)].
  - exists x, [], xs, l1, m2. auto.
  - destruct (IH m1 p l2 E1) as (y & xs1 & xs2 & n1 & n2 & -> & E2 & ->). exists y, (x :: xs1), xs2, n1, n2. auto.
Qed.
Lemma derived_after cs : sound cs -> forall fuel c, length cs <= fuel + c -> forall l1 p l2 s, all_subclasses fuel cs c = l1 ++ p :: l2 -> derived cs p s -> In s l2.
Proof.
  intros Hs. induction fuel as [|fuel IH]; intros c Hf l1 p l2 s E Hd; cbn [all_subclasses] in E; [destruct l1; discriminate|].
  apply flat_map_split in E. destruct E as (x & xs1 & xs2 & m1 & m2 & Ex & E & ->). assert (Hx : child cs c x) by (apply subclasses_in; rewrite Ex; apply in_or_app; right; left; reflexivity).
  apply (child_lt cs c x Hs) in Hx. apply in_or_app. left. destruct m1 as [|y m1]; cbn in E; injection E as <- E.
  - rewrite <- E. apply (all_in cs Hs); [lia|exact Hd].
  - apply (IH x) with (l1 := m1) (p := p); auto. lia.
Qed.
Lemma c103_hidden : forall w name p c, reached w -> metric (mw_classes w) name c -> derived (mw_classes w) p c -> fst (create_metric name true w) <> Ok p.
Proof.
  intros w name p c Hw Hm Hd E. apply (c103_create w name p Hw) in E. destruct (reached_sound w Hw) as [Hs _]. destruct E as (l & l1 & l2 & Ht & El & _ & Hn).
  apply (Hn c); [|exact Hm]. assert (Ht' : traversal (mw_classes w) 0 (get_all_subclasses (mw_classes w) 0)) by (apply (all_traversal _ Hs); lia).
  rewrite (traversal_unique _ _ _ Ht _ Ht') in El. apply (derived_after _ Hs (length (mw_classes w)) 0 ltac:(lia) l1 p l2 c El Hd).
Qed.
(** C47: a metric that shares its name with no other one *)
Lemma c47_found : forall w name c, reached w -> metric (mw_classes w) name c -> (forall c', metric (mw_classes w) name c' -> c' = c) ->
  fst (create_metric name true w) = Ok c /\ (mw_dict w = [] -> forall force, fst (create_metric name force w) = Ok c) /\ fst (create_metric name false (update_metrics w)) = Ok c.
Proof.
  intros w name c Hw Hm Hu. assert (E : fst (create_metric name true w) = Ok c).
  { destruct (fst (create_metric name true w)) as [c'|x] eqn:E'.
    - apply (c103_create w name c' Hw) in E'. destruct E' as (? & ? & ? & _ & _ & Hm' & _). rewrite (Hu c' Hm'). reflexivity.
    - exfalso. assert (E2 : fst (create_metric name true w) = Err KeyError) by (rewrite (create_fresh w name true) in * by (right; reflexivity); destruct (dget _ _ _); [discriminate|reflexivity]).
      apply (proj1 (c103_unknown w name Hw) E2 c). exact Hm. }
  split; [exact E|]. rewrite (create_fresh w name true) in E by (right; reflexivity). split.
  - intros Hd force. rewrite create_fresh by (left; exact Hd). exact E.
  - unfold create_metric, refresh, update_metrics. cbn [mw_dict mw_classes]. destruct (metrics_of (mw_classes w)) as [|kv d] eqn:Ed; [discriminate|]. cbv zeta. cbn [mw_dict].
    destruct (dget _ _ _); [|discriminate]. cbn [fst]. exact E.
Qed.
(** C47: any number of class statements and one update lose no name. *)
Definition defines (w : mworld) (ds : list (list nat * string)) : mworld := fold_left (fun w d => define (fst d) (snd d) w) ds w.
Lemma defines_classes ds : forall w, mw_classes (defines w ds) = mw_classes w ++ map (fun d => mkmclass (fst d) (snd d)) ds /\ mw_dict (defines w ds) = mw_dict w.
Proof.
  induction ds as [|d ds IH]; intros w; [cbn; rewrite app_nil_r; auto|]. change (defines w (d :: ds)) with (defines (define (fst d) (snd d) w) ds).
  destruct (IH (define (fst d) (snd d) w)) as [-> ->]. cbn [define mw_classes mw_dict map]. rewrite <- app_assoc. auto.
Qed.
Lemma dmem_in (d : dict string nat) k : In k (map fst d) <-> exists c, dget String.eqb d k = Some c.
Proof.
  induction d as [|[k' v] d IH]; cbn; [split; [contradiction|intros (c & E); discriminate]|]. destruct (String.eqb_spec k k') as [->|Hk].
  - split; [eauto|]. left. reflexivity.
  - rewrite <- IH. split; [intros [E|H]; [congruence|exact H]|auto].
Qed.
Lemma c47_names : forall w name, reached w -> (In name (fst (list_metrics true w)) <-> exists c, metric (mw_classes w) name c).
Proof.
  intros w name Hw. destruct (reached_sound w Hw) as [Hs _]. unfold list_metrics. cbn [fst].
  assert (E : refresh true w = update_metrics w) by (unfold refresh; destruct (mw_dict w); reflexivity). rewrite E. cbn [mw_dict update_metrics]. rewrite dmem_in. split.
  - intros (c & Ec). apply (metrics_some _ _ _ Hs) in Ec. destruct Ec as (? & ? & ? & _ & _ & Hm & _). eauto.
  - intros (c & Hm). destruct (dget String.eqb (metrics_of (mw_classes w)) name) as [c'|] eqn:E'; [eauto|]. apply (metrics_none _ _ Hs) with (c := c) in E'. contradiction.
Qed.
Lemma c47_kept : forall w ds name, reached w -> reached (defines w ds) -> In name (fst (list_metrics false w)) -> In name (fst (list_metrics true (defines w ds))).
Proof.
  intros w ds name Hw Hd H. rewrite (c47_names _ _ Hd). destruct (defines_classes ds w) as [E _]. rewrite E. clear E Hd.
  assert (G : exists k c, metric (firstn k (mw_classes w)) name c).
  { destruct (c103_snapshot w Hw) as (k & Hk). destruct (reached_sound w Hw) as [Hs _]. unfold list_metrics in H. cbn [fst] in H. apply dmem_in in H. destruct H as (c & H).
    assert (X : exists k, mw_dict (refresh false w) = metrics_of (firstn k (mw_classes w))) by (destruct (shows_refresh w k false Hk) as [[_ G]|[_ G]]; rewrite refresh_classes in G; eauto).
    destruct X as (k' & X). rewrite X in H. apply (metrics_some _ _ _ (sound_firstn _ k' Hs)) in H. destruct H as (? & ? & ? & _ & _ & Hm & _). exists k', c. exact Hm. }
  destruct G as (k & c & G). exists c. apply (metric_firstn _ (length (mw_classes w))). rewrite firstn_app, firstn_all, Nat.sub_diag. cbn. rewrite app_nil_r. apply (metric_firstn _ k). exact G.
Qed.

(** ** The original statement is false *)
(** A metric KLD and a subclass that inherits its name *)
Definition kld_world : mworld := defines mstart [([0], ""); ([1], "kld"); ([2], "kld"); ([1], "moment")].
Lemma kld_reached : reached kld_world.
Proof.
  apply (reach_step _ (CDefine [1] "moment")); [|cbn; lia]. apply (reach_step _ (CDefine [2] "kld")); [|cbn; lia]. apply (reach_step _ (CDefine [1] "kld")); [|cbn; lia].
  apply (reach_step _ (CDefine [0] "")); [apply reach_start|cbn; lia].
Qed.
Lemma c47_refuted_hidden : exists w name c, reached w /\ derived (mw_classes w) 0 c /\ named (mw_classes w) c name /\ name <> "" /\ without name name /\ fst (create_metric name true w) <> Ok c.
Proof.
  exists kld_world, "kld", 2. split; [apply kld_reached|]. split; [|split; [|split; [discriminate|split; [apply strip_iff; reflexivity|vm_compute; discriminate]]]].
  - apply (derived_more _ 0 1); [|apply derived_one]; eexists; (split; [reflexivity|left; reflexivity]).
  - eexists. split; reflexivity.
Qed.
Lemma c47_refuted_name : exists w name c, reached w /\ derived (mw_classes w) 0 c /\ named (mw_classes w) c name /\ name <> "" /\ (forall c', named (mw_classes w) c' name -> c' = c) /\ fst (create_metric name true w) = Err KeyError.
Proof.
  exists (define [0] "MyMetric" mstart), "MyMetric", 1. split; [apply (reach_step _ (CDefine [0] "MyMetric")); [apply reach_start|cbn; lia]|]. split; [|split; [|split; [discriminate|split; [|vm_compute; reflexivity]]]].
  - apply derived_one. eexists. split; [reflexivity|left; reflexivity].
  - eexists. split; reflexivity.
  - intros [|[|c]] (m & E & H); cbn in E; try discriminate; [injection E as <-; discriminate|reflexivity|destruct c; discriminate].
Qed.
Lemma without_example : without "PITMetric" "PIT" /\ without "MetMetricric" "Metric" /\ without "kld" "kld".
Proof. repeat split; apply strip_iff; reflexivity. Qed.
(** ** Examples *)
Example c47_example : reached kld_world /\ metric (mw_classes kld_world) "moment" 4 /\ (forall c', metric (mw_classes kld_world) "moment" c' -> c' = 4) /\ fst (create_metric "moment" true kld_world) = Ok 4.
Proof.
  split; [apply kld_reached|]. split; [|split; [|vm_compute; reflexivity]].
  - split; [apply (derived_more _ 0 1); [|apply derived_one]; eexists; (split; [reflexivity|left; reflexivity])|]. exists "moment". split; [eexists; split; reflexivity|]. split; [discriminate|apply strip_iff; reflexivity].
  - intros c' [_ (n & (m & E & <-) & _ & Hs)]. apply strip_iff in Hs. destruct c' as [|[|[|[|[|c']]]]]; cbn in E; try discriminate; try reflexivity; try (injection E as <-; discriminate). destruct c'; discriminate.
Qed.
Example c103_example : reached kld_world /\ last_metric (mw_classes kld_world) "kld" 3 /\ metric (mw_classes kld_world) "kld" 2 /\ derived (mw_classes kld_world) 2 3 /\ (forall c, ~ metric (mw_classes kld_world) "ks" c).
Proof.
  split; [apply kld_reached|]. split; [apply c103_create; [apply kld_reached|vm_compute; reflexivity]|]. split; [|split].
  - split; [apply (derived_more _ 0 1); [|apply derived_one]; eexists; (split; [reflexivity|left; reflexivity])|]. exists "kld". split; [eexists; split; reflexivity|]. split; [discriminate|apply strip_iff; reflexivity].
  - apply derived_one. eexists. split; [reflexivity|left; reflexivity].
  - apply c103_unknown; [apply kld_reached|vm_compute; reflexivity].
Qed.
(** The dictionary is filled, then a class is defined: the new name is unknown until the next update, the old one is still there. *)
Example c103_stale_example : let w := define [1] "brier" (update_metrics kld_world) in
  reached w /\ mw_dict w <> [] /\ fst (create_metric "brier" false w) = Err KeyError /\ fst (create_metric "brier" true w) = Ok 5 /\ fst (create_metric "kld" false w) = Ok 3.
Proof.
  cbv zeta. split; [|split; [vm_compute; discriminate|repeat split; vm_compute; reflexivity]].
  apply (reach_step _ (CDefine [1] "brier")); [|cbn; lia]. apply (reach_step _ CUpdate); [apply kld_reached|exact I].
Qed.
