(** The summary statistics of the probability integral transform: C138. *)
From Coq Require Import String List Arith ZArith Bool Sorted Permutation Lia Reals Lra.
From Verif Require Import Num NumProofs Py NdArray NumpyLib ScipyWrap Spec Values Ensemble QuantPdf SortProofs HistProofs InterpProofs MixmodTheorems Kinds KindProofs
  EnsembleProofs KindInputs ReachProofs EnsembleTheorems IntegrateTheorems MetricsProofs Metrics MetricsTheorems Fit FitProofs FitTheorems PointMetrics PointProofs SparseConvertTheorems Pit PitTheorems PitVariance PitMeta PitMetaProofs.
Import ListNotations.
Local Open Scope string_scope.
Local Open Scope list_scope.
Local Open Scope R_scope.

(** The values in the closed range, in their order *)
Definition kept (lo hi : R) (s : list R) : list R := filter (fun v => if Rle_dec lo v then if Rle_dec v hi then true else false else false) s.

Lemma trim_kept s lo hi : trim_pit_values s lo hi = kept lo hi s.
Proof.
  unfold trim_pit_values, kept. apply filter_ext. intros v. destruct (nleb_reflect lo v), (nleb_reflect v hi), (Rle_dec lo v), (Rle_dec v hi); try lra; reflexivity.
Qed.
Lemma kept_in s lo hi v : In v (kept lo hi s) -> lo <= v <= hi.
Proof. unfold kept. intros H. apply filter_In in H. destruct H as [_ H]. destruct (Rle_dec lo v), (Rle_dec v hi); try discriminate. lra. Qed.
Lemma kept_all s lo hi : (forall v, In v s -> lo <= v <= hi) -> kept lo hi s = s.
Proof.
  induction s as [|x s IH]; intros H; [reflexivity|]. unfold kept in *. cbn [filter]. rewrite IH by (intros; apply H; right; auto). pose proof (H x (or_introl eq_refl)).
  destruct (Rle_dec lo x), (Rle_dec x hi); try lra. reflexivity.
Qed.
Lemma kept_perm s s' lo hi : Permutation s s' -> Permutation (kept lo hi s) (kept lo hi s').
Proof. intros H. unfold kept. induction H; cbn; repeat match goal with |- context [if ?b then _ else _] => destruct b end; eauto using Permutation. Qed.

(** ** The statistic of two samples *)
Lemma concat2 (p q : list R) : concat [p; q] = p ++ q.
Proof. cbn. rewrite app_nil_r. reflexivity. Qed.
Lemma ksamp_equal n p q : length p = n -> length q = n -> (2 <= n)%nat -> (exists y z, In y (p ++ q) /\ In z (p ++ q) /\ y <> z) ->
  exists A, is_ad2 p q A /\ quick_anderson_ksamp sqrt p q = Ok ((A - 1) / sqrt (ad_variance n)).
Proof.
  intros Hp Hq Hn (y & z & Hy & Hz & Hne). exists (ksamp_midrank [p; q] (np_sort (p ++ q)) (np_unique (np_sort (p ++ q)))). split; [apply midrank_value; lia|].
  unfold quick_anderson_ksamp, anderson_ksamp. rewrite concat2. cbn [length map]. change (2 <? 2)%nat with false. cbv zeta iota.
  destruct (Nat.ltb_spec (length (np_unique (np_sort (p ++ q)))) 2) as [L|L].
  - exfalso. rewrite unique_of_sorted in L. destruct (np_unique (p ++ q)) as [|a [|b r]] eqn:E; cbn in L; try lia.
    + apply np_unique_in in Hy. rewrite E in Hy. destruct Hy.
    + apply np_unique_in in Hy, Hz. rewrite E in Hy, Hz. destruct Hy as [<-|[]], Hz as [<-|[]]. congruence.
  - cbn [existsb]. destruct (Nat.eqb_spec (length p) 0) as [|_]; [lia|]. destruct (Nat.eqb_spec (length q) 0) as [|_]; [lia|]. cbn [orb].
    rewrite np_sort_length, app_length, Hp, Hq. replace (n + n)%nat with (2 * n)%nat by lia. rewrite sigma_value by exact Hn. cbn [bind].
    pose proof (ad_variance_pos n Hn) as Hv. destruct (nltb_reflect (ad_variance n) n0) as [L1|L1]; [revert L1; numR; lra|].
    destruct (neqb_reflect (ad_variance n) n0) as [L2|L2]; [revert L2; numR; lra|]. rewrite of_nat_INR. numR. replace (INR 2 - 1) with 1 by (simpl; lra). reflexivity.
Qed.
Lemma spaced_length lo hi n : length (spaced lo hi n) = n.
Proof. unfold spaced. rewrite map_length, seq_length. reflexivity. Qed.
Lemma spaced_ends lo hi n : (2 <= n)%nat -> In lo (spaced lo hi n) /\ In hi (spaced lo hi n).
Proof.
  intros Hn. unfold spaced. assert (1 <= INR (n - 1)) by (apply (le_INR 1); lia). split; apply in_map_iff.
  - exists 0%nat. split; [simpl; lra|apply in_seq; lia].
  - exists (n - 1)%nat. split; [field; lra|apply in_seq; lia].
Qed.
Lemma c138_value : forall s lo hi, lo < hi -> (2 <= length (kept lo hi s))%nat ->
  exists A, is_ad2 (kept lo hi s) (spaced lo hi (length (kept lo hi s))) A /\ 0 < ad_variance (length (kept lo hi s)) /\
    pit_ad sqrt s lo hi = Ok ((A - 1) / sqrt (ad_variance (length (kept lo hi s)))).
Proof.
  intros s lo hi Hlh Hn. unfold pit_ad. rewrite trim_kept. set (t := kept lo hi s) in *. rewrite linspace_spaced by exact Hn.
  destruct (ksamp_equal (length t) t (spaced lo hi (length t)) eq_refl (spaced_length _ _ _) Hn) as (A & HA & E).
  { destruct (spaced_ends lo hi (length t) Hn). exists lo, hi. rewrite !in_app_iff. repeat split; [tauto|tauto|lra]. }
  exists A. repeat split; [exact HA|apply ad_variance_pos, Hn|exact E].
Qed.
Lemma c138_smallest : forall s lo hi, lo < hi -> (2 <= length (kept lo hi s))%nat ->
  exists v, pit_ad sqrt s lo hi = Ok v /\ - 1 / sqrt (ad_variance (length (kept lo hi s))) <= v /\
    (v = - 1 / sqrt (ad_variance (length (kept lo hi s))) <-> Permutation (kept lo hi s) (spaced lo hi (length (kept lo hi s)))).
Proof.
  intros s lo hi Hlh Hn. destruct (c138_value s lo hi Hlh Hn) as (A & HA & Hv & E). set (t := kept lo hi s) in *. exists ((A - 1) / sqrt (ad_variance (length t))). split; [exact E|].
  destruct (ad2_smallest t (spaced lo hi (length t)) A) as (H0 & Hiff).
  { rewrite spaced_length. reflexivity. }
  { destruct (spaced_ends lo hi (length t) Hn). exists lo, hi. rewrite !in_app_iff. repeat split; [tauto|tauto|lra]. }
  { exact HA. }
  pose proof (sqrt_lt_R0 _ Hv) as Hs. set (r := sqrt (ad_variance (length t))) in *. split.
  - unfold Rdiv. apply Rmult_le_compat_r; [left; apply Rinv_0_lt_compat; exact Hs|lra].
  - rewrite <- Hiff. split; [|intros ->; f_equal; lra]. intros Er. apply (Rmult_eq_compat_r r) in Er. unfold Rdiv in Er. rewrite !Rmult_assoc, Rinv_l in Er by lra. lra.
Qed.

(** ** When it fails *)
Lemma ksamp_none q : quick_anderson_ksamp sqrt [] q = Err ValueError.
Proof.
  unfold quick_anderson_ksamp, anderson_ksamp. cbn [length map existsb Nat.eqb orb]. change (2 <? 2)%nat with false. cbv zeta iota. destruct (length _ <? 2)%nat; reflexivity.
Qed.
Lemma unique_same a l : (forall x, In x l -> x = a) -> (length (np_unique l) < 2)%nat.
Proof.
  intros H. destruct (np_unique l) as [|x [|y r]] eqn:E; cbn; try lia. pose proof (np_unique_nodup l) as Hd. rewrite E in Hd.
  assert (x = a) by (apply H, np_unique_in; rewrite E; left; reflexivity). assert (y = a) by (apply H, np_unique_in; rewrite E; right; left; reflexivity).
  subst. inversion Hd as [|? ? Hn _]. exfalso. apply Hn. left. reflexivity.
Qed.
Lemma ksamp_same a p q : (forall x, In x (p ++ q) -> x = a) -> quick_anderson_ksamp sqrt p q = Err ValueError.
Proof.
  intros H. unfold quick_anderson_ksamp, anderson_ksamp. rewrite concat2, unique_of_sorted. cbn [length]. change (2 <? 2)%nat with false. cbv zeta iota.
  destruct (Nat.ltb_spec (length (np_unique (p ++ q))) 2) as [L|L]; [reflexivity|]. pose proof (unique_same a (p ++ q) H). lia.
Qed.
Lemma c138_errors : forall s lo hi,
  (kept lo hi s = [] -> pit_ad sqrt s lo hi = Err ValueError) /\
  (hi <= lo -> pit_ad sqrt s lo hi = Err ValueError) /\
  (forall v, lo < hi -> kept lo hi s = [v] -> pit_ad sqrt s lo hi = Err (if Req_EM_T v lo then ValueError else IndexError)).
Proof.
  intros s lo hi. unfold pit_ad. rewrite trim_kept. assert (H0 : kept lo hi s = [] -> quick_anderson_ksamp sqrt (kept lo hi s) (np_linspace lo hi (length (kept lo hi s))) = Err ValueError).
  { intros ->. apply ksamp_none. }
  split; [exact H0|]. split.
  - intros Hle. destruct (kept lo hi s) as [|v t] eqn:E; [apply H0; reflexivity|]. assert (Hk : forall x, In x (v :: t) -> lo <= x <= hi) by (intros x Hx; apply (kept_in s); rewrite E; exact Hx).
    assert (lo = hi) by (specialize (Hk v (or_introl eq_refl)); lra). subst hi. apply (ksamp_same lo). intros x Hx. apply in_app_iff in Hx. destruct Hx as [Hx|Hx]; [specialize (Hk x Hx); lra|].
    destruct t as [|w t]; [destruct Hx as [<-|[]]; reflexivity|]. rewrite linspace_spaced in Hx by (cbn; lia). unfold spaced in Hx. apply in_map_iff in Hx. destruct Hx as (i & <- & _). unfold Rdiv. ring.
  - intros v Hlt E. rewrite E. cbn [length np_linspace]. destruct (Req_EM_T v lo) as [->|Hne].
    + apply (ksamp_same lo). intros x [<-|[<-|[]]]; reflexivity.
    + unfold quick_anderson_ksamp, anderson_ksamp. rewrite concat2, unique_of_sorted. cbn [length map app existsb Nat.eqb orb]. change (2 <? 2)%nat with false. cbv zeta iota.
      assert (Hu : length (np_unique [v; lo]) = 2%nat) by (apply np_unique_length_nodup; constructor; [intros [?|[]]; congruence|constructor; [intros []|constructor]]).
      rewrite Hu. change (2 <? 2)%nat with false. cbv iota. rewrite np_sort_length. reflexivity.
Qed.

(** ** What it does not depend on *)
Lemma nsum_swap (a b : R) : nsum [a; b] = nsum [b; a].
Proof. rewrite !nsum_cons. lra. Qed.
Lemma sigma_swap a b N : ksamp_sigmasq (T := R) [a; b] N = ksamp_sigmasq [b; a] N.
Proof. unfold ksamp_sigmasq. cbn [map length]. rewrite (nsum_swap (n1 / of_nat a)%num). reflexivity. Qed.
Lemma c138_symmetric : forall p q, quick_anderson_ksamp sqrt p q = quick_anderson_ksamp sqrt q p.
Proof.
  intros p q. unfold quick_anderson_ksamp, anderson_ksamp. rewrite !concat2. rewrite (np_sort_perm_eq (p ++ q) (q ++ p)) by apply Permutation_app_comm. cbn [length map existsb].
  cbv zeta. rewrite sigma_swap. rewrite !orb_false_r, (orb_comm (length p =? 0)%nat).
  assert (E : ksamp_midrank [p; q] (np_sort (q ++ p)) (np_unique (np_sort (q ++ p))) = ksamp_midrank [q; p] (np_sort (q ++ p)) (np_unique (np_sort (q ++ p)))).
  { unfold ksamp_midrank. cbn [fold_left]. numR. f_equal. lra. }
  rewrite E. reflexivity.
Qed.
Lemma c138_order2 : forall p p' q q', Permutation p p' -> Permutation q q' -> quick_anderson_ksamp sqrt p q = quick_anderson_ksamp sqrt p' q'.
Proof.
  intros p p' q q' Hp Hq. unfold quick_anderson_ksamp, anderson_ksamp. rewrite !concat2. rewrite (np_sort_perm_eq (p ++ q) (p' ++ q')) by (apply Permutation_app; assumption).
  cbn [length map existsb]. rewrite (Permutation_length Hp), (Permutation_length Hq).
  assert (E : ksamp_midrank [p; q] (np_sort (p' ++ q')) (np_unique (np_sort (p' ++ q'))) = ksamp_midrank [p'; q'] (np_sort (p' ++ q')) (np_unique (np_sort (p' ++ q')))).
  { unfold ksamp_midrank. cbn [fold_left]. rewrite (np_sort_perm_eq p p' Hp), (np_sort_perm_eq q q' Hq), (Permutation_length Hp), (Permutation_length Hq). reflexivity. }
  rewrite E. reflexivity.
Qed.
Section Monotone.
  Variable f : R -> R.
  Hypothesis Hf : forall x y, x < y -> f x < f y.
  Lemma f_le x y : x <= y -> f x <= f y.
  Proof. intros [H| ->]; [left; apply Hf, H|lra]. Qed.
  Lemma f_left l z : searchsorted_left (map f l) (f z) = searchsorted_left l z.
  Proof.
    induction l as [|y l IH]; [reflexivity|]. cbn [map searchsorted_left]. rewrite IH.
    destruct (nltb_reflect (f y) (f z)) as [A|A], (nltb_reflect y z) as [B|B]; try reflexivity; exfalso.
    - pose proof (f_le z y ltac:(lra)). lra.
    - pose proof (Hf y z B). lra.
  Qed.
  Lemma f_right l z : searchsorted_right (map f l) (f z) = searchsorted_right l z.
  Proof.
    induction l as [|y l IH]; [reflexivity|]. cbn [map searchsorted_right]. rewrite IH.
    destruct (nleb_reflect (f y) (f z)) as [A|A], (nleb_reflect y z) as [B|B]; try reflexivity; exfalso.
    - pose proof (Hf z y ltac:(lra)). lra.
    - pose proof (f_le y z B). lra.
  Qed.
  Lemma f_unique l : np_unique (map f l) = map f (np_unique l).
  Proof.
    apply (strict_sorted_unique (@nleb R RNum) Rnleb_antisym).
    - apply unique_by_sorted; [apply Rnleb_total|apply Rnleb_trans|apply Rnleb_antisym].
    - assert (S1 : StronglySorted Rlt (np_unique l)) by apply EvalTheorems.np_unique_increasing.
      assert (S2 : StronglySorted Rlt (map f (np_unique l))).
      { induction S1 as [|a s Hs IH Hall]; [constructor|]. cbn. constructor; [exact IH|]. rewrite List.Forall_forall in *. intros y Hy. apply in_map_iff in Hy. destruct Hy as (x & <- & Hx). apply Hf. auto. }
      eapply ss_weaken; [|exact S2]. intros a b Hab. split; [|lra]. destruct (nleb_reflect a b); auto. lra.
    - intros x. rewrite np_unique_in, !in_map_iff. split; intros (y & <- & Hy); exists y; split; auto; apply np_unique_in; exact Hy.
  Qed.
  Lemma f_inner Z Zs s z : ksamp_inner (map f Z) (map f Zs) (map f s) (f z) = ksamp_inner Z Zs s z.
  Proof. unfold ksamp_inner, ksamp_lj. rewrite !map_length, !f_left, !f_right. reflexivity. Qed.
  Lemma f_ksamp p q : quick_anderson_ksamp sqrt (map f p) (map f q) = quick_anderson_ksamp sqrt p q.
  Proof.
    unfold quick_anderson_ksamp, anderson_ksamp. rewrite !concat2, <- map_app, (sort_map f) by exact f_le. rewrite f_unique. cbn [length map existsb]. rewrite !map_length.
    assert (E : forall Z Zs, ksamp_midrank [map f p; map f q] (map f Z) (map f Zs) = ksamp_midrank [p; q] Z Zs).
    { intros Z Zs. unfold ksamp_midrank. cbn [fold_left]. rewrite !map_length, !(sort_map f) by exact f_le. rewrite !map_map.
      rewrite !(map_ext _ _ (f_inner Z Zs _)). reflexivity. }
    cbv zeta. rewrite E. reflexivity.
  Qed.
End Monotone.
Lemma c138_monotone : forall f p q, (forall x y, x < y -> f x < f y) -> quick_anderson_ksamp sqrt (map f p) (map f q) = quick_anderson_ksamp sqrt p q.
Proof. intros f p q Hf. apply f_ksamp, Hf. Qed.

(** ** The order of the PDFs *)
Lemma mapM_ext {A B} (f g : A -> res B) l : (forall a, In a l -> f a = g a) -> mapM f l = mapM g l.
Proof. induction l as [|a l IH]; intros H; [reflexivity|]. cbn [mapM]. rewrite (H a (or_introl eq_refl)), IH by (intros; apply H; right; auto). reflexivity. Qed.
Lemma pit_grid_length (s s' : list R) grid : length s = length s' -> pit_grid s grid = pit_grid s' grid.
Proof. intros H. unfold pit_grid. rewrite H. reflexivity. Qed.
Lemma c138_order : forall (X : scipy) s s' grid lo hi fuel, Permutation s s' ->
  pit_ad sqrt s lo hi = pit_ad sqrt s' lo hi /\ pit_ks s = pit_ks s' /\ pit_cvm s = pit_cvm s' /\
  pit_ensemble (create_of (qp X) "quant") s grid = pit_ensemble (create_of (qp X) "quant") s' grid /\
  forall pit, calculate_pit_meta_metrics sqrt (qp X) fuel s pit = calculate_pit_meta_metrics sqrt (qp X) fuel s' pit.
Proof.
  intros X s s' grid lo hi fuel H.
  assert (Ha : forall lo hi, pit_ad sqrt s lo hi = pit_ad sqrt s' lo hi).
  { intros a b. unfold pit_ad. rewrite !trim_kept. pose proof (kept_perm s s' a b H) as Hk. rewrite (Permutation_length Hk). apply c138_order2; [exact Hk|apply Permutation_refl]. }
  assert (Hks : pit_ks s = pit_ks s') by (unfold pit_ks; rewrite (np_sort_perm_eq s s' H); reflexivity).
  assert (Hcv : pit_cvm s = pit_cvm s') by (unfold pit_cvm; rewrite (np_sort_perm_eq s s' H), (Permutation_length H); reflexivity).
  split; [apply Ha|]. split; [exact Hks|]. split; [exact Hcv|]. split.
  - unfold pit_ensemble, pit_table. rewrite (pit_grid_length s s' grid (Permutation_length H)).
    rewrite (mapM_ext (np_quantile s) (np_quantile s')) by (intros q _; apply quantile_perm, H). reflexivity.
  - intros pit. unfold calculate_pit_meta_metrics. rewrite Ha, Hks, Hcv. reflexivity.
Qed.
Lemma map_positions {A} (h : nat -> A) (o : list nat) n : length o = n -> map (fun i => h (nth i o 0%nat)) (seq 0 n) = map h o.
Proof.
  intros <-. apply (nth_ext _ _ (h 0%nat) (h 0%nat)); [rewrite !map_length, seq_length; reflexivity|]. intros i Hi. rewrite map_length, seq_length in Hi.
  rewrite (nth_indep _ (h 0%nat) (h (nth 0 o 0%nat))) by (rewrite map_length, seq_length; exact Hi).
  rewrite (map_nth (fun i => h (nth i o 0%nat)) (seq 0 (length o)) 0%nat i). rewrite seq_nth by exact Hi. rewrite (map_nth h o 0%nat i). reflexivity.
Qed.
Lemma c138_rows : forall X e e' n F F' truth truth' order grid s p fuel, fill_outside X -> has_cdf X e n F -> has_cdf X e' n F' -> (2 <= n)%nat ->
  length truth = n -> length truth' = n -> Permutation order (seq 0 n) ->
  (forall i, (i < n)%nat -> nth i truth' 0 = nth (nth i order 0%nat) truth 0 /\ forall x, F' i x = F (nth i order 0%nat) x) ->
  pit_new (create_of (qp X) "quant") e truth grid = Ok (s, p) ->
  exists s', pit_new (create_of (qp X) "quant") e' truth' grid = Ok (s', p) /\ Permutation s s' /\
    calculate_pit_meta_metrics sqrt (qp X) fuel s' p = calculate_pit_meta_metrics sqrt (qp X) fuel s p.
Proof.
  intros X e e' n F F' truth truth' order grid s p fuel HX He He' Hn Ht Ht' Ho Hrow E. unfold pit_new in *.
  rewrite (pit_samples_eq X e n F truth HX He Hn Ht) in E. rewrite (pit_samples_eq X e' n F' truth' HX He' Hn Ht'). cbn [bind] in *.
  set (s0 := map (fun r => F r (nth r truth 0)) (seq 0 n)) in *. set (s1 := map (fun r => F' r (nth r truth' 0)) (seq 0 n)).
  assert (Hp : Permutation s0 s1).
  { unfold s0, s1. rewrite (map_ext_in (fun r => F' r (nth r truth' 0)) (fun i => (fun r => F r (nth r truth 0)) (nth i order 0%nat))).
    - rewrite (map_positions (fun r => F r (nth r truth 0))) by (rewrite (Permutation_length Ho), seq_length; reflexivity). apply Permutation_map, Permutation_sym, Ho.
    - intros r Hr. apply in_seq in Hr. destruct (Hrow r ltac:(lia)) as [Ha Hb]. cbv beta. rewrite Hb, Ha. reflexivity. }
  destruct (c138_order X s0 s1 grid 0 1 fuel Hp) as (_ & _ & _ & Hens & Hmeta). rewrite <- Hens.
  destruct (pit_ensemble (create_of (qp X) "quant") s0 grid) as [p'|x]; [|discriminate]. cbn [bind] in *. injection E as <- <-. exists s1.
  split; [reflexivity|]. split; [exact Hp|]. rewrite Hmeta. reflexivity.
Qed.

(** ** All of them together *)
Lemma c138_meta : forall X e truth grid s p M F fuel, fill_outside X -> pit_new (create_of (qp X) "quant") e truth grid = Ok (s, p) -> made X M p -> e_npdf p = 1%nat -> evaluates (ens_cdf p) 1 F ->
  (2 <= length s)%nat -> (forall v, In v s -> 0 <= v <= 1) -> (1 < fuel)%nat ->
  exists A W D, is_ad2 s (spaced 0 1 (length s)) A /\ is_cvm uniform s W /\ is_ks uniform s D /\
    calculate_pit_meta_metrics sqrt (qp X) fuel s p =
      Some (Ok [("ad", Fin ((A - 1) / sqrt (ad_variance (length s)))); ("cvm", Fin W); ("ks", Fin D); ("outlier_rate", Fin (1 - (F 0%nat (9999 / 10000) - F 0%nat (1 / 10000))))]).
Proof.
  intros X e truth grid s p M F fuel HX Ep Hm H1 HF Hn Hs Hfuel.
  assert (Hk : kept 0 1 s = s) by (apply kept_all; exact Hs).
  destruct (c138_value s 0 1 ltac:(lra)) as (A & HA & _ & EA); [rewrite Hk; exact Hn|]. rewrite Hk in HA, EA.
  destruct (c102_cvm s Hn) as (W & EW & HW). destruct (c102_ks s) as (D & ED & HD); [destruct s; [cbn in Hn; lia|discriminate]|].
  assert (Ha : e_ancil p = None).
  { unfold pit_new in Ep. destruct (gather_pit_samples e truth) as [s'|]; [|discriminate]. cbn [bind] in Ep. destruct (pit_ensemble (create_of (qp X) "quant") s' grid) as [p'|] eqn:E; [|discriminate].
    cbn [bind] in Ep. injection Ep as _ <-. unfold pit_ensemble in E. destruct (pit_table s' grid) as [ql|]; [|discriminate]. cbn [bind] in E. unfold ens_new in E.
    destruct (create_of (qp X) "quant" _) as [g|]; [|discriminate]. cbn [bind] in E. destruct (check_array_shapes None (g_npdf g)); [|discriminate]. cbn [bind] in E. injection E as <-. reflexivity. }
  exists A, W, D. split; [exact HA|]. split; [exact HW|]. split; [exact HD|]. unfold calculate_pit_meta_metrics. numR. rewrite EA, EW, ED.
  unfold pit_outlier_rate. assert (R : forall lo hi, calculate_outlier_rate (qp X) p lo hi fuel = Some (Ok [Fin (1 - (F 0%nat hi - F 0%nat lo))])).
  { intros lo hi. rewrite (c41_rate X M p None F lo hi fuel HX Hm); [rewrite H1; reflexivity|split; [exact Ha|exact I]|exact I|rewrite H1; exact HF|lia]. }
  rewrite R. cbn [bind]. unfold nfrac. numR. reflexivity.
Qed.
