(** Lemmas on the goodness-of-fit statistics of one line of samples. *)
From Coq Require Import String List Arith ZArith Bool Lia Reals Lra Sorted Permutation.
From Verif Require Import Num NumProofs Py NdArray NumpyLib ScipyWrap Spec Values Ensemble SortProofs EvalProofs InterpProofs HistProofs
  InterpPdfProofs MixmodTheorems PackedTheorems MetricsProofs BrierProofs Fit.
Import ListNotations.
Local Open Scope string_scope.
Local Open Scope list_scope.
Local Open Scope R_scope.

(** The empirical distribution function of the samples [s] and its limit from the left: the fraction of samples at or
    below [x], and strictly below [x] *)
Definition upto (s : list R) (x : R) : R := INR (length (filter (fun y => if Rle_dec y x then true else false) s)) / INR (length s).
Definition under (s : list R) (x : R) : R := INR (length (filter (fun y => if Rlt_dec y x then true else false) s)) / INR (length s).

Lemma of_nat_INR n : of_nat (T := R) n = INR n.
Proof. unfold of_nat. change (IZR (Z.of_nat n) = INR n). symmetry. apply INR_IZR_INZ. Qed.

(** ** Counting in a sorted list *)
Section Count.
  Variable p : R -> bool.
  Hypothesis down : forall a b, a <= b -> p b = true -> p a = true.
  Lemma count_sorted t : StronglySorted Rle t -> forall i, (i < length t)%nat -> (p (nth i t 0) = true <-> (i < length (filter p t))%nat).
  Proof.
    induction 1 as [|a t Hs IH Hf]; intros i Hi; [cbn in Hi; lia|]. cbn [filter]. destruct (p a) eqn:E.
    - destruct i as [|i]; cbn [nth length]; [split; auto; lia|]. rewrite (IH i) by (cbn in Hi; lia). lia.
    - assert (Hno : forall b, In b t -> p b = false).
      { intros b Hb. destruct (p b) eqn:Eb; [|reflexivity]. rewrite (down a b) in E; auto. rewrite List.Forall_forall in Hf. auto. }
      assert (Z0 : length (filter p t) = 0%nat).
      { clear -Hno. induction t as [|b t IH]; [reflexivity|]. cbn. rewrite (Hno b) by (left; auto). apply IH. intros c Hc. apply Hno. right. auto. }
      rewrite Z0. split; [|lia]. intros Hp. destruct i as [|i]; cbn [nth] in Hp; [congruence|].
      rewrite Hno in Hp; [discriminate|]. apply nth_In. cbn in Hi. lia.
  Qed.
  Lemma count_perm s t : Permutation s t -> length (filter p s) = length (filter p t).
  Proof.
    induction 1 as [|x l l' H IH|x y l|l l' l'' H1 IH1 H2 IH2]; cbn; auto.
    - destruct (p x); cbn; auto.
    - destruct (p x), (p y); cbn; auto.
    - congruence.
  Qed.
End Count.

Lemma upto_sorted t x i : StronglySorted Rle t -> (i < length t)%nat ->
  (nth i t 0 <= x <-> (i < length (filter (fun y => if Rle_dec y x then true else false) t))%nat).
Proof.
  intros Hs Hi. rewrite <- (count_sorted (fun y => if Rle_dec y x then true else false)); auto.
  - destruct (Rle_dec (nth i t 0) x); split; intros; auto; try discriminate; contradiction.
  - intros a b Hab. destruct (Rle_dec b x), (Rle_dec a x); auto; try discriminate. lra.
Qed.
Lemma under_sorted t x i : StronglySorted Rle t -> (i < length t)%nat ->
  (nth i t 0 < x <-> (i < length (filter (fun y => if Rlt_dec y x then true else false) t))%nat).
Proof.
  intros Hs Hi. rewrite <- (count_sorted (fun y => if Rlt_dec y x then true else false)); auto.
  - destruct (Rlt_dec (nth i t 0) x); split; intros; auto; try discriminate; contradiction.
  - intros a b Hab. destruct (Rlt_dec b x), (Rlt_dec a x); auto; try discriminate. lra.
Qed.
Lemma filter_len {A} (p : A -> bool) l : (length (filter p l) <= length l)%nat.
Proof. induction l as [|a l IH]; cbn; [lia|]. destruct (p a); cbn; lia. Qed.
Lemma sorted_nth t i j : StronglySorted Rle t -> (i <= j)%nat -> (j < length t)%nat -> nth i t 0 <= nth j t 0.
Proof.
  intros H. revert i j. induction H as [|a t Hs IH Hf]; intros i j Hij Hj; [cbn in Hj; lia|]. destruct j as [|j]; [assert (i = 0%nat) by lia; subst; lra|].
  destruct i as [|i]; cbn [nth].
  - rewrite List.Forall_forall in Hf. apply Hf. apply nth_In. cbn in Hj. lia.
  - apply IH; cbn in Hj; lia.
Qed.

(** ** The largest entry of a line *)
Lemma fold_max_ge (l : list R) a : a <= fold_left nmax l a /\ (forall x, In x l -> x <= fold_left nmax l a) /\ (fold_left nmax l a = a \/ In (fold_left nmax l a) l).
Proof.
  revert a. induction l as [|b l IH]; intros a; cbn [fold_left]; [repeat split; auto; try lra; intros x []|].
  destruct (IH (nmax a b)) as (H1 & H2 & H3). rewrite nmax_R in *. pose proof (Rmax_l a b). pose proof (Rmax_r a b).
  split; [lra|]. split; [intros x [<-|Hx]; [lra|auto]|].
  destruct H3 as [H3|H3]; [|right; right; auto]. rewrite H3. unfold Rmax. destruct (Rle_dec a b); [right; left|left]; reflexivity.
Qed.
Lemma line_max_ok (l : list R) : l <> [] -> exists m, line_max l = Ok m /\ In m l /\ forall x, In x l -> x <= m.
Proof.
  destruct l as [|a l]; [congruence|]. intros _. exists (fold_left nmax l a). destruct (fold_max_ge l a) as (H1 & H2 & H3).
  split; [reflexivity|]. split; [destruct H3 as [E|H3]; [left; auto|right; auto]|]. intros x [<-|Hx]; auto.
Qed.
Lemma map2_seq_map {B} (h : nat -> R -> B) (c : list R) : map2 h (seq 0 (length c)) c = map (fun i => h i (nth i c 0)) (seq 0 (length c)).
Proof.
  enough (K : forall a, map2 h (seq a (length c)) c = map (fun i => h i (nth (i - a) c 0)) (seq a (length c))).
  { rewrite K. apply map_ext. intros i. rewrite Nat.sub_0_r. reflexivity. }
  induction c as [|x c IH]; intros a; [reflexivity|]. cbn [length seq map2 map]. rewrite Nat.sub_diag. cbn [nth]. f_equal. rewrite IH.
  apply map_ext_in. intros i Hi. apply in_seq in Hi. replace (i - a)%nat with (S (i - S a)) by lia. reflexivity.
Qed.
Lemma seq_max (h : nat -> R) n : (0 < n)%nat -> exists m, line_max (map h (seq 0 n)) = Ok m /\ (exists i, (i < n)%nat /\ m = h i) /\ forall i, (i < n)%nat -> h i <= m.
Proof.
  intros Hn. destruct (line_max_ok (map h (seq 0 n))) as (m & E & Hm & Hle); [destruct n; [lia|discriminate]|]. exists m. split; [exact E|]. split.
  - apply in_map_iff in Hm. destruct Hm as (i & <- & Hi). apply in_seq in Hi. exists i. split; auto; lia.
  - intros i Hi. apply Hle. apply in_map_iff. exists i. split; auto. apply in_seq. lia.
Qed.

(** ** Kolmogorov-Smirnov *)
Lemma ks_line_value (c : list R) : c <> [] -> exists D, ks_line c = Ok (Fin D) /\
  (forall i, (i < length c)%nat -> INR (S i) / INR (length c) - nth i c 0 <= D /\ nth i c 0 - INR i / INR (length c) <= D) /\
  (exists i, (i < length c)%nat /\ (D = INR (S i) / INR (length c) - nth i c 0 \/ D = nth i c 0 - INR i / INR (length c))).
Proof.
  intros Hc. unfold ks_line, compute_dplus, compute_dminus. rewrite !map2_seq_map. assert (Hn : (0 < length c)%nat) by (destruct c; [congruence|cbn; lia]).
  destruct (seq_max (fun i => nsub (ndiv (of_nat (S i)) (of_nat (length c))) (nth i c 0)) (length c) Hn) as (dp & E1 & (i1 & Hi1 & Ep) & Hp).
  destruct (seq_max (fun i => nsub (nth i c 0) (ndiv (of_nat i) (of_nat (length c)))) (length c) Hn) as (dm & E2 & (i2 & Hi2 & Em) & Hm).
  rewrite E1, E2. cbn [bind]. exists (nmax dp dm). split; [reflexivity|]. numR. rewrite nmax_R. split.
  - intros i Hi. specialize (Hp i Hi). specialize (Hm i Hi). cbv beta in Hp, Hm. rewrite !of_nat_INR in Hp, Hm.
    pose proof (Rmax_l dp dm). pose proof (Rmax_r dp dm). split; lra.
  - cbv beta in Ep, Em. rewrite !of_nat_INR in Ep, Em. unfold Rmax. destruct (Rle_dec dp dm).
    + exists i2. split; auto.
    + exists i1. split; auto.
Qed.

(** [D] is the largest distance between the empirical distribution function of [s] (or its limit from the left) and [F]. *)
Definition is_ks (F : R -> R) (s : list R) (D : R) : Prop :=
  (forall x, Rabs (upto s x - F x) <= D /\ Rabs (under s x - F x) <= D) /\
  (exists x, In x s /\ (D = upto s x - F x \/ D = F x - under s x)) /\
  1 / (2 * INR (length s)) <= D <= 1.

Lemma ks_sorted (F : R -> R) (t : list R) D : t <> [] -> StronglySorted Rle t ->
  (forall x y, x <= y -> F x <= F y) -> (forall x, 0 <= F x <= 1) ->
  ks_line (map F t) = Ok (Fin D) -> is_ks F t D.
Proof.
  intros Ht Hs Hmon H01 E. assert (Hn : (0 < length t)%nat) by (destruct t; [congruence|cbn; lia]). pose proof (lt_0_INR _ Hn) as HnR.
  destruct (ks_line_value (map F t)) as (D' & E' & Hb & Ha); [destruct t; [congruence|discriminate]|].
  rewrite E in E'. injection E' as <-. rewrite map_length in Hb, Ha.
  assert (Hnth : forall i, (i < length t)%nat -> nth i (map F t) 0 = F (nth i t 0)) by (intros i Hi; rewrite (nth_indep (map F t) 0 (F 0)) by (rewrite map_length; auto); apply map_nth).
  assert (Hb' : forall i, (i < length t)%nat -> INR (S i) / INR (length t) - F (nth i t 0) <= D /\ F (nth i t 0) - INR i / INR (length t) <= D).
  { intros i Hi. rewrite <- (Hnth i Hi). auto. }
  assert (Hfr : forall k, (k <= length t)%nat -> 0 <= INR k / INR (length t) <= 1).
  { intros k Hk. apply le_INR in Hk. pose proof (pos_INR k). split; [apply Rmult_le_pos; auto; left; apply Rinv_0_lt_compat; auto|].
    apply (Rmult_le_reg_r (INR (length t))); auto. unfold Rdiv. rewrite Rmult_assoc, Rinv_l by lra. lra. }
  assert (Hlow : 1 / (2 * INR (length t)) <= D).
  { destruct (Hb' 0%nat Hn) as [H1 H2]. cbn [INR] in H1, H2. replace (1 / (2 * INR (length t))) with (/ INR (length t) / 2) by (field; lra).
    unfold Rdiv in *. rewrite Rmult_0_l in H2. lra. }
  assert (Hpos : 0 < D) by (refine (Rlt_le_trans _ _ _ _ Hlow); apply Rdiv_lt_0_compat; lra).
  assert (Hhi : D <= 1).
  { destruct Ha as (i & Hi & [-> | ->]); rewrite (Hnth i Hi); pose proof (H01 (nth i t 0)).
    - pose proof (Hfr (S i)). lra || (assert (0 <= INR (S i) / INR (length t) <= 1) by (apply Hfr; lia); lra).
    - assert (0 <= INR i / INR (length t) <= 1) by (apply Hfr; lia); lra. }
  split; [|split; [|split; auto]].
  - intros x. assert (Ho : forall p, (forall y, y < x -> p y = true) -> (forall y, p y = true -> y <= x) -> (forall a b, a <= b -> p b = true -> p a = true) ->
      Rabs (INR (length (filter p t)) / INR (length t) - F x) <= D).
    2:{ split; apply Ho; intros; try (destruct (Rle_dec y x)); try (destruct (Rlt_dec y x)); try (destruct (Rle_dec b x)); try (destruct (Rle_dec a x));
        try (destruct (Rlt_dec b x)); try (destruct (Rlt_dec a x)); auto; try discriminate; lra. }
    intros p Pl Pu Pd. set (k := length (filter p t)).
    assert (Hc : forall i, (i < length t)%nat -> (p (nth i t 0) = true <-> (i < k)%nat)) by (intros i Hi; apply count_sorted; auto).
    assert (Hk : (k <= length t)%nat) by apply filter_len. pose proof (H01 x) as Hx. apply Rabs_le. split.
    + destruct (Nat.eq_dec k (length t)) as [Ek|Ek].
      * rewrite Ek. unfold Rdiv. rewrite Rinv_r by lra. lra.
      * destruct (Hb' k) as [_ H2]; [lia|]. assert (Hlt : ~ (nth k t 0 < x)) by (intros HL; apply Pl in HL; rewrite Hc in HL; lia).
        assert (F x <= F (nth k t 0)) by (apply Hmon; lra). lra.
    + destruct k as [|j] eqn:Ek.
      * cbn [INR]. unfold Rdiv. rewrite Rmult_0_l. lra.
      * destruct (Hb' j) as [H1 _]; [lia|]. assert (Hle : nth j t 0 <= x) by (apply Pu; rewrite Hc; lia).
        assert (F (nth j t 0) <= F x) by (apply Hmon; lra). lra.
  - destruct Ha as (i & Hi & [Ei | Ei]); rewrite (Hnth i Hi) in Ei; exists (nth i t 0); (split; [apply nth_In; auto|]).
    + left. unfold upto. set (k := length (filter (fun y => if Rle_dec y (nth i t 0) then true else false) t)).
      assert (Hk : (k <= length t)%nat) by apply filter_len.
      assert (Hik : (i < k)%nat) by (unfold k; rewrite <- upto_sorted by auto; lra).
      assert (Hj : (pred k < length t)%nat) by lia. destruct (Hb' (pred k) Hj) as [H1 _]. replace (S (pred k)) with k in H1 by lia.
      assert (Hx : nth (pred k) t 0 <= nth i t 0) by (apply upto_sorted; auto; fold k; lia).
      apply Hmon in Hx. assert (INR (S i) / INR (length t) <= INR k / INR (length t)).
      { apply Rmult_le_compat_r; [left; apply Rinv_0_lt_compat; auto|]. apply le_INR. lia. } lra.
    + right. unfold under. set (k := length (filter (fun y => if Rlt_dec y (nth i t 0) then true else false) t)).
      assert (Hik : (k <= i)%nat) by (apply Nat.nlt_ge; intros Hc; unfold k in Hc; rewrite <- under_sorted in Hc by auto; lra).
      destruct (Hb' k) as [_ H2]; [lia|]. assert (Hx : ~ nth k t 0 < nth i t 0) by (rewrite under_sorted by (auto; lia); fold k; lia).
      assert (F (nth i t 0) <= F (nth k t 0)) by (apply Hmon; lra).
      assert (INR k / INR (length t) <= INR i / INR (length t)).
      { apply Rmult_le_compat_r; [left; apply Rinv_0_lt_compat; auto|]. apply le_INR. lia. } lra.
Qed.
Lemma ks_perm F s t D : Permutation s t -> is_ks F s D -> is_ks F t D.
Proof.
  intros Hp (H1 & (x & Hx & H2) & H3). pose proof (Permutation_length Hp) as HL.
  assert (U : forall y, upto s y = upto t y) by (intros y; unfold upto; rewrite (count_perm _ s t Hp), HL; reflexivity).
  assert (V : forall y, under s y = under t y) by (intros y; unfold under; rewrite (count_perm _ s t Hp), HL; reflexivity).
  split; [intros y; rewrite <- U, <- V; auto|]. split; [|rewrite <- HL; auto]. exists x. rewrite <- U, <- V. split; auto. eapply Permutation_in; eauto.
Qed.
Lemma ks_samples (F : R -> R) (s : list R) : s <> [] -> (forall x y, x <= y -> F x <= F y) -> (forall x, 0 <= F x <= 1) ->
  exists D, ks_line (map F (np_sort s)) = Ok (Fin D) /\ is_ks F s D.
Proof.
  intros Hs Hmon H01. pose proof (np_sort_perm s) as Hp. assert (Hne : np_sort s <> []) by (intros E; rewrite E in Hp; apply Permutation_sym, Permutation_nil in Hp; auto).
  destruct (ks_line_value (map F (np_sort s))) as (D & E & _); [destruct (np_sort s); [congruence|discriminate]|].
  exists D. split; [exact E|]. apply (ks_perm F (np_sort s)); [apply Permutation_sym; exact Hp|]. apply ks_sorted; auto. apply np_sort_sorted.
Qed.

(** ** Cramer-von Mises *)
(** [W] is the statistic of the order statistics of [s]. *)
Definition is_cvm (F : R -> R) (s : list R) (W : R) : Prop :=
  exists t, Permutation s t /\ StronglySorted Rle t /\
    W = 1 / (12 * INR (length s)) + rsum (length s) (fun i => let d := (2 * INR i + 1) / (2 * INR (length s)) - F (nth i t 0) in d * d).
Lemma cvm_samples (F : R -> R) (s : list R) : s <> [] -> exists W, cvm_line (map F (np_sort s)) = Ok (Fin W) /\ is_cvm F s W.
Proof.
  intros Hs. pose proof (np_sort_perm s) as Hp. pose proof (Permutation_length Hp) as HL.
  assert (Hn : (0 < length s)%nat) by (destruct s; [congruence|cbn; lia]). pose proof (lt_0_INR _ Hn) as HnR.
  unfold cvm_line. rewrite map_length, <- HL. destruct (Nat.eqb_spec (length s) 0) as [E|_]; [lia|]. eexists. split; [reflexivity|].
  exists (np_sort s). split; [exact Hp|]. split; [apply np_sort_sorted|]. numR. rewrite !of_nat_INR.
  replace (INR 12) with 12 by (simpl; lra). f_equal.
  assert (EL : length s = length (map F (np_sort s))) by (rewrite map_length; exact HL).
  rewrite EL at 1. rewrite map2_seq_map, nsum_seq, <- EL. apply rsum_ext. intros i Hi. rewrite !of_nat_INR.
  rewrite (nth_indep (map F (np_sort s)) 0 (F 0)) by (rewrite map_length; lia). rewrite map_nth, (S_INR i). change (INR 2) with (1 + 1).
  cbv zeta. numR. assert (U : ((1 + 1) * (INR i + 1) - 1) / ((1 + 1) * INR (length s)) = (2 * INR i + 1) / (2 * INR (length s))) by (field; lra). rewrite <- U. reflexivity.
Qed.
Lemma cvm_bound F s W : is_cvm F s W -> 1 / (12 * INR (length s)) <= W.
Proof. intros (t & _ & _ & ->). pose proof (rsum_nonneg (length s) (fun i => let d := (2 * INR i + 1) / (2 * INR (length s)) - F (nth i t 0) in d * d)) as H.
  cbv zeta in *. assert (0 <= rsum (length s) (fun i => ((2 * INR i + 1) / (2 * INR (length s)) - F (nth i t 0)) * ((2 * INR i + 1) / (2 * INR (length s)) - F (nth i t 0)))) by (apply H; intros i _; apply Rle_0_sqr). lra.
Qed.
Lemma cvm_equal F s W : is_cvm F s W -> (W = 1 / (12 * INR (length s)) <->
  forall t, Permutation s t -> StronglySorted Rle t -> forall i, (i < length s)%nat -> F (nth i t 0) = (2 * INR i + 1) / (2 * INR (length s))).
Proof.
  intros (t & Hp & Hs & ->). cbv zeta. split.
  - intros E t' Hp' Hs' i Hi. assert (t' = t).
    { rewrite <- (np_sort_id t Hs), <- (np_sort_id t' Hs'). apply np_sort_perm_eq. eapply perm_trans; [apply Permutation_sym; exact Hp'|exact Hp]. }
    subst t'. assert (Z0 : rsum (length s) (fun i => ((2 * INR i + 1) / (2 * INR (length s)) - F (nth i t 0)) * ((2 * INR i + 1) / (2 * INR (length s)) - F (nth i t 0))) = 0) by lra.
    rewrite (rsum_sq_zero (length s) (fun i => (2 * INR i + 1) / (2 * INR (length s)) - F (nth i t 0))) in Z0. specialize (Z0 i Hi). lra.
  - intros H. rewrite (proj2 (rsum_sq_zero (length s) (fun i => (2 * INR i + 1) / (2 * INR (length s)) - F (nth i t 0)))); [lra|].
    intros i Hi. rewrite (H t Hp Hs i Hi). lra.
Qed.

(** ** Anderson-Darling *)
Lemma rsum_rev n (h : nat -> R) : rsum n (fun i => h (n - 1 - i)%nat) = rsum n h.
Proof.
  revert h. induction n as [|n IH]; intros h; [reflexivity|]. rewrite rsum_S_l. cbn [rsum]. rewrite <- (IH h).
  replace (S n - 1 - 0)%nat with n by lia. rewrite Rplus_comm. f_equal. apply rsum_ext. intros i Hi. f_equal. lia.
Qed.
Lemma ln_diff_strict a b : 0 < a -> 0 < b -> a <> b -> a - b < a * (ln a - ln b).
Proof.
  intros Ha Hb Hab. assert (Hy : ln b - ln a <> 0) by (intros E; apply Hab; apply ln_inv; lra).
  pose proof (exp_ineq1 _ Hy) as E. unfold Rminus at 2 in E. rewrite exp_plus, exp_Ropp, !exp_ln in E by auto.
  apply (Rmult_lt_compat_l a) in E; [|auto]. replace (a * (b * / a)) with b in E by (field; lra). lra.
Qed.
(** [A] is the statistic of the order statistics of [s]. *)
Definition is_ad (F : R -> R) (s : list R) (A : R) : Prop :=
  exists t, Permutation s t /\ StronglySorted Rle t /\
    A = - INR (length s) - rsum (length s) (fun i => (2 * INR i + 1) / INR (length s) *
          (ln (F (nth i t 0)) + ln (1 - F (nth (length s - 1 - i) t 0)))).
(** Its smallest possible value *)
Definition ad_least (n : nat) : R := - INR n - rsum n (fun i => 2 * ((2 * INR i + 1) / INR n) * ln ((2 * INR i + 1) / (2 * INR n))).

Lemma existsb_false_all {A} (p : A -> bool) l : (forall x, In x l -> p x = false) -> existsb p l = false.
Proof. induction l as [|a l IH]; intros H; [reflexivity|]. cbn. rewrite H by (left; auto). apply IH. intros x Hx. apply H. right. auto. Qed.
Lemma unit_range (f : R) : 0 <= f <= 1 -> (nltb f n0 || nltb n1 f)%bool = false.
Proof. intros H. destruct (nltb_reflect f n0) as [E|_]; [numR; lra|]. destruct (nltb_reflect n1 f) as [E|_]; [numR; lra|]. reflexivity. Qed.
Lemma unit_open (f : R) : 0 < f < 1 -> (neqb f n0 || neqb f n1)%bool = false.
Proof. intros H. destruct (neqb_reflect f n0) as [E|_]; [numR; lra|]. destruct (neqb_reflect f n1) as [E|_]; [numR; lra|]. reflexivity. Qed.
Lemma unit_edge (f : R) : f = 0 \/ f = 1 -> (neqb f n0 || neqb f n1)%bool = true.
Proof. intros H. destruct (neqb_reflect f n0) as [_|E]; [reflexivity|]. destruct (neqb_reflect f n1) as [_|E']; [reflexivity|]. numR. tauto. Qed.
Lemma ad_samples (F : R -> R) (s : list R) : (forall x, In x s -> 0 < F x < 1) -> exists A, ad_line ln (map F (np_sort s)) = Ok (Fin A) /\ is_ad F s A.
Proof.
  intros H01. pose proof (np_sort_perm s) as Hp. pose proof (Permutation_length Hp) as HL.
  assert (H01' : forall x, In x (np_sort s) -> 0 < F x < 1) by (intros x Hx; apply H01; eapply Permutation_in; [apply Permutation_sym; exact Hp|exact Hx]).
  unfold ad_line. rewrite map_length, <- HL.
  rewrite existsb_false_all.
  2:{ intros y Hy. apply in_map_iff in Hy. destruct Hy as (x & <- & Hx). specialize (H01' x Hx). apply unit_range. lra. }
  rewrite existsb_false_all.
  2:{ intros y Hy. apply in_map_iff in Hy. destruct Hy as (x & <- & Hx). specialize (H01' x Hx). apply unit_open. lra. }
  eexists. split; [reflexivity|]. exists (np_sort s). split; [exact Hp|]. split; [apply np_sort_sorted|].
  rewrite nsum_seq. numR. rewrite of_nat_INR. f_equal. apply rsum_ext. intros i Hi. rewrite !of_nat_INR. rewrite (S_INR i). change (INR 2) with (1 + 1).
  unfold nth0. numR.
  rewrite !(nth_indep (map F (np_sort s)) 0 (F 0)) by (rewrite map_length; lia). rewrite !map_nth.
  assert (Hn : 0 < INR (length s)) by (apply lt_0_INR; lia).
  assert (U : ((1 + 1) * (INR i + 1) - 1) / INR (length s) = (2 * INR i + 1) / INR (length s)) by (field; lra). rewrite <- U. reflexivity.
Qed.
Lemma ad_edge (F : R -> R) (s : list R) : (forall x, 0 <= F x <= 1) -> (exists x, In x s /\ (F x = 0 \/ F x = 1)) -> ad_line ln (map F (np_sort s)) = Ok PInf.
Proof.
  intros H01 (x & Hx & He). pose proof (np_sort_perm s) as Hp. unfold ad_line. rewrite existsb_false_all.
  2:{ intros y Hy. apply in_map_iff in Hy. destruct Hy as (z & <- & Hz). specialize (H01 z). apply unit_range. lra. }
  replace (existsb _ _) with true; [reflexivity|]. symmetry. apply existsb_exists. exists (F x). split.
  - apply in_map. eapply Permutation_in; eauto.
  - apply unit_edge. exact He.
Qed.
Lemma ad_minimal F s A : s <> [] -> (forall x, In x s -> 0 < F x < 1) -> is_ad F s A ->
  ad_least (length s) <= A /\ (A = ad_least (length s) <->
    forall t, Permutation s t -> StronglySorted Rle t -> forall i, (i < length s)%nat -> F (nth i t 0) = (2 * INR i + 1) / (2 * INR (length s))).
Proof.
  intros Hne H01 (t & Hp & Hs & ->). set (n := length s). assert (Hn : (0 < n)%nat) by (unfold n; destruct s; [congruence|cbn; lia]).
  pose proof (lt_0_INR _ Hn) as HnR. assert (HL : length t = n) by (unfold n; symmetry; apply Permutation_length; exact Hp).
  set (p := fun i => (2 * INR i + 1) / (2 * INR n)). set (c := fun i => F (nth i t 0)).
  assert (Hc : forall i, (i < n)%nat -> 0 < c i < 1).
  { intros i Hi. apply H01. eapply Permutation_in; [apply Permutation_sym; exact Hp|]. apply nth_In. lia. }
  assert (Hpp : forall i, (i < n)%nat -> 0 < p i < 1 /\ p (n - 1 - i)%nat = 1 - p i).
  { intros i Hi. unfold p. pose proof (pos_INR i). assert (INR i + 1 <= INR n) by (rewrite <- S_INR; apply le_INR; lia). split; [split|].
    - apply Rdiv_lt_0_compat; lra.
    - apply (Rmult_lt_reg_r (2 * INR n)); [lra|]. unfold Rdiv. rewrite Rmult_assoc, Rinv_l by lra. lra.
    - rewrite !minus_INR by lia. change (INR 1) with 1. field. lra. }
  set (g := fun i => 2 * (p i * (ln (p i) - ln (c i))) + 2 * ((1 - p i) * (ln (1 - p i) - ln (1 - c i)))).
  assert (Hg : forall i, (i < n)%nat -> 0 <= g i /\ (g i = 0 <-> c i = p i)).
  { intros i Hi. destruct (Hc i Hi), (Hpp i Hi) as [[] _]. unfold g. destruct (Req_EM_T (p i) (c i)) as [E|E].
    - rewrite E. split; [lra|]. split; [auto|intros; lra].
    - pose proof (ln_diff_strict (p i) (c i)) as G1. pose proof (ln_diff_strict (1 - p i) (1 - c i)) as G2.
      assert (p i - c i < p i * (ln (p i) - ln (c i))) by (apply G1; auto).
      assert ((1 - p i) - (1 - c i) < (1 - p i) * (ln (1 - p i) - ln (1 - c i))) by (apply G2; lra).
      split; [lra|]. split; [intros; lra|intros; congruence]. }
  assert (Key : - INR n - rsum n (fun i => (2 * INR i + 1) / INR n * (ln (F (nth i t 0)) + ln (1 - F (nth (n - 1 - i) t 0)))) = ad_least n + rsum n g).
  { unfold ad_least.
    assert (E1 : rsum n (fun i => (2 * INR i + 1) / INR n * (ln (F (nth i t 0)) + ln (1 - F (nth (n - 1 - i) t 0)))) =
                 rsum n (fun i => 2 * p i * ln (c i)) + rsum n (fun i => 2 * (1 - p i) * ln (1 - c i))).
    { rewrite <- (rsum_rev n (fun i => 2 * (1 - p i) * ln (1 - c i))), <- rsum_plus. apply rsum_ext. intros i Hi. destruct (Hpp i Hi) as [_ ->].
      replace (1 - (1 - p i)) with (p i) by ring. unfold c. replace ((2 * INR i + 1) / INR n) with (2 * p i) by (unfold p; field; lra). ring. }
    assert (E2 : rsum n (fun i => 2 * ((2 * INR i + 1) / INR n) * ln ((2 * INR i + 1) / (2 * INR n))) =
                 rsum n (fun i => 2 * p i * ln (p i)) + rsum n (fun i => 2 * (1 - p i) * ln (1 - p i))).
    { rewrite <- (rsum_rev n (fun i => 2 * (1 - p i) * ln (1 - p i))), <- rsum_plus. apply rsum_ext. intros i Hi. destruct (Hpp i Hi) as [_ ->].
      replace (1 - (1 - p i)) with (p i) by ring. fold (p i). replace ((2 * INR i + 1) / INR n) with (2 * p i) by (unfold p; field; lra). ring. }
    rewrite E1, E2. assert (E3 : rsum n g + (rsum n (fun i => 2 * p i * ln (c i)) + rsum n (fun i => 2 * (1 - p i) * ln (1 - c i))) =
                                 rsum n (fun i => 2 * p i * ln (p i)) + rsum n (fun i => 2 * (1 - p i) * ln (1 - p i))).
    { rewrite <- !rsum_plus. apply rsum_ext. intros i _. unfold g. ring. }
    lra. }
  rewrite Key. assert (Hz : 0 <= rsum n g) by (apply rsum_nonneg; intros i Hi; apply Hg; auto). split; [lra|].
  assert (G0 : rsum n g = 0 <-> forall i, (i < n)%nat -> g i = 0).
  { split.
    - intros E i Hi. assert (g i <= rsum n g) by (apply rsum_term; auto; intros; apply Hg; auto). pose proof (proj1 (Hg i Hi)). lra.
    - intros H. rewrite (rsum_ext n g (fun _ => 0)) by auto. clear. induction n; cbn; lra. }
  split.
  - intros E t' Hp' Hs' i Hi. assert (t' = t).
    { rewrite <- (np_sort_id t Hs), <- (np_sort_id t' Hs'). apply np_sort_perm_eq. eapply perm_trans; [apply Permutation_sym; exact Hp'|exact Hp]. }
    subst t'. change (c i = p i). apply Hg; auto. apply G0; auto. lra.
  - intros H. rewrite (proj2 G0); [lra|]. intros i Hi. apply Hg; auto. apply (H t Hp Hs i Hi).
Qed.
