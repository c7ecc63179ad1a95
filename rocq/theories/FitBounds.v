(** Inequalities between the three goodness-of-fit statistics of the same samples (C148). *)
From Coq Require Import String List Arith ZArith Bool Lia Reals Lra Sorted Permutation.
From Coquelicot Require Import Coquelicot.
From Verif Require Import Num NumProofs Py NdArray NumpyLib ScipyWrap Spec Values Ensemble SortProofs EvalProofs InterpProofs HistProofs
  InterpPdfProofs MixmodTheorems PackedTheorems MetricsProofs BrierProofs Fit FitProofs.
Import ListNotations.
Local Open Scope list_scope.
Local Open Scope R_scope.

(** A function that falls towards [a] and rises after it is least at [a]. *)
Lemma least_at (f k : R -> R) a t : (forall x, Rmin a t <= x <= Rmax a t -> is_derive f x ((x - a) * k x) /\ 0 <= k x) -> f a <= f t.
Proof.
  intros H. destruct (MVT_gen f a t (fun x => (x - a) * k x)) as (c & Hc & E).
  - intros x Hx. apply H. lra.
  - intros x Hx. apply (continuity_pt_filterlim f x). apply (ex_derive_continuous f x). eexists. apply H. exact Hx.
  - cbv beta in E. destruct (H c Hc) as [_ Hk]. assert (0 <= (c - a) * (t - a)).
    { unfold Rmin, Rmax in Hc. destruct (Rle_dec a t); [apply Rmult_le_pos; lra|]. replace ((c - a) * (t - a)) with ((a - c) * (a - t)) by ring. apply Rmult_le_pos; lra. }
    assert (0 <= (c - a) * k c * (t - a)) by (replace ((c - a) * k c * (t - a)) with ((c - a) * (t - a) * k c) by ring; apply Rmult_le_pos; auto). lra.
Qed.
Lemma between_open a t x : 0 < a < 1 -> 0 < t < 1 -> Rmin a t <= x <= Rmax a t -> 0 < x < 1.
Proof. unfold Rmin, Rmax. destruct (Rle_dec a t); lra. Qed.
Lemma between_half a t x : 0 < a <= 1 -> 0 < t <= 1 -> Rmin a t <= x <= Rmax a t -> 0 < x <= 1.
Proof. unfold Rmin, Rmax. destruct (Rle_dec a t); lra. Qed.

(** The relative entropy of two coins is at least twice the squared difference. *)
Lemma pinsker p c : 0 < p < 1 -> 0 < c < 1 ->
  2 * ((p - c) * (p - c)) <= p * (ln p - ln c) + (1 - p) * (ln (1 - p) - ln (1 - c)).
Proof.
  intros Hp Hc.
  pose proof (least_at (fun y => p * (ln p - ln y) + (1 - p) * (ln (1 - p) - ln (1 - y)) - 2 * ((p - y) * (p - y)))
    (fun y => / (y * (1 - y)) - 4) p c) as H. cbv beta in H.
  assert (E : p * (ln p - ln p) + (1 - p) * (ln (1 - p) - ln (1 - p)) - 2 * ((p - p) * (p - p)) = 0) by ring.
  rewrite E in H. enough (0 <= p * (ln p - ln c) + (1 - p) * (ln (1 - p) - ln (1 - c)) - 2 * ((p - c) * (p - c))) by lra.
  apply H. intros x Hx. pose proof (between_open p c x Hp Hc Hx) as X. split.
  - auto_derive; [repeat split; lra|]. field. lra.
  - assert (Q : 0 < x * (1 - x) <= / 4). { split; [apply Rmult_lt_0_compat; lra|]. pose proof (Rle_0_sqr (x - / 2)) as S. unfold Rsqr in S. lra. }
    enough (4 <= / (x * (1 - x))) by lra. replace 4 with (/ / 4) by (rewrite Rinv_inv; lra). apply Rinv_le_contravar; tauto.
Qed.
(** The convex function x ln x - 2 x^2 + 2/3 x^3 lies above its tangent at [m]. *)
Definition psi (x : R) : R := x * ln x - 2 * (x * x) + 2 / 3 * (x * x * x).
Definition dpsi (x : R) : R := ln x + 1 - 4 * x + 2 * (x * x).
Lemma psi_tangent m x : 0 < m <= 1 -> 0 < x <= 1 -> psi m + dpsi m * (x - m) <= psi x.
Proof.
  intros Hm Hx.
  pose proof (least_at (fun y => x * (ln x - ln y) - x + y - 2 * ((x - y) * (x - y)) + 2 / 3 * ((x - y) * (x - y) * (x + 2 * y)))
    (fun y => / y - 4 + 4 * y) x m) as H. cbv beta in H.
  assert (E : x * (ln x - ln x) - x + x - 2 * ((x - x) * (x - x)) + 2 / 3 * ((x - x) * (x - x) * (x + 2 * x)) = 0) by ring.
  rewrite E in H.
  assert (G : 0 <= x * (ln x - ln m) - x + m - 2 * ((x - m) * (x - m)) + 2 / 3 * ((x - m) * (x - m) * (x + 2 * m))).
  { apply H. intros y Hy. pose proof (between_half x m y Hx Hm Hy) as Y. split.
    - auto_derive; [repeat split; lra|]. field. lra.
    - replace (/ y - 4 + 4 * y) with ((2 * y - 1) * (2 * y - 1) * / y) by (field; lra). apply Rmult_le_pos; [apply Rle_0_sqr|left; apply Rinv_0_lt_compat; lra]. }
  unfold psi, dpsi. apply Rminus_le. match goal with |- ?a - ?b <= 0 => replace (a - b) with (- (x * (ln x - ln m) - x + m - 2 * ((x - m) * (x - m)) + 2 / 3 * ((x - m) * (x - m) * (x + 2 * m)))) by field end. lra.
Qed.
Lemma ln2_two_thirds : 2 / 3 <= ln 2.
Proof.
  (* ln y >= 2 (y - 1) / (y + 1) for y >= 1 *)
  destruct (MVT_gen (fun y => ln y - 2 * (y - 1) / (y + 1)) 1 2 (fun y => / y - 4 / ((y + 1) * (y + 1)))) as (c & Hc & E).
  - intros y Hy. unfold Rmin, Rmax in Hy. destruct (Rle_dec 1 2); [|lra]. auto_derive; [repeat split; lra|]. field. lra.
  - intros y Hy. unfold Rmin, Rmax in Hy. destruct (Rle_dec 1 2); [|lra]. apply (continuity_pt_filterlim (fun y => ln y - 2 * (y - 1) / (y + 1)) y).
    apply (ex_derive_continuous (fun y => ln y - 2 * (y - 1) / (y + 1)) y). auto_derive. repeat split; lra.
  - cbv beta in E. unfold Rmin, Rmax in Hc. destruct (Rle_dec 1 2); [|lra]. rewrite ln_1 in E.
    assert (0 <= / c - 4 / ((c + 1) * (c + 1))).
    { replace (/ c - 4 / ((c + 1) * (c + 1))) with ((c - 1) * (c - 1) / (c * ((c + 1) * (c + 1)))) by (field; lra).
      apply Rmult_le_pos; [apply Rle_0_sqr|]. left. apply Rinv_0_lt_compat. repeat apply Rmult_lt_0_compat; lra. }
    lra.
Qed.
(** An antiderivative of [psi], and the midpoint rule *)
Definition Psi (x : R) : R := x * x / 2 * ln x - x * x / 4 - 2 / 3 * (x * x * x) + x * x * x * x / 6.
Lemma psi_mid a b : 0 <= a -> a < b -> b <= 1 -> (b - a) * psi ((a + b) / 2) <= Psi b - Psi a.
Proof.
  intros Ha Hab Hb. destruct Ha as [Ha|<-].
  - set (m := (a + b) / 2). assert (Hm : 0 < m <= 1) by (unfold m; lra).
    destruct (MVT_gen (fun x => Psi x - psi m * x - dpsi m * ((x - m) * (x - m) / 2)) a b (fun x => psi x - psi m - dpsi m * (x - m))) as (c & Hc & E).
    + intros y Hy. rewrite Rmin_left, Rmax_right in Hy by lra. unfold Psi. auto_derive; [repeat split; lra|]. unfold psi. field. lra.
    + intros y Hy. rewrite Rmin_left, Rmax_right in Hy by lra. apply (continuity_pt_filterlim (fun x => Psi x - psi m * x - dpsi m * ((x - m) * (x - m) / 2)) y).
      apply (ex_derive_continuous (fun x => Psi x - psi m * x - dpsi m * ((x - m) * (x - m) / 2)) y). unfold Psi. auto_derive. repeat split; lra.
    + cbv beta in E. rewrite Rmin_left, Rmax_right in Hc by lra. pose proof (psi_tangent m c Hm) as T.
      assert (0 <= (psi c - psi m - dpsi m * (c - m)) * (b - a)) by (apply Rmult_le_pos; [|lra]; assert (psi m + dpsi m * (c - m) <= psi c) by (apply T; lra); lra).
      assert (S : (b - m) * (b - m) / 2 = (a - m) * (a - m) / 2) by (unfold m; field). rewrite S in E. lra.
  - replace ((0 + b) / 2) with (b / 2) by lra. unfold psi, Psi. rewrite !Rmult_0_l. unfold Rdiv at 2. rewrite ln_mult, ln_Rinv by lra.
    pose proof ln2_two_thirds as L. set (l := ln b). set (k := ln 2) in *.
    assert (G : 0 <= b * b * (k / 2 - 1 / 4 - b / 6 + b * b / 12)).
    { apply Rmult_le_pos; [apply Rle_0_sqr|]. pose proof (Rle_0_sqr (1 - b)) as S. unfold Rsqr in S. lra. }
    apply Rminus_le. match goal with |- ?u <= 0 => replace u with (- (b * b * (k / 2 - 1 / 4 - b / 6 + b * b / 12))) by field end. lra.
Qed.

(** ** The least value of the Anderson-Darling statistic *)
Lemma odd_sums n : rsum n (fun i => 2 * INR i + 1) = INR n * INR n /\
  rsum n (fun i => (2 * INR i + 1) * (2 * INR i + 1)) = INR n * (4 * (INR n * INR n) - 1) / 3 /\
  rsum n (fun i => (2 * INR i + 1) * (2 * INR i + 1) * (2 * INR i + 1)) = INR n * INR n * (2 * (INR n * INR n) - 1).
Proof.
  induction n as [|n (I1 & I2 & I3)]; [cbn; lra|]. cbn [rsum]. rewrite I1, I2, I3, S_INR. repeat split; field.
Qed.
Definition middle (n i : nat) : R := (2 * INR i + 1) / (2 * INR n).
Lemma middle_open n i : (i < n)%nat -> 0 < middle n i < 1 /\ middle n (n - 1 - i) = 1 - middle n i.
Proof.
  intros Hi. assert (HnR : 0 < INR n) by (apply lt_0_INR; lia). unfold middle. pose proof (pos_INR i).
  assert (INR i + 1 <= INR n) by (rewrite <- S_INR; apply le_INR; lia). split; [split|].
  - apply Rdiv_lt_0_compat; lra.
  - apply (Rmult_lt_reg_r (2 * INR n)); [lra|]. unfold Rdiv. rewrite Rmult_assoc, Rinv_l by lra. lra.
  - rewrite !minus_INR by lia. change (INR 1) with 1. field. lra.
Qed.
Lemma middle_sums n : (0 < n)%nat -> rsum n (middle n) = INR n / 2 /\
  rsum n (fun i => middle n i * middle n i) = INR n / 3 - 1 / (12 * INR n) /\
  rsum n (fun i => middle n i * middle n i * middle n i) = INR n / 4 - 1 / (8 * INR n).
Proof.
  intros Hn. assert (HnR : 0 < INR n) by (apply lt_0_INR; lia). destruct (odd_sums n) as (S1 & S2 & S3). set (r := / (2 * INR n)).
  repeat split.
  - rewrite (rsum_ext n (middle n) (fun i => (2 * INR i + 1) * r)) by reflexivity. rewrite rsum_scale, S1. unfold r. field. lra.
  - rewrite (rsum_ext n _ (fun i => (2 * INR i + 1) * (2 * INR i + 1) * (r * r))) by (intros; unfold middle, Rdiv; fold r; ring).
    rewrite rsum_scale, S2. unfold r. field. lra.
  - rewrite (rsum_ext n _ (fun i => (2 * INR i + 1) * (2 * INR i + 1) * (2 * INR i + 1) * (r * r * r))) by (intros; unfold middle, Rdiv; fold r; ring).
    rewrite rsum_scale, S3. unfold r. field. lra.
Qed.
Lemma psi_sum n k : (k <= n)%nat -> rsum k (fun i => psi (middle n i)) <= INR n * Psi (INR k / INR n).
Proof.
  induction k as [|k IH]; intros Hk.
  - cbn [rsum INR]. unfold Psi. unfold Rdiv. rewrite !Rmult_0_l. lra.
  - assert (HnR : 0 < INR n) by (apply lt_0_INR; lia). cbn [rsum]. specialize (IH ltac:(lia)).
    assert (Hk1 : INR k + 1 <= INR n) by (rewrite <- S_INR; apply le_INR; lia). pose proof (pos_INR k) as Hk0.
    pose proof (psi_mid (INR k / INR n) (INR (S k) / INR n)) as M. rewrite S_INR in *.
    assert (H1 : 0 <= INR k / INR n) by (apply Rmult_le_pos; [auto|left; apply Rinv_0_lt_compat; auto]).
    assert (H2 : INR k / INR n < (INR k + 1) / INR n) by (apply Rmult_lt_compat_r; [apply Rinv_0_lt_compat; auto|lra]).
    assert (H3 : (INR k + 1) / INR n <= 1) by (apply (Rmult_le_reg_r (INR n)); [auto|]; unfold Rdiv; rewrite Rmult_assoc, Rinv_l by lra; lra).
    specialize (M H1 H2 H3). replace ((INR k / INR n + (INR k + 1) / INR n) / 2) with (middle n k) in M by (unfold middle; field; lra).
    replace ((INR k + 1) / INR n - INR k / INR n) with (/ INR n) in M by (field; lra).
    apply (Rmult_le_compat_l (INR n)) in M; [|lra]. rewrite <- Rmult_assoc, Rinv_r, Rmult_1_l in M by lra. lra.
Qed.
Lemma ad_least_bound n : (0 < n)%nat -> 1 / (3 * INR n) <= ad_least n.
Proof.
  intros Hn. assert (HnR : 0 < INR n) by (apply lt_0_INR; lia). destruct (middle_sums n Hn) as (S1 & S2 & S3).
  pose proof (psi_sum n n (le_n n)) as P. unfold Rdiv at 1 in P. rewrite Rinv_r in P by lra.
  assert (P1 : Psi 1 = - 3 / 4) by (unfold Psi; rewrite ln_1; field). rewrite P1 in P.
  unfold ad_least. set (L := rsum n (fun i => middle n i * ln (middle n i))).
  assert (E : rsum n (fun i => 2 * ((2 * INR i + 1) / INR n) * ln ((2 * INR i + 1) / (2 * INR n))) = L * 4).
  { unfold L. rewrite <- rsum_scale. apply rsum_ext. intros i _. fold (middle n i). replace ((2 * INR i + 1) / INR n) with (2 * middle n i) by (unfold middle; field; lra). ring. }
  assert (E2 : rsum n (fun i => psi (middle n i)) = L + rsum n (fun i => middle n i * middle n i) * (-2) + rsum n (fun i => middle n i * middle n i * middle n i) * (2 / 3)).
  { unfold L. rewrite <- !rsum_scale, <- !rsum_plus. apply rsum_ext. intros i _. unfold psi. ring. }
  rewrite E2, S2, S3 in P. rewrite E.
  assert (Q : 1 / (3 * INR n) = 2 * (1 / (6 * INR n))) by (field; lra). assert (Q1 : 1 / (12 * INR n) = 1 / (6 * INR n) / 2) by (field; lra).
  assert (Q2 : 1 / (8 * INR n) = 3 / 4 * (1 / (6 * INR n))) by (field; lra). rewrite Q1, Q2 in P. rewrite Q. set (r := 1 / (6 * INR n)) in *. lra.
Qed.
(** ** Anderson-Darling against Cramer-von Mises *)
Lemma ad_cvm F s A W : s <> [] -> (forall x, In x s -> 0 < F x < 1) -> is_ad F s A -> is_cvm F s W -> 4 * W <= A.
Proof.
  intros Hne H01 (t & Hp & Hs & ->) (t' & Hp' & Hs' & ->). assert (t' = t).
  { rewrite <- (np_sort_id t Hs), <- (np_sort_id t' Hs'). apply np_sort_perm_eq. eapply perm_trans; [apply Permutation_sym; exact Hp'|exact Hp]. }
  subst t'. set (n := length s). assert (Hn : (0 < n)%nat) by (unfold n; destruct s; [congruence|cbn; lia]).
  pose proof (lt_0_INR _ Hn) as HnR. assert (HL : length t = n) by (unfold n; symmetry; apply Permutation_length; exact Hp).
  set (c := fun i => F (nth i t 0)). set (p := middle n).
  assert (Hc : forall i, (i < n)%nat -> 0 < c i < 1).
  { intros i Hi. apply H01. eapply Permutation_in; [apply Permutation_sym; exact Hp|]. apply nth_In. lia. }
  pose proof (ad_least_bound n Hn) as B.
  set (g := fun i => 2 * (p i * (ln (p i) - ln (c i))) + 2 * ((1 - p i) * (ln (1 - p i) - ln (1 - c i)))).
  assert (Key : - INR n - rsum n (fun i => (2 * INR i + 1) / INR n * (ln (F (nth i t 0)) + ln (1 - F (nth (n - 1 - i) t 0)))) = ad_least n + rsum n g).
  { unfold ad_least.
    assert (E1 : rsum n (fun i => (2 * INR i + 1) / INR n * (ln (F (nth i t 0)) + ln (1 - F (nth (n - 1 - i) t 0)))) =
                 rsum n (fun i => 2 * p i * ln (c i)) + rsum n (fun i => 2 * (1 - p i) * ln (1 - c i))).
    { rewrite <- (rsum_rev n (fun i => 2 * (1 - p i) * ln (1 - c i))), <- rsum_plus. apply rsum_ext. intros i Hi. unfold p. destruct (middle_open n i Hi) as [_ ->].
      replace (1 - (1 - middle n i)) with (middle n i) by ring. unfold c. replace ((2 * INR i + 1) / INR n) with (2 * middle n i) by (unfold middle; field; lra). ring. }
    assert (E2 : rsum n (fun i => 2 * ((2 * INR i + 1) / INR n) * ln ((2 * INR i + 1) / (2 * INR n))) =
                 rsum n (fun i => 2 * p i * ln (p i)) + rsum n (fun i => 2 * (1 - p i) * ln (1 - p i))).
    { rewrite <- (rsum_rev n (fun i => 2 * (1 - p i) * ln (1 - p i))), <- rsum_plus. apply rsum_ext. intros i Hi. unfold p. destruct (middle_open n i Hi) as [_ ->].
      replace (1 - (1 - middle n i)) with (middle n i) by ring. fold (middle n i). replace ((2 * INR i + 1) / INR n) with (2 * middle n i) by (unfold middle; field; lra). ring. }
    rewrite E1, E2. assert (E3 : rsum n g + (rsum n (fun i => 2 * p i * ln (c i)) + rsum n (fun i => 2 * (1 - p i) * ln (1 - c i))) =
                                 rsum n (fun i => 2 * p i * ln (p i)) + rsum n (fun i => 2 * (1 - p i) * ln (1 - p i))).
    { rewrite <- !rsum_plus. apply rsum_ext. intros i _. unfold g. ring. }
    lra. }
  rewrite Key. cbv zeta.
  assert (G : rsum n (fun i => ((2 * INR i + 1) / (2 * INR n) - F (nth i t 0)) * ((2 * INR i + 1) / (2 * INR n) - F (nth i t 0))) * 4 <= rsum n g).
  { rewrite <- rsum_scale. apply rsum_le. intros i Hi. fold (middle n i). fold (p i). fold (c i). destruct (middle_open n i Hi) as [Hpi _].
    pose proof (pinsker (p i) (c i) Hpi (Hc i Hi)). unfold g. lra. }
  replace (1 / (3 * INR n)) with (4 * (1 / (12 * INR n))) in B by (field; lra). lra.
Qed.
(** ** Cramer-von Mises: largest value, and against Kolmogorov-Smirnov *)
Lemma cvm_most F s W : s <> [] -> (forall x y, x <= y -> F x <= F y) -> (forall x, 0 <= F x <= 1) -> is_cvm F s W ->
  W <= INR (length s) / 3 /\ (W = INR (length s) / 3 <-> (forall x, In x s -> F x = 0) \/ (forall x, In x s -> F x = 1)).
Proof.
  intros Hne Hmon H01 (t & Hp & Hs & ->). set (n := length s). assert (Hn : (0 < n)%nat) by (unfold n; destruct s; [congruence|cbn; lia]).
  pose proof (lt_0_INR _ Hn) as HnR. assert (HL : length t = n) by (unfold n; symmetry; apply Permutation_length; exact Hp). cbv zeta.
  set (c := fun i => F (nth i t 0)). destruct (middle_sums n Hn) as (S1 & S2 & _).
  assert (E : rsum n (fun i => ((2 * INR i + 1) / (2 * INR n) - F (nth i t 0)) * ((2 * INR i + 1) / (2 * INR n) - F (nth i t 0))) =
    INR n / 3 - 1 / (12 * INR n) - rsum n (fun i => c i * (1 - c i)) - rsum n (fun i => (2 * middle n i - 1) * c i)).
  { assert (E' : rsum n (fun i => ((2 * INR i + 1) / (2 * INR n) - F (nth i t 0)) * ((2 * INR i + 1) / (2 * INR n) - F (nth i t 0))) +
      (rsum n (fun i => c i * (1 - c i)) + rsum n (fun i => (2 * middle n i - 1) * c i)) = rsum n (fun i => middle n i * middle n i)).
    { rewrite <- !rsum_plus. apply rsum_ext. intros i _. fold (middle n i). fold (c i). ring. }
    lra. }
  rewrite E.
  assert (Q : forall i, (i < n)%nat -> 0 <= c i * (1 - c i)) by (intros i _; unfold c; pose proof (H01 (nth i t 0)); apply Rmult_le_pos; lra).
  assert (H1 : 0 <= rsum n (fun i => c i * (1 - c i))) by (apply rsum_nonneg; exact Q).
  assert (Hc : forall i j, (i <= j)%nat -> (j < n)%nat -> c i <= c j) by (intros i j Hij Hj; apply Hmon, sorted_nth; auto; lia).
  assert (Z2 : forall i, (i < n)%nat -> 0 <= (2 * middle n i - 1) * (c i - c (n - 1 - i)%nat)).
  { intros i Hi. destruct (le_lt_dec (n - 1 - i) i) as [L|L].
    - apply Rmult_le_pos; [|pose proof (Hc (n - 1 - i)%nat i L Hi); lra]. unfold middle. apply (Rmult_le_reg_r (2 * INR n)); [lra|].
      replace ((2 * ((2 * INR i + 1) / (2 * INR n)) - 1) * (2 * INR n)) with (2 * (2 * INR i + 1) - 2 * INR n) by (field; lra).
      assert (INR n <= INR (2 * i + 1)) by (apply le_INR; lia). rewrite plus_INR, mult_INR in *. cbn [INR] in *. lra.
    - replace ((2 * middle n i - 1) * (c i - c (n - 1 - i)%nat)) with ((1 - 2 * middle n i) * (c (n - 1 - i)%nat - c i)) by ring.
      apply Rmult_le_pos; [|pose proof (Hc i (n - 1 - i)%nat ltac:(lia) ltac:(lia)); lra]. unfold middle. apply (Rmult_le_reg_r (2 * INR n)); [lra|].
      replace ((1 - 2 * ((2 * INR i + 1) / (2 * INR n))) * (2 * INR n)) with (2 * INR n - 2 * (2 * INR i + 1)) by (field; lra).
      assert (INR (2 * i + 1) <= INR n) by (apply le_INR; lia). rewrite plus_INR, mult_INR in *. cbn [INR] in *. lra. }
  assert (E2 : rsum n (fun i => (2 * middle n i - 1) * c i) * 2 = rsum n (fun i => (2 * middle n i - 1) * (c i - c (n - 1 - i)%nat))).
  { assert (R1 : rsum n (fun i => (2 * middle n i - 1) * c i) = rsum n (fun i => - (2 * middle n i - 1) * c (n - 1 - i)%nat)).
    { rewrite <- (rsum_rev n (fun i => (2 * middle n i - 1) * c i)). apply rsum_ext. intros i Hi. destruct (middle_open n i Hi) as [_ ->]. ring. }
    assert (R2 : rsum n (fun i => (2 * middle n i - 1) * (c i - c (n - 1 - i)%nat)) = rsum n (fun i => (2 * middle n i - 1) * c i) + rsum n (fun i => - (2 * middle n i - 1) * c (n - 1 - i)%nat)).
    { rewrite <- rsum_plus. apply rsum_ext. intros i _. ring. }
    lra. }
  assert (H2 : 0 <= rsum n (fun i => (2 * middle n i - 1) * (c i - c (n - 1 - i)%nat))) by (apply rsum_nonneg; exact Z2).
  split; [lra|]. split.
  - intros W0. assert (A1 : rsum n (fun i => c i * (1 - c i)) = 0) by lra. assert (A2 : rsum n (fun i => (2 * middle n i - 1) * (c i - c (n - 1 - i)%nat)) = 0) by lra.
    assert (C01 : forall i, (i < n)%nat -> c i = 0 \/ c i = 1).
    { intros i Hi. pose proof (rsum_term n (fun i => c i * (1 - c i)) i Q Hi) as T. cbv beta in T. specialize (Q i Hi). assert (T0 : c i * (1 - c i) = 0) by lra.
      apply Rmult_integral in T0. lra. }
    assert (Sym : (1 < n)%nat -> c 0%nat = c (n - 1)%nat).
    { intros Hn1. pose proof (rsum_term n (fun i => (2 * middle n i - 1) * (c i - c (n - 1 - i)%nat)) 0 Z2 Hn) as T. cbv beta in T. specialize (Z2 0%nat Hn). rewrite A2 in T.
      rewrite Nat.sub_0_r in *. assert (T0 : (2 * middle n 0 - 1) * (c 0%nat - c (n - 1)%nat) = 0) by lra. apply Rmult_integral in T0. destruct T0 as [T0|T0]; [|lra].
      exfalso. unfold middle in T0. cbn [INR] in T0. assert (2 <= INR n) by (change 2 with (INR 2); apply le_INR; lia).
      apply (f_equal (fun z => z * INR n)) in T0. replace ((2 * ((2 * 0 + 1) / (2 * INR n)) - 1) * INR n) with (1 - INR n) in T0 by (field; lra). lra. }
    assert (All : forall i, (i < n)%nat -> c i = c 0%nat).
    { intros i Hi. destruct (Nat.eq_dec n 1) as [E1|E1]; [f_equal; lia|]. specialize (Sym ltac:(lia)).
      pose proof (Hc 0%nat i ltac:(lia) Hi). pose proof (Hc i (n - 1)%nat ltac:(lia) ltac:(lia)). lra. }
    assert (In1 : forall x, In x s -> exists i, (i < n)%nat /\ F x = c i).
    { intros x Hx. apply (Permutation_in _ Hp) in Hx. destruct (In_nth t x 0 Hx) as (i & Hi & <-). exists i. split; [lia|reflexivity]. }
    destruct (C01 0%nat Hn) as [C|C]; [left|right]; intros x Hx; destruct (In1 x Hx) as (i & Hi & ->); rewrite (All i Hi); exact C.
  - assert (In1 : forall i, (i < n)%nat -> In (nth i t 0) s) by (intros i Hi; apply (Permutation_in _ (Permutation_sym Hp)), nth_In; lia).
    intros [H|H].
    + rewrite (rsum_ext n (fun i => c i * (1 - c i)) (fun i => 0 * 0)), (rsum_ext n (fun i => (2 * middle n i - 1) * c i) (fun i => 0 * 0)), rsum_scale; [lra| |].
      * intros i Hi. unfold c. rewrite (H _ (In1 i Hi)). ring.
      * intros i Hi. unfold c. rewrite (H _ (In1 i Hi)). ring.
    + rewrite (rsum_ext n (fun i => c i * (1 - c i)) (fun i => 0 * 0)), (rsum_ext n (fun i => (2 * middle n i - 1) * c i) (fun i => middle n i * 2 + (- (1)))), rsum_scale.
      * rewrite rsum_plus, rsum_scale, S1. replace (rsum n (fun _ => - (1))) with (- INR n); [lra|]. clear. induction n as [|n IH]; [cbn; lra|]. cbn [rsum]. rewrite <- IH, S_INR. lra.
      * intros i Hi. unfold c. rewrite (H _ (In1 i Hi)). ring.
      * intros i Hi. unfold c. rewrite (H _ (In1 i Hi)). ring.
Qed.
Lemma cvm_ks F s W D : s <> [] -> is_cvm F s W -> is_ks F s D -> W <= INR (length s) * (D * D).
Proof.
  intros Hne (t & Hp & Hs & ->) (Hk & _). set (n := length s). assert (Hn : (0 < n)%nat) by (unfold n; destruct s; [congruence|cbn; lia]).
  pose proof (lt_0_INR _ Hn) as HnR. assert (HL : length t = n) by (unfold n; symmetry; apply Permutation_length; exact Hp). cbv zeta.
  assert (Hi : forall i, (i < n)%nat -> Rabs ((2 * INR i + 1) / (2 * INR n) - F (nth i t 0)) <= D - 1 / (2 * INR n)).
  { intros i Hi. destruct (Hk (nth i t 0)) as [K1 K2]. unfold upto in K1. unfold under in K2. rewrite (count_perm _ s t Hp) in K1. rewrite (count_perm _ s t Hp) in K2. fold n in K1, K2.
    set (a := length (filter (fun y => if Rle_dec y (nth i t 0) then true else false) t)) in *. set (b := length (filter (fun y => if Rlt_dec y (nth i t 0) then true else false) t)) in *.
    assert (Ha : (S i <= a)%nat) by (unfold a; apply upto_sorted; auto; [lia|lra]).
    assert (Hb : (b <= i)%nat) by (apply Nat.nlt_ge; intros C; unfold b in C; rewrite <- under_sorted in C by (auto; lia); lra).
    apply le_INR in Ha, Hb. rewrite S_INR in Ha.
    assert (Ha' : (INR i + 1) / INR n <= INR a / INR n) by (apply Rmult_le_compat_r; [left; apply Rinv_0_lt_compat; auto|auto]).
    assert (Hb' : INR b / INR n <= INR i / INR n) by (apply Rmult_le_compat_r; [left; apply Rinv_0_lt_compat; auto|auto]).
    apply Rabs_le_between in K1, K2. apply Rabs_le_between.
    replace ((2 * INR i + 1) / (2 * INR n)) with (INR i / INR n + 1 / (2 * INR n)) by (field; lra).
    replace ((INR i + 1) / INR n) with (INR i / INR n + 2 * (1 / (2 * INR n))) in Ha' by (field; lra). lra. }
  set (r := 1 / (2 * INR n)) in *. assert (Hr : 0 < r) by (apply Rdiv_lt_0_compat; lra).
  assert (Hd : forall i, (i < n)%nat -> ((2 * INR i + 1) / (2 * INR n) - F (nth i t 0)) * ((2 * INR i + 1) / (2 * INR n) - F (nth i t 0)) <= D * D - r * r / 3).
  { intros i Hi'. specialize (Hi i Hi'). set (d := (2 * INR i + 1) / (2 * INR n) - F (nth i t 0)) in *. replace (d * d) with (Rabs d * Rabs d) by (rewrite <- Rabs_mult; apply Rabs_pos_eq, Rle_0_sqr).
    pose proof (Rabs_pos d) as P. apply Rle_trans with ((D - r) * (D - r)); [apply Rmult_le_compat; auto|].
    assert (0 <= r * (2 * D - 4 / 3 * r)) by (apply Rmult_le_pos; lra). lra. }
  apply rsum_le in Hd. assert (K : forall z, rsum n (fun _ => z) = INR n * z).
  { intros z. clear. induction n as [|n IH]; [cbn; lra|]. cbn [rsum]. rewrite IH, S_INR. lra. }
  rewrite K in Hd. fold n. replace (1 / (12 * INR n)) with (INR n * (r * r / 3)) by (unfold r; field; lra). lra.
Qed.
