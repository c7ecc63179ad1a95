(** Normalisation of histograms (hist_pdf.py 67, 79-80) in double precision. *)
From Coq Require Import List Arith ZArith Bool Sorted Permutation Lia Reals Lra Psatz Floats.SpecFloat.
From Flocq Require Import Core.Zaux Core.Raux.
From Verif Require Import Num NumProofs PairwiseProofs Py NdArray NumpyLib Utils HistPdf Spec BinProofs Float FloatProofs FloatHist FloatMachine FloatTheorems FloatExamples.
Import ListNotations.
Local Open Scope R_scope.

(** ** Sums of doubles, in any order of addition *)
(** [s] is the result of adding the numbers [a i], [i] in the list, in some order and with some brackets. *)
Inductive added (a : nat -> R) : list nat -> R -> Prop :=
| added_one i : added a [i] (a i)
| added_two l1 l2 s1 s2 : added a l1 s1 -> added a l2 s2 -> added a (l1 ++ l2) (rd (s1 + s2))
| added_perm l1 l2 s : added a l1 s -> Permutation l1 l2 -> added a l2 s.
Definition tot (X : nat -> R) (l : list nat) : R := fold_right (fun i t => X i + t) 0 l.
Lemma tot_app X l1 l2 : tot X (l1 ++ l2) = tot X l1 + tot X l2.
Proof. induction l1; simpl; [lra|]. rewrite IHl1. lra. Qed.
Lemma tot_perm X l1 l2 : Permutation l1 l2 -> tot X l1 = tot X l2.
Proof. intros H. induction H; simpl; lra. Qed.
Lemma tot_pos X l : (forall i, In i l -> 0 <= X i) -> 0 <= tot X l.
Proof. intros H. induction l; simpl; [lra|]. pose proof (H a (or_introl eq_refl)). assert (0 <= tot X l) by (apply IHl; intros; apply H; right; assumption). lra. Qed.
Lemma tot_seq X n : tot X (seq 0 n) = rsum n X.
Proof. induction n; [reflexivity|]. rewrite seq_S, tot_app, IHn. simpl. lra. Qed.
Lemma added_ne a l s : added a l s -> (1 <= length l)%nat.
Proof. intros H. induction H; simpl; [lia|rewrite app_length; lia|rewrite <- (Permutation_length H0); assumption]. Qed.
Lemma added_dbl a l s : (forall i, dbl (a i)) -> added a l s -> dbl s.
Proof. intros H A. induction A; [apply H|apply rd_dbl|assumption]. Qed.

Lemma added_err a X D l s : (forall i, dbl (a i)) -> added a l s -> 0 <= D ->
  (forall i, In i l -> 0 <= X i /\ Rabs (a i - X i) <= / 2 ^ 51 * X i + D) -> INR (length l) <= 2 ^ 40 ->
  Rabs (s - tot X l) <= (/ 2 ^ 51 + INR (length l) / 2 ^ 52) * tot X l + (2 * INR (length l) - 1) * D.
Proof.
  intros Ha A HD. induction A as [i|l1 l2 s1 s2 A1 IH1 A2 IH2|l1 l2 s A IH P]; intros HX HN.
  - destruct (HX i (or_introl eq_refl)) as [X0 E]. cbn [tot fold_right length INR]. rewrite Rplus_0_r. eapply Rle_trans; [exact E|]. lra.
  - rewrite app_length, plus_INR in *. rewrite tot_app.
    assert (N1 : 1 <= INR (length l1)) by (apply (le_INR 1), (added_ne _ _ _ A1)). assert (N2 : 1 <= INR (length l2)) by (apply (le_INR 1), (added_ne _ _ _ A2)).
    specialize (IH1 (fun i Hi => HX i (in_or_app _ _ _ (or_introl Hi))) ltac:(lra)). specialize (IH2 (fun i Hi => HX i (in_or_app _ _ _ (or_intror Hi))) ltac:(lra)).
    assert (T1 : 0 <= tot X l1) by (apply tot_pos; intros; apply HX, in_or_app; left; assumption). assert (T2 : 0 <= tot X l2) by (apply tot_pos; intros; apply HX, in_or_app; right; assumption).
    pose proof (rd_add_err s1 s2 (added_dbl _ _ _ Ha A1) (added_dbl _ _ _ Ha A2)) as E. assert (Hu : u53 = / 2 ^ 53) by (unfold u53; simpl; f_equal; lra). rewrite Hu in E.
    set (m1 := INR (length l1)) in *. set (m2 := INR (length l2)) in *. set (t1 := tot X l1) in *. set (t2 := tot X l2) in *.
    assert (B : Rabs (s1 + s2 - (t1 + t2)) <= (/ 2 ^ 51 + (m1 + m2 - 1) / 2 ^ 52) * (t1 + t2) + (2 * (m1 + m2) - 2) * D).
    { replace (s1 + s2 - (t1 + t2)) with ((s1 - t1) + (s2 - t2)) by ring. eapply Rle_trans; [apply Rabs_triang|].
      assert ((/ 2 ^ 51 + m1 / 2 ^ 52) * t1 <= (/ 2 ^ 51 + (m1 + m2 - 1) / 2 ^ 52) * t1) by (apply Rmult_le_compat_r; lra).
      assert ((/ 2 ^ 51 + m2 / 2 ^ 52) * t2 <= (/ 2 ^ 51 + (m1 + m2 - 1) / 2 ^ 52) * t2) by (apply Rmult_le_compat_r; lra). lra. }
    set (t := t1 + t2) in *. set (m := m1 + m2) in *. assert (Hm : 2 <= m) by (unfold m; lra). assert (Ht : 0 <= t) by (unfold t; lra).
    assert (C1 : (/ 2 ^ 51 + (m - 1) / 2 ^ 52) * t <= / 2 * t) by (apply Rmult_le_compat_r; lra).
    assert (C2 : (2 * m - 2) * D <= 2 ^ 42 * D) by (apply Rmult_le_compat_r; [exact HD|]; replace (2 ^ 42) with (4 * 2 ^ 40) by (simpl; lra); lra).
    assert (G : Rabs (s1 + s2) <= 2 * t + 2 ^ 42 * D).
    { replace (s1 + s2) with (s1 + s2 - t + t) by ring. eapply Rle_trans; [apply Rabs_triang|]. rewrite (Rabs_pos_eq t Ht). lra. }
    replace (rd (s1 + s2) - t) with ((rd (s1 + s2) - (s1 + s2)) + (s1 + s2 - t)) by ring. eapply Rle_trans; [apply Rabs_triang|].
    assert (G2 : / 2 ^ 53 * Rabs (s1 + s2) <= / 2 ^ 53 * (2 * t + 2 ^ 42 * D)) by (apply Rmult_le_compat_l; [lra|exact G]).
    lra.
  - rewrite <- (tot_perm X _ _ P), <- (Permutation_length P). apply IH; [|rewrite (Permutation_length P); exact HN]. intros i Hi. apply HX. apply (Permutation_in _ P Hi).
Qed.

(** ** One row *)
Definition tiny : R := bpow radix2 (-1075).
Lemma u53v : u53 = / 2 ^ 53. Proof. unfold u53. simpl. f_equal. lra. Qed.
Lemma product_err p W w : 0 <= p -> 0 <= W -> Rabs (w - W) <= u53 * W -> Rabs (rd (p * w) - p * W) <= / 2 ^ 51 * (p * W) + tiny.
Proof.
  intros Hp HW Hw. rewrite u53v in Hw. pose proof (rd_err (p * w)) as E. rewrite u53v in E. fold tiny in E. set (X := p * W). assert (HX : 0 <= X) by (apply Rmult_le_pos; assumption).
  assert (B : Rabs (p * w - X) <= / 2 ^ 53 * X).
  { unfold X. replace (p * w - p * W) with (p * (w - W)) by ring. rewrite Rabs_mult, (Rabs_pos_eq p Hp). replace (/ 2 ^ 53 * (p * W)) with (p * (/ 2 ^ 53 * W)) by ring. apply Rmult_le_compat_l; assumption. }
  assert (G : Rabs (p * w) <= 2 * X) by (replace (p * w) with (p * w - X + X) by ring; eapply Rle_trans; [apply Rabs_triang|]; rewrite (Rabs_pos_eq X HX); lra).
  replace (rd (p * w) - X) with ((rd (p * w) - p * w) + (p * w - X)) by ring. eapply Rle_trans; [apply Rabs_triang|]. lra.
Qed.

Lemma rsum_le n f g : (forall i, (i < n)%nat -> f i <= g i) -> rsum n f <= rsum n g.
Proof. induction n; intros H; simpl; [lra|]. pose proof (H n ltac:(lia)). assert (rsum n f <= rsum n g) by (apply IHn; intros; apply H; lia). lra. Qed.
Lemma rsum_lin n f g c d : rsum n (fun i => c * f i + d * g i) = c * rsum n f + d * rsum n g.
Proof. induction n; simpl; [lra|]. rewrite IHn. lra. Qed.
Lemma rsum_sub_abs n f g h : (forall i, (i < n)%nat -> Rabs (f i - g i) <= h i) -> Rabs (rsum n f - rsum n g) <= rsum n h.
Proof.
  induction n; intros H; simpl; [rewrite Rminus_0_r, Rabs_R0; lra|]. replace (rsum n f + f n - (rsum n g + g n)) with ((rsum n f - rsum n g) + (f n - g n)) by ring.
  eapply Rle_trans; [apply Rabs_triang|]. pose proof (H n ltac:(lia)). assert (Rabs (rsum n f - rsum n g) <= rsum n h) by (apply IHn; intros; apply H; lia). lra.
Qed.
Lemma rsum_ext' n f g : (forall i, (i < n)%nat -> f i = g i) -> rsum n f = rsum n g.
Proof. induction n; intros H; simpl; [reflexivity|]. rewrite IHn by (intros; apply H; lia). rewrite (H n) by lia. reflexivity. Qed.

Lemma tiny_le k : (k <= 1075)%nat -> tiny <= / 2 ^ k.
Proof. intros H. unfold tiny. rewrite pow_bpow, <- bpow_opp. apply bpow_le. lia. Qed.
Lemma tiny_mul a b : (a + b <= 1075)%nat -> tiny * 2 ^ a <= / 2 ^ b.
Proof. intros H. unfold tiny. rewrite !pow_bpow, <- bpow_opp, <- bpow_plus. apply bpow_le. lia. Qed.

Section Row.
  Variables (n : nat) (p W w : nat -> R) (s : R).
  Hypothesis Hn : (1 <= n)%nat.
  Hypothesis Hn2 : INR n <= 2 ^ 40.
  Hypothesis Hp : forall i, (i < n)%nat -> 0 <= p i.
  Hypothesis HW : forall i, (i < n)%nat -> 0 <= W i.
  Hypothesis Hw : forall i, (i < n)%nat -> Rabs (w i - W i) <= u53 * W i.
  Hypothesis Htot : rsum n W <= 2 ^ 502.
  Hypothesis Hmass : / 2 ^ 500 <= rsum n (fun i => p i * W i).
  Hypothesis Hs : added (fun i => rd (p i * w i)) (seq 0 n) s.
  Let S := rsum n (fun i => p i * W i).
  Let theta := (INR n + 3) / 2 ^ 52.

  Lemma S_pos : 0 < S. Proof. unfold S. eapply Rlt_le_trans; [|exact Hmass]. apply Rinv_0_lt_compat, pow_lt. lra. Qed.
  Lemma n_pos : 1 <= INR n. Proof. apply (le_INR 1), Hn. Qed.
  Lemma sum_near : Rabs (s - S) <= theta * S.
  Proof.
    assert (T : 0 <= tiny) by apply bpow_ge_0.
    pose proof (added_err _ (fun i => p i * W i) tiny (seq 0 n) s (fun i => rd_dbl _) Hs T) as E. rewrite seq_length, tot_seq in E. fold S in E.
    eapply Rle_trans; [apply E; [|exact Hn2]|].
    - intros i Hi. apply in_seq in Hi. split; [apply Rmult_le_pos; [apply Hp|apply HW]; lia|]. apply product_err; [apply Hp|apply HW|apply Hw]; lia.
    - assert (B : (2 * INR n - 1) * tiny <= / 2 ^ 60 * S).
      { apply Rle_trans with (tiny * 2 ^ 42).
        - rewrite Rmult_comm. apply Rmult_le_compat_l; [exact T|]. replace (2 ^ 42) with (4 * 2 ^ 40) by (simpl; lra). pose proof n_pos. lra.
        - apply Rle_trans with (/ 2 ^ 560); [apply (tiny_mul 42 560); lia|]. apply Rle_trans with (/ 2 ^ 60 * / 2 ^ 500); [|apply Rmult_le_compat_l; [lra|exact Hmass]].
          rewrite <- Rinv_mult. rewrite <- pow_add. apply Rle_refl. }
      unfold theta. pose proof S_pos. lra.
  Qed.
  Lemma theta_small : 0 <= theta <= / 2 ^ 11.
  Proof. unfold theta. pose proof n_pos. split; [lra|]. replace (/ 2 ^ 11) with (2 ^ 41 / 2 ^ 52) by (simpl; lra). replace (2 ^ 41) with (2 ^ 40 + 2 ^ 40) by (simpl; lra). assert (3 <= 2 ^ 40) by (simpl; lra). lra. Qed.
  Lemma row_normal : 0 < s /\ (forall i, (i < n)%nat -> 0 <= rd (p i / s)) /\ Rabs (rsum n (fun i => rd (p i / s) * W i) - 1) <= (INR n + 4) / 2 ^ 51.
  Proof.
    pose proof sum_near as E. pose proof S_pos as HS. pose proof theta_small as Ht. pose proof n_pos as N1. apply Rabs_le_inv in E.
    assert (B : theta * S <= / 2 ^ 11 * S) by (apply Rmult_le_compat_r; lra).
    assert (Ps : 0 < s) by lra. split; [exact Ps|]. split; [intros i Hi; apply rd_pos, Rmult_le_pos; [apply Hp, Hi|apply Rlt_le, Rinv_0_lt_compat, Ps]|].
    set (y := S / s). assert (Ey : S = y * s) by (unfold y; field; lra).
    assert (Y : Rabs (y - 1) <= (INR n + 3) * (1001 / 1000) / 2 ^ 52).
    { assert (Y0 : 0 < y) by (apply Rdiv_lt_0_compat; assumption).
      assert (y <= 1001 / 1000) by (apply Rmult_le_reg_r with s; [exact Ps|]; rewrite <- Ey; lra).
      assert (A : (y - 1) * s = S - s) by (rewrite Ey; ring).
      assert (U : theta * y <= theta * (1001 / 1000)) by (apply Rmult_le_compat_l; lra).
      assert (V : (y - 1) * s <= theta * y * s /\ - (theta * y * s) <= (y - 1) * s) by (rewrite A; replace (theta * y * s) with (theta * S) by (rewrite Ey; ring); lra).
      unfold theta in *. apply Rabs_le. split.
      - apply Rmult_le_reg_r with s; [exact Ps|]. apply Rle_trans with (- ((INR n + 3) / 2 ^ 52 * y * s)); [|lra]. replace (- ((INR n + 3) * (1001 / 1000) / 2 ^ 52) * s) with (- (((INR n + 3) / 2 ^ 52 * (1001 / 1000)) * s)) by (field). apply Ropp_le_contravar, Rmult_le_compat_r; lra.
      - apply Rmult_le_reg_r with s; [exact Ps|]. apply Rle_trans with ((INR n + 3) / 2 ^ 52 * y * s); [lra|]. replace ((INR n + 3) * (1001 / 1000) / 2 ^ 52 * s) with (((INR n + 3) / 2 ^ 52 * (1001 / 1000)) * s) by (field). apply Rmult_le_compat_r; lra. }
    assert (D : Rabs (rsum n (fun i => rd (p i / s) * W i) - rsum n (fun i => / s * (p i * W i) + 0 * 0)) <= rsum n (fun i => (u53 * / s) * (p i * W i) + tiny * W i)).
    { apply rsum_sub_abs. intros i Hi. replace (rd (p i / s) * W i - (/ s * (p i * W i) + 0 * 0)) with ((rd (p i / s) - p i / s) * W i) by (unfold Rdiv; ring).
      rewrite Rabs_mult, (Rabs_pos_eq (W i) (HW i Hi)). pose proof (rd_err (p i / s)) as F. fold tiny in F. rewrite (Rabs_pos_eq (p i / s)) in F by (apply Rmult_le_pos; [apply Hp, Hi|apply Rlt_le, Rinv_0_lt_compat, Ps]).
      replace (u53 * / s * (p i * W i) + tiny * W i) with ((u53 * (p i / s) + tiny) * W i) by (unfold Rdiv; ring). apply Rmult_le_compat_r; [apply HW, Hi|exact F]. }
    rewrite (rsum_lin n (fun i => p i * W i) (fun _ => 0)) in D. rewrite (rsum_lin n (fun i => p i * W i) W) in D. fold S in D.
    replace (/ s * S + 0 * rsum n (fun _ => 0)) with y in D by (unfold y, Rdiv; ring). replace (u53 * / s * S) with (u53 * y) in D by (unfold y, Rdiv; ring). rewrite u53v in D.
    assert (Tw : tiny * rsum n W <= / 2 ^ 60).
    { apply Rle_trans with (tiny * 2 ^ 502); [apply Rmult_le_compat_l; [apply bpow_ge_0|exact Htot]|]. apply (tiny_mul 502 60). lia. }
    apply Rabs_le_inv in D, Y. apply Rabs_le. assert (y <= 2) by (unfold theta in *; lra). lra.
  Qed.
  (** the same for a part [V] of every width *)
  Lemma row_part V : (forall i, (i < n)%nat -> 0 <= V i <= W i) -> Rabs (rsum n (fun i => rd (p i / s) * V i) - rsum n (fun i => p i * V i) / S) <= (INR n + 4) / 2 ^ 51.
  Proof.
    intros HV. pose proof sum_near as E. pose proof S_pos as HS. pose proof theta_small as Ht. pose proof n_pos as N1. apply Rabs_le_inv in E.
    assert (B : theta * S <= / 2 ^ 11 * S) by (apply Rmult_le_compat_r; lra). assert (Ps : 0 < s) by lra.
    set (Q := rsum n (fun i => p i * V i)). assert (Q0 : 0 <= Q <= S).
    { unfold Q, S. split; [rewrite <- tot_seq; apply tot_pos; intros i Hi; apply in_seq in Hi; apply Rmult_le_pos; [apply Hp; lia|apply HV; lia]|].
      clear - Hp HV. induction n; simpl; [lra|]. assert (p n0 * V n0 <= p n0 * W n0) by (apply Rmult_le_compat_l; [apply Hp|apply HV]; lia). assert (rsum n0 (fun i => p i * V i) <= rsum n0 (fun i => p i * W i)) by (apply IHn0; intros; [apply Hp|apply HV]; lia). lra. }
    set (y := Q / s). set (z := Q / S). assert (Ey : Q = y * s) by (unfold y; field; lra). assert (Ez : Q = z * S) by (unfold z; field; lra).
    assert (Z1 : 0 <= z <= 1) by (split; [apply Rmult_le_pos; [lra|apply Rlt_le, Rinv_0_lt_compat, HS]|apply Rmult_le_reg_r with S; [exact HS|]; rewrite <- Ez; lra]).
    assert (Y : Rabs (y - z) <= (INR n + 3) * (1001 / 1000) / 2 ^ 52).
    { assert (A : (y - z) * s = z * (S - s)) by (rewrite Rmult_minus_distr_r, <- Ey, Ez; ring).
      assert (F : Rabs (S - s) <= theta * (1001 / 1000) * s).
      { apply Rle_trans with (theta * S); [rewrite Rabs_minus_sym; apply Rabs_le; lra|]. rewrite Rmult_assoc. apply Rmult_le_compat_l; [lra|]. lra. }
      replace ((INR n + 3) * (1001 / 1000) / 2 ^ 52) with (theta * (1001 / 1000)) by (unfold theta; field). apply Rmult_le_reg_r with s; [exact Ps|]. rewrite <- (Rabs_pos_eq s) at 1 by lra. rewrite <- Rabs_mult, A, Rabs_mult, (Rabs_pos_eq z) by lra.
      apply Rle_trans with (1 * Rabs (S - s)); [apply Rmult_le_compat_r; [apply Rabs_pos|lra]|]. lra. }
    assert (D : Rabs (rsum n (fun i => rd (p i / s) * V i) - rsum n (fun i => / s * (p i * V i) + 0 * 0)) <= rsum n (fun i => (u53 * / s) * (p i * V i) + tiny * V i)).
    { apply rsum_sub_abs. intros i Hi. replace (rd (p i / s) * V i - (/ s * (p i * V i) + 0 * 0)) with ((rd (p i / s) - p i / s) * V i) by (unfold Rdiv; ring).
      rewrite Rabs_mult, (Rabs_pos_eq (V i)) by apply HV, Hi. pose proof (rd_err (p i / s)) as F. fold tiny in F. rewrite (Rabs_pos_eq (p i / s)) in F by (apply Rmult_le_pos; [apply Hp, Hi|apply Rlt_le, Rinv_0_lt_compat, Ps]).
      replace (u53 * / s * (p i * V i) + tiny * V i) with ((u53 * (p i / s) + tiny) * V i) by (unfold Rdiv; ring). apply Rmult_le_compat_r; [apply HV, Hi|exact F]. }
    rewrite (rsum_lin n (fun i => p i * V i) (fun _ => 0)) in D. rewrite (rsum_lin n (fun i => p i * V i) V) in D. fold Q in D.
    replace (/ s * Q + 0 * rsum n (fun _ => 0)) with y in D by (unfold y, Rdiv; ring). replace (u53 * / s * Q) with (u53 * y) in D by (unfold y, Rdiv; ring). rewrite u53v in D.
    assert (VW : rsum n V <= rsum n W).
    { clear - HV. induction n; simpl; [lra|]. pose proof (HV n0 ltac:(lia)). assert (rsum n0 V <= rsum n0 W) by (apply IHn0; intros; apply HV; lia). lra. }
    assert (Tw : tiny * rsum n V <= / 2 ^ 60).
    { apply Rle_trans with (tiny * 2 ^ 502); [apply Rmult_le_compat_l; [apply bpow_ge_0|lra]|]. apply (tiny_mul 502 60). lia. }
    apply Rabs_le_inv in D, Y. apply Rabs_le. assert (y <= 2) by (unfold theta in *; lra). fold z. lra.
  Qed.
End Row.

(** ** The sum as numpy computes it *)
Lemma added_ext a b l s : added a l s -> (forall i, In i l -> a i = b i) -> added b l s.
Proof.
  intros H. induction H as [i|l1 l2 s1 s2 H1 IH1 H2 IH2|l1 l2 s H IH P]; intros E.
  - rewrite E by (left; reflexivity). apply added_one.
  - apply added_two; [apply IH1|apply IH2]; intros i Hi; apply E, in_or_app; auto.
  - apply (added_perm _ l1); [|exact P]. apply IH. intros i Hi. apply E, (Permutation_in _ P), Hi.
Qed.
Lemma tsum64 l s : tsum (N := SFNum) l s -> (forall x, In x l -> moderate 802 x) -> INR (length l) <= 2 ^ 40 ->
  (1 <= length l)%nat /\ fin64 s /\ Rabs (val64 s) <= INR (length l) * (1 + INR (length l) / 2 ^ 50) * bpow radix2 802 /\
  forall (x : nat -> spec_float) idx, l = map x idx -> added (fun i => val64 (x i)) idx (val64 s).
Proof.
  pose proof (bpow_gt_0 radix2 802) as G0. assert (B40 : 2 ^ 40 * (1 + 2 ^ 40 / 2 ^ 50) * bpow radix2 802 <= bpow radix2 900).
  { apply Rle_trans with (2 ^ 41 * bpow radix2 802); [apply Rmult_le_compat_r; [lra|simpl; lra]|]. rewrite pow_bpow, <- bpow_plus. apply bpow_le. lia. }
  set (b := bpow radix2 802) in *.
  intros H. induction H as [a|l s H IH|l1 l2 s1 s2 H1 IH1 H2 IH2|l1 l2 s H IH P]; intros HM HN.
  - destruct (HM a (or_introl eq_refl)) as [F B]. fold b in B. split; [simpl; lia|]. split; [exact F|]. split.
    + cbn [length INR]. eapply Rle_trans; [exact B|]. simpl. lra.
    + intros x [|i [|j idx]] E; try discriminate. injection E as ->. apply (added_one (fun i => val64 (x i))).
  - destruct (IH HM HN) as (L & F & B & A). destruct (add64 (S754_zero false) s fin64_0 F) as [F' V'].
    { change (val64 (S754_zero false)) with 0. rewrite Rplus_0_l, (rd_id _ (dbl64 _ F)). apply (small_le 900); [lia|]. eapply Rle_trans; [exact B|]. eapply Rle_trans; [|exact B40]. apply Rmult_le_compat_r; [lra|]. pose proof (pos_INR (length l)). apply Rmult_le_compat; try lra; unfold Rdiv; nra. }
    change (val64 (S754_zero false)) with 0 in V'. rewrite Rplus_0_l, (rd_id _ (dbl64 _ F)) in V'. change (nadd (Num := SFNum) (n0 (Num := SFNum)) s) with (SFadd 53 1024 (S754_zero false) s).
    split; [exact L|]. split; [exact F'|]. rewrite V'. split; [exact B|exact A].
  - rewrite app_length, plus_INR in *. destruct (IH1 (fun x Hx => HM x (in_or_app _ _ _ (or_introl Hx)))) as (L1 & F1 & B1 & A1); [pose proof (pos_INR (length l2)); lra|].
    destruct (IH2 (fun x Hx => HM x (in_or_app _ _ _ (or_intror Hx)))) as (L2 & F2 & B2 & A2); [pose proof (pos_INR (length l1)); lra|].
    assert (P1 : 1 <= INR (length l1)) by (apply (le_INR 1), L1). assert (P2 : 1 <= INR (length l2)) by (apply (le_INR 1), L2). set (m := INR (length l1)) in *. set (k := INR (length l2)) in *.
    pose proof (rd_add_err _ _ (dbl64 _ F1) (dbl64 _ F2)) as E. pose proof (Rabs_triang (val64 s1) (val64 s2)) as Tr.
    assert (Bs : Rabs (rd (val64 s1 + val64 s2)) <= (m + k) * (1 + (m + k) / 2 ^ 50) * b).
    { set (v := val64 s1 + val64 s2) in *. assert (Rabs (rd v) <= Rabs v + Rabs (rd v - v)) by (replace (rd v) with (v + (rd v - v)) at 1 by ring; apply Rabs_triang).
      assert (V : Rabs v <= (m * (1 + m / 2 ^ 50) + k * (1 + k / 2 ^ 50)) * b) by (rewrite Rmult_plus_distr_r; lra).
      assert (U : u53 * Rabs v <= / 2 ^ 53 * (2 * (m + k)) * b).
      { rewrite u53v, Rmult_assoc. apply Rmult_le_compat_l; [simpl; lra|]. eapply Rle_trans; [exact V|]. apply Rmult_le_compat_r; [lra|].
        assert (m / 2 ^ 50 <= 1) by (simpl in *; lra). assert (k / 2 ^ 50 <= 1) by (simpl in *; lra). nra. }
      apply Rle_trans with ((m * (1 + m / 2 ^ 50) + k * (1 + k / 2 ^ 50)) * b + / 2 ^ 53 * (2 * (m + k)) * b); [lra|]. rewrite <- Rmult_plus_distr_r. apply Rmult_le_compat_r; [lra|].
      assert (0 <= (m - 1) * (k - 1)) by (apply Rmult_le_pos; lra). simpl. unfold Rdiv. nra. }
    destruct (add64 s1 s2 F1 F2) as [F V].
    { apply (small_le 900); [lia|]. eapply Rle_trans; [exact Bs|]. eapply Rle_trans; [|exact B40]. apply Rmult_le_compat_r; [lra|]. apply Rmult_le_compat; try lra; unfold Rdiv; nra. }
    change (nadd (Num := SFNum) s1 s2) with (SFadd 53 1024 s1 s2). split; [lia|]. split; [exact F|]. rewrite V. split; [exact Bs|].
    intros x idx Ex. symmetry in Ex. apply map_eq_app in Ex. destruct Ex as (i1 & i2 & -> & Ea & Eb). apply added_two; [apply A1|apply A2]; auto.
  - rewrite <- (Permutation_length P) in *. destruct (IH (fun x Hx => HM x (Permutation_in _ P Hx)) HN) as (L & F & B & A). split; [exact L|]. split; [exact F|]. split; [exact B|].
    intros x idx Ex. rewrite Ex in P. destruct (Permutation_map_inv _ _ P) as (idx' & E' & P'). apply (added_perm _ idx'); [apply A, E'|symmetry; exact P'].
Qed.

(** A test: ten times 0.1 is 1 in numpy's order and 1 - 2^-53 from left to right. *)
Example numpy_order_test : let tenth := S754_finite false 7205759403792794 (-56) in
  npsum (N := SFNum) (repeat tenth 10) = S754_finite false 4503599627370496 (-52) /\
  fold_left (SFadd 53 1024) (repeat tenth 10) zero64 = S754_finite false 9007199254740991 (-53).
Proof. vm_compute. split; reflexivity. Qed.

(** ** Specification *)
Definition area (edges row : list spec_float) : R :=
  rsum (pred (length edges)) (fun i => val64 (nth i row zero64) * (val64 (nth (S i) edges zero64) - val64 (nth i edges zero64))).
Definition modest (x : spec_float) : Prop := double x /\ Rabs (val64 x) <= 2 ^ 400.
Definition normalisable (edges row : list spec_float) : Prop :=
  length row = pred (length edges) /\ (forall x, In x row -> modest x /\ 0 <= val64 x) /\ / 2 ^ 500 <= area edges row.

Lemma modest_mod x : modest x -> moderate 400 x.
Proof. intros [D B]. split; [apply double_moderate, D|]. change 400%Z with (Z.of_nat 400). rewrite <- pow_bpow. exact B. Qed.
Lemma rsum_tele n f : rsum n (fun i => f (Datatypes.S i) - f i) = f n - f 0%nat.
Proof. induction n; simpl; [lra|]. rewrite IHn. lra. Qed.
Lemma map2_seq {A B C} (f : A -> B -> C) (l : list A) (m : list B) n da db : length l = n -> length m = n -> map2 f l m = map (fun i => f (nth i l da) (nth i m db)) (seq 0 n).
Proof.
  revert m n. induction l as [|a l IH]; intros m n Hl Hm; destruct m as [|b m]; cbn in Hl, Hm; subst n; try discriminate; [reflexivity|].
  cbn [map2 seq map nth]. f_equal. rewrite <- seq_shift, map_map. apply IH; [reflexivity|]. injection Hm as Hm. exact Hm.
Qed.

(** One normalisation of a row of doubles, for rows whose products with the widths and whose quotients cannot overflow. *)
Lemma norm64_core edges row k e : (2 <= length edges)%nat -> INR (length edges) <= 2 ^ 40 -> (forall b, In b edges -> modest b) ->
  (forall i, (S i < length edges)%nat -> val64 (nth i edges zero64) <= val64 (nth (S i) edges zero64)) ->
  let stored := hist_norm_row (N := SFNum) (bin_widths (N := SFNum) edges) row in
  let n := pred (length edges) in let p := fun i => val64 (nth i row zero64) in let W := fun i => val64 (nth (S i) edges zero64) - val64 (nth i edges zero64) in
  let w := fun i => rd (W i) in
  length row = n -> (1 <= k <= 500)%nat -> (-1074 <= e + Z.of_nat k + 1 < 1024)%Z ->
  (forall i, (i < n)%nat -> fin64 (nth i row zero64) /\ 0 <= p i <= bpow radix2 e) ->
  (forall i, (i < n)%nat -> Rabs (p i * w i) <= bpow radix2 801) -> / 2 ^ k <= area edges row ->
  exists s, (1 <= n)%nat /\ INR n <= 2 ^ 40 /\ (forall i, (i < n)%nat -> 0 <= p i) /\ (forall i, (i < n)%nat -> 0 <= W i) /\ (forall i, (i < n)%nat -> Rabs (w i - W i) <= u53 * W i) /\
    rsum n W <= 2 ^ 502 /\ / 2 ^ 500 <= rsum n (fun i => p i * W i) /\ added (fun i => rd (p i * w i)) (seq 0 n) s /\ length stored = length row /\
    forall i, (i < n)%nat -> fin64 (nth i stored zero64) /\ val64 (nth i stored zero64) = rd (p i / s) /\ val64 (nth i stored zero64) <= bpow radix2 (e + Z.of_nat k + 1).
Proof.
  intros Hn HN He Hinc stored n p W w Hl Hk Hke Mp0 Hprod Hmass0.
  assert (Hmass : / 2 ^ 500 <= area edges row) by (eapply Rle_trans; [|exact Hmass0]; apply Rinv_le_contravar; [apply pow_lt; lra|apply Rle_pow; [lra|lia]]).
  assert (Hn1 : (1 <= n)%nat) by (unfold n; lia). assert (HnR : INR n <= 2 ^ 40) by (eapply Rle_trans; [apply le_INR; unfold n; apply Nat.le_pred_l|exact HN]).
  assert (Me : forall i, (i < length edges)%nat -> moderate 400 (nth i edges zero64)) by (intros i Hi; apply modest_mod, He, nth_In, Hi).
  assert (HW : forall i, (i < n)%nat -> 0 <= W i) by (intros i Hi; unfold W; specialize (Hinc i ltac:(unfold n in Hi; lia)); lra).
  assert (Mw : forall i, (i < n)%nat -> moderate 401 (nth i (ndiff (N := SFNum) edges) zero64) /\ val64 (nth i (ndiff (N := SFNum) edges) zero64) = w i).
  { intros i Hi. unfold zero64. rewrite ndiff_nth_64 by (unfold n in Hi; lia). destruct (mod_sub 400 (nth (S i) edges (S754_zero false)) (nth i edges (S754_zero false)) ltac:(lia)) as [A B]; [apply Me; unfold n in Hi; lia|apply Me; unfold n in Hi; lia|]. split; [exact A|exact B]. }
  assert (Hw : forall i, (i < n)%nat -> Rabs (w i - W i) <= u53 * W i).
  { intros i Hi. unfold w. rewrite <- (Rabs_pos_eq (W i)) at 3 by (apply HW, Hi). apply rd_sub_err; apply dbl64, Me; unfold n in Hi; lia. }
  set (prods := map2 (SFmul 53 1024) row (ndiff (N := SFNum) edges)).
  assert (Ep : prods = map (fun i => SFmul 53 1024 (nth i row zero64) (nth i (ndiff (N := SFNum) edges) zero64)) (seq 0 n)) by (apply map2_seq; [exact Hl|apply ndiff_length_64]).
  assert (Mm : forall i, (i < n)%nat -> moderate 801 (SFmul 53 1024 (nth i row zero64) (nth i (ndiff (N := SFNum) edges) zero64)) /\ val64 (SFmul 53 1024 (nth i row zero64) (nth i (ndiff (N := SFNum) edges) zero64)) = rd (p i * w i)).
  { intros i Hi. destruct (Mw i Hi) as [A B]. destruct (Mp0 i Hi) as [C _]. pose proof (rd_le_bpow 801 _ ltac:(lia) (Hprod i Hi)) as G.
    destruct (mul64 (nth i row zero64) (nth i (ndiff (N := SFNum) edges) zero64) C (proj1 A)) as [D E]; [rewrite B; apply (small_le 801); [lia|exact G]|].
    split; [split; [exact D|]|]; rewrite E, B; [exact G|reflexivity]. }
  assert (Hne : prods <> []) by (rewrite Ep; replace n with (Datatypes.S (pred n)) by lia; discriminate).
  destruct (tsum64 prods (npsum (N := SFNum) prods) (npsum_tsum (N := SFNum) prods Hne)) as (_ & Fs & _ & As).
  { intros x Hx. rewrite Ep in Hx. apply in_map_iff in Hx. destruct Hx as (i & <- & Hi). apply in_seq in Hi. apply (mod_le 801); [lia|]. apply Mm. lia. }
  { rewrite Ep, map_length, seq_length. exact HnR. }
  set (s := npsum (N := SFNum) prods) in *.
  assert (Hs : added (fun i => rd (p i * w i)) (seq 0 n) (val64 s)).
  { apply (added_ext _ _ _ _ (As _ _ Ep)). intros i Hi. apply in_seq in Hi. apply Mm. lia. }
  assert (Htot : rsum n W <= 2 ^ 502).
  { unfold W. rewrite (rsum_tele n (fun i => val64 (nth i edges zero64))). pose proof (Me n ltac:(unfold n; lia)) as [_ A]. pose proof (Me 0%nat ltac:(lia)) as [_ B]. apply Rabs_le_inv in A, B.
    apply Rle_trans with (bpow radix2 400 + bpow radix2 400); [lra|]. rewrite bpow_add1, pow_bpow. apply bpow_le. lia. }
  assert (Pp : forall i, (i < n)%nat -> 0 <= p i) by (intros i Hi; apply Mp0, Hi).
  destruct (row_normal n p W w (val64 s) Hn1 HnR Pp HW Hw Htot Hmass Hs) as (Ps & Pq & R).
  pose proof (sum_near n p W w (val64 s) Hn1 HnR Pp HW Hw Hmass Hs) as SN. pose proof (theta_small n Hn1 HnR) as TS.
  assert (S500 : / 2 ^ (k + 1) <= val64 s).
  { change (rsum n (fun i => p i * W i)) with (area edges row) in SN. set (A := area edges row) in *. assert (HA : 0 < A) by (eapply Rlt_le_trans; [|exact Hmass]; apply Rinv_0_lt_compat, pow_lt; lra).
    assert ((INR n + 3) / 2 ^ 52 * A <= / 2 ^ 11 * A) by (apply Rmult_le_compat_r; lra). apply Rabs_le_inv in SN. replace (/ 2 ^ (k + 1)) with (/ 2 ^ k * / 2) by (rewrite <- Rinv_mult; f_equal; rewrite pow_add; simpl; lra). lra. }
  assert (Ed : stored = map (fun x => SFdiv 53 1024 x s) row) by reflexivity.
  assert (Q : forall i, (i < n)%nat -> fin64 (SFdiv 53 1024 (nth i row zero64) s) /\ val64 (SFdiv 53 1024 (nth i row zero64) s) = rd (p i / val64 s) /\ val64 (SFdiv 53 1024 (nth i row zero64) s) <= bpow radix2 (e + Z.of_nat k + 1)).
  { intros i Hi. destruct (Mp0 i Hi) as [F [P B]].
    assert (G : Rabs (rd (p i / val64 s)) <= bpow radix2 (e + Z.of_nat k + 1)).
    { apply rd_le_bpow; [lia|]. replace (e + Z.of_nat k + 1)%Z with (e + Z.of_nat (k + 1))%Z by lia. rewrite bpow_plus. unfold Rdiv. rewrite Rabs_mult. apply Rmult_le_compat; try apply Rabs_pos; [rewrite Rabs_pos_eq; assumption|]. rewrite Rabs_pos_eq by (apply Rlt_le, Rinv_0_lt_compat, Ps).
      rewrite <- pow_bpow. rewrite <- (Rinv_inv (2 ^ (k + 1))). apply Rinv_le_contravar; [apply Rinv_0_lt_compat, pow_lt; lra|exact S500]. }
    destruct (div64 (nth i row zero64) s F Fs) as [D E]; [lra|apply (small_le (e + Z.of_nat k + 1)); [lia|exact G]|]. split; [exact D|]. split; [exact E|]. rewrite E. eapply Rle_trans; [apply Rle_abs|exact G]. }
  exists (val64 s). repeat (split; [first [assumption|rewrite Ed; apply map_length]|]).
  intros i Hi. rewrite Ed. rewrite nth_indep with (d' := SFdiv 53 1024 zero64 s) by (rewrite map_length, Hl; exact Hi). rewrite (map_nth (fun x => SFdiv 53 1024 x s)). apply Q, Hi.
Qed.
(** What one normalisation leaves behind: a row that can be normalised again. *)
Definition renormalisable (edges row : list spec_float) : Prop :=
  length row = pred (length edges) /\ (forall i, (i < pred (length edges))%nat -> fin64 (nth i row zero64) /\ 0 <= val64 (nth i row zero64) <= bpow radix2 901) /\ / 2 <= area edges row <= 2.
Lemma near_one n : INR n <= 2 ^ 40 -> (INR n + 4) / 2 ^ 51 <= / 2 ^ 10.
Proof. intros H. simpl (2 ^ 40) in H. simpl (2 ^ 51). simpl (2 ^ 10). lra. Qed.
Lemma area_term edges row i : (forall j, (j < pred (length edges))%nat -> 0 <= val64 (nth j row zero64)) ->
  (forall j, (S j < length edges)%nat -> val64 (nth j edges zero64) <= val64 (nth (S j) edges zero64)) -> (i < pred (length edges))%nat ->
  val64 (nth i row zero64) * (val64 (nth (S i) edges zero64) - val64 (nth i edges zero64)) <= area edges row.
Proof.
  intros Hp Hinc Hi. unfold area. set (g := fun i => val64 (nth i row zero64) * (val64 (nth (S i) edges zero64) - val64 (nth i edges zero64))). change (g i <= rsum (pred (length edges)) g).
  assert (G : forall j, (j < pred (length edges))%nat -> 0 <= g j) by (intros j Hj; apply Rmult_le_pos; [apply Hp, Hj|specialize (Hinc j ltac:(lia)); lra]).
  revert Hi G. generalize (pred (length edges)). clearbody g. clear. induction n as [|n IH]; intros Hi G; [lia|]. simpl. destruct (Nat.eq_dec i n) as [->|Hne].
  - assert (0 <= rsum n g); [|lra]. clear - G. induction n; simpl; [lra|]. assert (0 <= rsum n g) by (apply IHn; intros; apply G; lia). pose proof (G n ltac:(lia)). lra.
  - specialize (IH ltac:(lia) ltac:(intros; apply G; lia)). pose proof (G n ltac:(lia)). lra.
Qed.
Section Rounds.
  Variables (edges row : list spec_float).
  Hypothesis Hn : (2 <= length edges)%nat.
  Hypothesis HN : INR (length edges) <= 2 ^ 40.
  Hypothesis He : forall b, In b edges -> modest b.
  Hypothesis Hinc : forall i, (S i < length edges)%nat -> val64 (nth i edges zero64) <= val64 (nth (S i) edges zero64).
  Let stored := hist_norm_row (N := SFNum) (bin_widths (N := SFNum) edges) row.
  Let n := pred (length edges). Let p := fun i => val64 (nth i row zero64). Let W := fun i => val64 (nth (S i) edges zero64) - val64 (nth i edges zero64).
  Let w := fun i => rd (W i).
  Definition parts64 : Prop :=
    exists s, (1 <= n)%nat /\ INR n <= 2 ^ 40 /\ (forall i, (i < n)%nat -> 0 <= p i) /\ (forall i, (i < n)%nat -> 0 <= W i) /\ (forall i, (i < n)%nat -> Rabs (w i - W i) <= u53 * W i) /\
      rsum n W <= 2 ^ 502 /\ / 2 ^ 500 <= rsum n (fun i => p i * W i) /\ added (fun i => rd (p i * w i)) (seq 0 n) s /\ length stored = length row /\
      forall i, (i < n)%nat -> fin64 (nth i stored zero64) /\ val64 (nth i stored zero64) = rd (p i / s) /\ val64 (nth i stored zero64) <= bpow radix2 904.
  Lemma W_facts i : (i < n)%nat -> 0 <= W i /\ Rabs (w i - W i) <= u53 * W i /\ Rabs (w i) <= bpow radix2 401.
  Proof.
    intros Hi. assert (Me : forall i, (i < length edges)%nat -> moderate 400 (nth i edges zero64)) by (intros j Hj; apply modest_mod, He, nth_In, Hj).
    assert (H0 : 0 <= W i) by (unfold W; specialize (Hinc i ltac:(unfold n in Hi; lia)); lra). split; [exact H0|]. split.
    - unfold w. rewrite <- (Rabs_pos_eq (W i)) at 3 by exact H0. apply rd_sub_err; apply dbl64, Me; unfold n in Hi; lia.
    - apply rd_le_bpow; [lia|]. unfold W. destruct (Me i ltac:(unfold n in Hi; lia)) as [_ A]. destruct (Me (S i) ltac:(unfold n in Hi; lia)) as [_ B]. change 401%Z with (400 + 1)%Z. rewrite <- bpow_add1.
      apply Rabs_le. apply Rabs_le_inv in A, B. lra.
  Qed.
  Lemma norm64_parts_first : normalisable edges row -> parts64 /\ (forall i, (i < n)%nat -> val64 (nth i stored zero64) <= bpow radix2 901).
  Proof.
    intros (Hl & Hr & Hmass). assert (Mp : forall i, (i < n)%nat -> moderate 400 (nth i row zero64) /\ 0 <= p i) by (intros i Hi; destruct (Hr (nth i row zero64) ltac:(apply nth_In; rewrite Hl; exact Hi)) as [A B]; split; [apply modest_mod, A|exact B]).
    destruct (norm64_core edges row 500 400 Hn HN He Hinc Hl ltac:(lia) ltac:(lia)) as (s & A1 & A2 & A3 & A4 & A5 & A6 & A7 & A8 & A9 & A10); try exact Hmass.
    - intros i Hi. destruct (Mp i Hi) as [[F B] P]. fold (p i) in *. split; [exact F|]. split; [exact P|]. rewrite <- (Rabs_pos_eq (p i)) by exact P. exact B.
    - intros i Hi. destruct (Mp i Hi) as [[F B] P]. destruct (W_facts i Hi) as (_ & _ & G). change 801%Z with (400 + 401)%Z. rewrite bpow_plus, Rabs_mult. apply Rmult_le_compat; try apply Rabs_pos; assumption.
    - split; [|intros i Hi; apply (A10 i Hi)]. exists s. repeat (split; [assumption|]). intros i Hi. destruct (A10 i Hi) as (F & V & B). split; [exact F|]. split; [exact V|]. eapply Rle_trans; [exact B|]. apply bpow_le. lia.
  Qed.
  Lemma norm64_parts_again : renormalisable edges row -> parts64.
  Proof.
    intros (Hl & Hr & Hlo & Hhi).
    destruct (norm64_core edges row 1 902 Hn HN He Hinc Hl ltac:(lia) ltac:(lia)) as (s & A1 & A2 & A3 & A4 & A5 & A6 & A7 & A8 & A9 & A10).
    - intros i Hi. destruct (Hr i Hi) as (F & P & B). split; [exact F|]. split; [exact P|]. eapply Rle_trans; [exact B|]. apply bpow_le. lia.
    - intros i Hi. destruct (Hr i Hi) as (F & P & B). destruct (W_facts i Hi) as (W0 & E & _). pose proof (area_term edges row i (fun j Hj => proj1 (proj2 (Hr j Hj))) Hinc Hi) as T. fold (p i) (W i) in *. rewrite u53v in E. apply Rabs_le_inv in E.
      change (rd _) with (w i). assert (w0 : 0 <= w i <= 2 * W i) by lra. rewrite Rabs_pos_eq by (apply Rmult_le_pos; lra). apply Rle_trans with (p i * (2 * W i)); [apply Rmult_le_compat_l; lra|]. apply Rle_trans with 4; [lra|]. apply Rle_trans with (bpow radix2 2); [simpl; lra|]. apply bpow_le. lia.
    - simpl. lra.
    - exists s. repeat (split; [assumption|]). intros i Hi. destruct (A10 i Hi) as (F & V & B). split; [exact F|]. split; [exact V|]. exact B.
  Qed.
  Lemma parts_normal : parts64 -> length row = n ->
    length stored = length row /\ (forall x, In x stored -> fin64 x /\ 0 <= val64 x) /\ Rabs (area edges stored - 1) <= (INR (length row) + 4) / 2 ^ 51.
  Proof.
    intros (s & Hn1 & HnR & Hp & HW & Hw & Htot & Hmass & Hs & L & Q) Hl. destruct (row_normal n _ _ _ s Hn1 HnR Hp HW Hw Htot Hmass Hs) as (Ps & Pq & R).
    split; [exact L|]. split.
    - intros x Hx. apply In_nth with (d := zero64) in Hx. destruct Hx as (i & Hi & <-). rewrite L, Hl in Hi. destruct (Q i Hi) as (A & B & _). split; [exact A|]. rewrite B. apply Pq, Hi.
    - rewrite Hl. unfold area. fold n. rewrite (rsum_ext' n _ (fun i => rd (p i / s) * W i)); [exact R|]. intros i Hi. f_equal. apply Q, Hi.
  Qed.
  Lemma first_again : normalisable edges row -> renormalisable edges stored.
  Proof.
    intros Hnorm. destruct (norm64_parts_first Hnorm) as [P B]. pose proof (proj1 Hnorm) as Hl. destruct (parts_normal P Hl) as (L & F & A). split; [rewrite L; exact Hl|]. split.
    - intros i Hi. destruct (F (nth i stored zero64)) as [F1 F2]; [apply nth_In; rewrite L, Hl; exact Hi|]. split; [exact F1|]. split; [exact F2|]. apply B, Hi.
    - destruct P as (_ & _ & HnR & _). rewrite Hl in A. pose proof (near_one n HnR) as G. apply Rabs_le_inv in A. simpl (2 ^ 10) in G. fold n in A. lra.
  Qed.
End Rounds.
Lemma norm64_given edges row chk : (2 <= length edges)%nat -> INR (length edges) <= 2 ^ 40 -> (forall b, In b edges -> modest b) ->
  (forall i, (S i < length edges)%nat -> val64 (nth i edges zero64) <= val64 (nth (S i) edges zero64)) -> normalisable edges row -> parts64 edges (given64 edges chk row).
Proof. intros Hn HN He Hinc Hr. destruct chk; [apply norm64_parts_again; try assumption; apply first_again; assumption|apply norm64_parts_first; assumption]. Qed.
Lemma norm64 edges row chk : (2 <= length edges)%nat -> INR (length edges) <= 2 ^ 40 -> (forall b, In b edges -> modest b) ->
  (forall i, (S i < length edges)%nat -> val64 (nth i edges zero64) <= val64 (nth (S i) edges zero64)) -> normalisable edges row ->
  let stored := hist_norm_row (N := SFNum) (bin_widths (N := SFNum) edges) (given64 edges chk row) in
  length stored = length row /\ (forall x, In x stored -> fin64 x /\ 0 <= val64 x) /\ Rabs (area edges stored - 1) <= (INR (length row) + 4) / 2 ^ 51.
Proof.
  intros Hn HN He Hinc Hr stored. destruct (parts_normal edges (given64 edges chk row) (norm64_given edges row chk Hn HN He Hinc Hr)) as (L & F & A); [rewrite given64_length; apply Hr|].
  rewrite given64_length in *. auto.
Qed.

Lemma c132_normal : forall edges rows chk, (2 <= length edges)%nat -> INR (length edges) <= 2 ^ 40 -> (forall b, In b edges -> modest b) ->
  (forall i, (S i < length edges)%nat -> val64 (nth i edges zero64) <= val64 (nth (S i) edges zero64)) -> (forall row, In row rows -> normalisable edges row) ->
  exists h, hist_ctor (N := SFNum) edges (nd2 (pred (length edges)) rows) chk = Ok h /\ h_bins h = edges /\ length (h_pdfs h) = length rows /\
    forall row, In row (h_pdfs h) -> length row = pred (length edges) /\ (forall x, In x row -> fin64 x /\ 0 <= val64 x) /\
      Rabs (area edges row - 1) <= INR (length edges + 3) / 2 ^ 51.
Proof.
  intros edges rows chk Hn HN He Hinc Hr. rewrite hist_build_64 by (intros row H; apply (Hr row H)). eexists. split; [reflexivity|]. cbn [h_bins h_pdfs]. split; [reflexivity|]. split; [apply map_length|].
  intros row H. apply in_map_iff in H. destruct H as (r0 & <- & H). destruct (norm64 edges r0 chk Hn HN He Hinc (Hr r0 H)) as (A & B & C). pose proof (proj1 (Hr r0 H)) as L.
  split; [rewrite A; exact L|]. split; [exact B|]. rewrite L in C. replace (INR (length edges + 3)) with (INR (pred (length edges)) + 4); [exact C|].
  replace (length edges + 3)%nat with (pred (length edges) + 4)%nat by lia. rewrite plus_INR. simpl. lra.
Qed.
(** the same for any order in which the products may be added *)
Lemma c132_any_order n p W w s : (1 <= n)%nat -> INR n <= 2 ^ 40 -> (forall i, (i < n)%nat -> 0 <= p i) -> (forall i, (i < n)%nat -> 0 <= W i) ->
  (forall i, (i < n)%nat -> Rabs (w i - W i) <= u53 * W i) -> rsum n W <= 2 ^ 502 -> / 2 ^ 500 <= rsum n (fun i => p i * W i) -> added (fun i => rd (p i * w i)) (seq 0 n) s ->
  0 < s /\ (forall i, (i < n)%nat -> 0 <= rd (p i / s)) /\ Rabs (rsum n (fun i => rd (p i / s) * W i) - 1) <= (INR n + 4) / 2 ^ 51.
Proof. apply row_normal. Qed.

Lemma modest_f64 m e : bounded 53 1024 m e = true -> IZR (Z.pos m) * bpow radix2 e <= 2 -> modest (f64 m e) /\ 0 <= val64 (f64 m e).
Proof.
  intros B H. assert (P : forall k, (1 <= k)%nat -> 2 <= 2 ^ k) by (intros k Hk; replace k with (1 + (k - 1))%nat by lia; rewrite pow_add; pose proof (pow_R1_Rle 2 (k - 1) ltac:(lra)); simpl (2 ^ 1); lra).
  pose proof (P 1000%nat ltac:(lia)). pose proof (P 400%nat ltac:(lia)).
  assert (G : 0 <= val64 (f64 m e)) by (rewrite val_f64; apply Rmult_le_pos; [apply IZR_le; lia|apply bpow_ge_0]).
  split; [|exact G]. split; [split; [exact B|]|]; rewrite Rabs_pos_eq by exact G; rewrite val_f64; lra.
Qed.
Example c132_example : let edges := [f64 4503599627370496 (-52); f64 6755399441055744 (-52); f64 4503599627370496 (-51)] in let row := [f64 7205759403792794 (-56); f64 4503599627370496 (-52)] in
  (forall b, In b edges -> modest b) /\ (forall i, (S i < length edges)%nat -> val64 (nth i edges zero64) <= val64 (nth (S i) edges zero64)) /\ normalisable edges row.
Proof.
  cbv zeta. split; [|split].
  - intros b H. cbn [In] in H. destruct H as [<-|[<-|[<-|[]]]]; apply modest_f64; try reflexivity; simpl; lra.
  - intros i Hi. cbn in Hi. destruct i as [|[|i]]; [| |lia]; cbn [nth]; rewrite !val_f64; simpl bpow; lra.
  - split; [reflexivity|]. split.
    + intros x H. cbn [In] in H. destruct H as [<-|[<-|[]]]; apply modest_f64; try reflexivity; simpl; lra.
    + unfold area. cbn [length pred rsum nth]. rewrite !val_f64. simpl bpow. apply Rle_trans with (/ 2 ^ 2); [|lra]. apply Rinv_le_contravar; [simpl; lra|]. apply Rle_pow; [lra|lia].
Qed.
