(** Quantiles of histograms (hist_pdf.py 119-130) in double precision: the real-number part. *)
From Coq Require Import List Arith ZArith Bool Lia Reals Lra Psatz Floats.SpecFloat.
From Flocq Require Import Core.
From Verif Require Import Num NumProofs Float FloatProofs FloatHist FloatMachine FloatTheorems FloatNorm FloatCdf.
Import ListNotations.
Local Open Scope R_scope.

(** Two different doubles above 2^k are at least 2^(k-53) apart. *)
Lemma dbl_grid k y : dbl y -> (-1000 <= k)%Z -> bpow radix2 k <= y -> exists m : Z, y = IZR m * bpow radix2 (k - 53).
Proof.
  intros D Hk H. assert (Py : 0 < y) by (eapply Rlt_le_trans; [apply bpow_gt_0|exact H]).
  unfold dbl, generic_format in D. set (m := Ztrunc (scaled_mantissa radix2 dexp y)) in *. set (c := cexp radix2 dexp y) in *.
  assert (Hc : (k - 53 <= c)%Z).
  { unfold c, cexp. assert (M : (k + 1 <= mag radix2 y)%Z) by (apply mag_ge_bpow; replace (k + 1 - 1)%Z with k by ring; rewrite Rabs_pos_eq by lra; exact H).
    assert (mag radix2 y - 53 <= dexp (mag radix2 y))%Z by (unfold dexp, FLT.FLT_exp, SpecFloat.fexp, SpecFloat.emin; lia). lia. }
  exists (m * radix2 ^ (c - (k - 53)))%Z. rewrite D at 1. unfold F2R. cbn [Fnum Fexp]. rewrite mult_IZR, IZR_Zpower by lia. rewrite Rmult_assoc, <- bpow_plus. f_equal. f_equal. lia.
Qed.
Lemma dbl_apart k y z : dbl y -> dbl z -> (-1000 <= k)%Z -> bpow radix2 k <= y -> y < z -> bpow radix2 (k - 53) <= z - y.
Proof.
  intros Dy Dz Hk H L. destruct (dbl_grid k y Dy Hk H) as [m ->]. destruct (dbl_grid k z Dz Hk ltac:(lra)) as [m' ->].
  pose proof (bpow_gt_0 radix2 (k - 53)) as P. assert (m < m')%Z by (apply lt_IZR, Rmult_lt_reg_r with (bpow radix2 (k - 53)); assumption).
  assert (1 <= IZR m' - IZR m) by (rewrite <- minus_IZR; apply IZR_le; lia). replace (bpow radix2 (k - 53)) with (1 * bpow radix2 (k - 53)) at 1 by ring.
  rewrite <- Rmult_minus_distr_r. apply Rmult_le_compat_r; lra.
Qed.

Section Segment.
  Variables y0 y1 e0 e1 : R.
  Hypothesis Dy0 : dbl y0.
  Hypothesis Dy1 : dbl y1.
  Hypothesis De0 : dbl e0.
  Hypothesis De1 : dbl e1.
  Hypothesis Hy : / 2 ^ 610 <= y1 - y0 <= 3.
  Hypothesis He : / 2 ^ 1000 <= e1 - e0 <= 2 ^ 401.
  Let W := y1 - y0.
  Let w := rd W.
  Let A := e1 - e0.
  Let d := rd A.
  Let s := rd (d / w).
  Lemma pW_pos : 0 < W. Proof. eapply Rlt_le_trans; [|apply Hy]. apply Rinv_0_lt_compat, pow_lt; lra. Qed.
  Lemma pA_pos : 0 < A. Proof. eapply Rlt_le_trans; [|apply He]. apply Rinv_0_lt_compat, pow_lt; lra. Qed.
  Lemma pw_low : / 2 ^ 610 <= w.
  Proof. rewrite pow_bpow, <- bpow_opp. unfold w. rewrite <- (rd_id (bpow radix2 _)) by (apply dbl_bpow; simpl; lia). apply rd_mono. rewrite bpow_opp, <- pow_bpow. apply Hy. Qed.
  Lemma pw_pos : 0 < w. Proof. eapply Rlt_le_trans; [|apply pw_low]. apply Rinv_0_lt_compat, pow_lt; lra. Qed.
  Lemma pw_near : Rabs (w - W) <= / 2 ^ 53 * W.
  Proof. pose proof (rd_sub_err y1 y0 Dy1 Dy0) as E. rewrite u53v in E. fold W w in E. rewrite (Rabs_pos_eq W) in E by (apply Rlt_le, pW_pos). exact E. Qed.
  Lemma pd_near : Rabs (d - A) <= / 2 ^ 53 * A.
  Proof. pose proof (rd_sub_err e1 e0 De1 De0) as E. rewrite u53v in E. fold A d in E. rewrite (Rabs_pos_eq A) in E by (apply Rlt_le, pA_pos). exact E. Qed.
  Lemma pd_pos : 0 <= d <= 2 ^ 401.
  Proof.
    split; [apply rd_pos, Rlt_le, pA_pos|]. unfold d. rewrite pow_bpow, <- (rd_id (bpow radix2 _)) by (apply dbl_bpow; simpl; lia). apply rd_mono. rewrite <- pow_bpow. apply He.
  Qed.
  Lemma pq_pos : 0 <= d / w. Proof. apply Rmult_le_pos; [apply pd_pos|]. apply Rlt_le, Rinv_0_lt_compat, pw_pos. Qed.
  Lemma pq_high : d / w <= bpow radix2 1011.
  Proof.
    change 1011%Z with (Z.of_nat 401 + Z.of_nat 610)%Z. rewrite bpow_plus, <- !pow_bpow. unfold Rdiv. apply Rmult_le_compat; [apply pd_pos|apply Rlt_le, Rinv_0_lt_compat, pw_pos|apply pd_pos|].
    rewrite <- (Rinv_inv (2 ^ 610)). apply Rinv_le_contravar; [apply Rinv_0_lt_compat, pow_lt; lra|apply pw_low].
  Qed.
  Lemma ps_pos : 0 <= s. Proof. apply rd_pos, pq_pos. Qed.
  Lemma ps_near : Rabs (s - d / w) <= / 2 ^ 53 * (d / w) + tiny.
  Proof. pose proof (rd_err (d / w)) as E. rewrite u53v in E. rewrite (Rabs_pos_eq (d / w)) in E by apply pq_pos. exact E. Qed.
  Lemma pseg_mono x x' : x <= x' -> seg y0 y1 e0 e1 x <= seg y0 y1 e0 e1 x'.
  Proof. intros H. unfold seg. apply rd_mono, Rplus_le_compat_r, rd_mono, Rmult_le_compat_l; [apply ps_pos|]. apply rd_mono. lra. Qed.

  Variable x : R.
  Hypothesis Dx : dbl x.
  Hypothesis Hx : y0 <= x <= y1.
  Let U := x - y0.
  Let v := rd U.
  Let t := rd (s * v).
  Let B := A * (U / W).
  Lemma pU_pos : 0 <= U <= W. Proof. unfold U, W. lra. Qed.
  Lemma pv_pos : 0 <= v <= 4.
  Proof. split; [apply rd_pos, pU_pos|]. unfold v. rewrite <- (rd_id 4) by (apply (dbl_IZR 4); lia). apply rd_mono. pose proof pU_pos. unfold W in *. lra. Qed.
  Lemma pv_near : Rabs (v - U) <= / 2 ^ 53 * U.
  Proof. pose proof (rd_sub_err x y0 Dx Dy0) as E. rewrite u53v in E. fold U v in E. rewrite (Rabs_pos_eq U) in E by apply pU_pos. exact E. Qed.
  Lemma plam : 0 <= U / W <= 1.
  Proof.
    pose proof pW_pos. pose proof pU_pos. split; [apply Rmult_le_pos; [lra|apply Rlt_le, Rinv_0_lt_compat; lra]|].
    apply Rmult_le_reg_r with W; [lra|]. unfold Rdiv. rewrite Rmult_assoc, Rinv_l by lra. lra.
  Qed.
  Lemma pB_pos : 0 <= B <= A.
  Proof. pose proof plam. pose proof pA_pos. unfold B. split; [apply Rmult_le_pos; lra|]. replace A with (A * 1) at 2 by lra. apply Rmult_le_compat_l; lra. Qed.
  Lemma pprod_near : Rabs (d / w * v - B) <= / 2 ^ 51 * B.
  Proof.
    pose proof pW_pos as HW. pose proof pw_pos as Hw0. pose proof pw_near as Ew. pose proof pd_near as Ed. pose proof pv_near as Ev. pose proof pU_pos as HU. pose proof pA_pos as HA.
    apply Rabs_le_inv in Ew, Ed, Ev. set (u := / 2 ^ 53) in *. assert (Hu : 0 < u) by (unfold u; apply Rinv_0_lt_compat, pow_lt; lra). assert (Hu2 : u <= / 2 ^ 50) by (unfold u; apply Rinv_le_contravar; [apply pow_lt; lra|apply Rle_pow; [lra|lia]]).
    assert (HB : B * W = A * U) by (unfold B; field; lra). assert (P : (d / w * v) * w = d * v) by (field; lra).
    pose proof pB_pos as [B0 _]. assert (AU : 0 <= A * U) by (apply Rmult_le_pos; lra). assert (dv : (1 - u) * (1 - u) * (A * U) <= d * v <= (1 + u) * (1 + u) * (A * U)).
    { pose proof pd_pos. pose proof pv_pos. assert (u1 : u < 1) by (simpl in Hu2; lra). split.
      - replace ((1 - u) * (1 - u) * (A * U)) with (((1 - u) * A) * ((1 - u) * U)) by ring. apply Rmult_le_compat; try lra; apply Rmult_le_pos; lra.
      - replace ((1 + u) * (1 + u) * (A * U)) with (((1 + u) * A) * ((1 + u) * U)) by ring. apply Rmult_le_compat; lra. }
    assert (E4 : / 2 ^ 51 = 4 * u) by (unfold u; replace 53%nat with (51 + 2)%nat by lia; rewrite pow_add; field; apply pow_nonzero; lra). rewrite E4.
    assert (wl : (1 - u) * W <= w <= (1 + u) * W) by lra. simpl in Hu2.
    apply Rabs_le. split; apply Rmult_le_reg_r with w; try exact Hw0; rewrite ?Rmult_minus_distr_r, P.
    - assert (B * w <= B * ((1 + u) * W)) by (apply Rmult_le_compat_l; lra). assert (B * ((1 - u) * W) <= B * w) by (apply Rmult_le_compat_l; lra).
      replace (B * ((1 + u) * W)) with ((1 + u) * (A * U)) in * by (rewrite <- HB; ring). replace (B * ((1 - u) * W)) with ((1 - u) * (A * U)) in * by (rewrite <- HB; ring).
      apply Rle_trans with (- (4 * u) * ((1 - u) * (A * U))). { replace (- (4 * u * B) * w) with (- (4 * u) * (B * w)) by ring. apply Rmult_le_compat_neg_l; lra. }
      assert (0 <= (1 - u) * (1 - u) - (1 + u) + 4 * u * (1 - u)) by nra. assert (0 <= ((1 - u) * (1 - u) - (1 + u) + 4 * u * (1 - u)) * (A * U)) by (apply Rmult_le_pos; lra). lra.
    - assert (B * ((1 - u) * W) <= B * w) by (apply Rmult_le_compat_l; lra).
      replace (B * ((1 - u) * W)) with ((1 - u) * (A * U)) in * by (rewrite <- HB; ring).
      apply Rle_trans with (4 * u * ((1 - u) * (A * U)) + ((1 + u) * (1 + u) * (A * U) - (1 - u) * (A * U) - 4 * u * ((1 - u) * (A * U)))); [lra|].
      replace (4 * u * B * w) with (4 * u * (B * w)) by ring. assert (4 * u * ((1 - u) * (A * U)) <= 4 * u * (B * w)) by (apply Rmult_le_compat_l; lra).
      assert ((1 + u) * (1 + u) - (1 - u) - 4 * u * (1 - u) <= 0) by nra. assert (((1 + u) * (1 + u) - (1 - u) - 4 * u * (1 - u)) * (A * U) <= 0 * (A * U)) by (apply Rmult_le_compat_r; lra). lra.
  Qed.
  Lemma psv_near : Rabs (s * v - B) <= 11 / 2 / 2 ^ 53 * B + 4 * tiny.
  Proof.
    pose proof pprod_near as P. pose proof ps_near as E. pose proof pv_pos as V. pose proof pq_pos as Q. pose proof pB_pos as B0. pose proof tiny_pos as T.
    replace (s * v - B) with ((s - d / w) * v + (d / w * v - B)) by ring. eapply Rle_trans; [apply Rabs_triang|]. rewrite Rabs_mult, (Rabs_pos_eq v) by lra.
    assert (F : Rabs (s - d / w) * v <= (/ 2 ^ 53 * (d / w) + tiny) * v) by (apply Rmult_le_compat_r; lra).
    assert (G : tiny * v <= tiny * 4) by (apply Rmult_le_compat_l; lra).
    assert (K : d / w * v <= (1 + / 2 ^ 51) * B) by (apply Rabs_le_inv in P; lra).
    assert (L : / 2 ^ 53 * (d / w * v) <= / 2 ^ 53 * ((1 + / 2 ^ 51) * B)) by (apply Rmult_le_compat_l; [apply Rlt_le, Rinv_0_lt_compat, pow_lt; lra|exact K]).
    simpl (2 ^ 51) in *. simpl (2 ^ 53) in *. lra.
  Qed.
  Lemma tiny_A : tiny <= / 2 ^ 70 * A.
  Proof.
    apply Rle_trans with (/ 2 ^ 70 * / 2 ^ 1000); [|apply Rmult_le_compat_l; [apply Rlt_le, Rinv_0_lt_compat, pow_lt; lra|apply He]].
    rewrite <- Rinv_mult, <- pow_add. apply tiny_le. lia.
  Qed.
  Lemma psv_pos : 0 <= s * v. Proof. apply Rmult_le_pos; [apply ps_pos|apply pv_pos]. Qed.
  Lemma psv_high : s * v <= 2 * A.
  Proof. pose proof psv_near as E. pose proof pB_pos. pose proof tiny_A. pose proof pA_pos. apply Rabs_le_inv in E. simpl (2 ^ 53) in E. simpl (2 ^ 70) in *. lra. Qed.
  Lemma pt_near : Rabs (t - B) <= 7 / 2 ^ 53 * A.
  Proof.
    pose proof psv_near as E. pose proof pB_pos. pose proof tiny_A. pose proof pA_pos. pose proof psv_pos as P. pose proof (rd_err (s * v)) as Et. rewrite u53v in Et. fold tiny t in Et. rewrite (Rabs_pos_eq (s * v)) in Et by exact P.
    apply Rabs_le_inv in E, Et. apply Rabs_le. simpl (2 ^ 53) in *. simpl (2 ^ 70) in *. lra.
  Qed.
  Lemma pt_pos : 0 <= t. Proof. apply rd_pos, psv_pos. Qed.
  Lemma pt_high : t <= 2 ^ 402.
  Proof.
    unfold t. rewrite pow_bpow, <- (rd_id (bpow radix2 _)) by (apply dbl_bpow; simpl; lia). apply rd_mono. rewrite <- pow_bpow. pose proof psv_high. change (2 ^ 402) with (2 * 2 ^ 401). destruct He as [_ H1]. fold A in H1. lra.
  Qed.
  (** The error is at most 2^-49 of the larger of the two edges. *)
  Lemma pseg_err M : Rabs e0 <= M -> Rabs e1 <= M -> Rabs (seg y0 y1 e0 e1 x - (e0 + (e1 - e0) * ((x - y0) / (y1 - y0)))) <= / 2 ^ 49 * M.
  Proof.
    intros M0 M1. change (e0 + (e1 - e0) * ((x - y0) / (y1 - y0))) with (e0 + B). unfold seg. fold W w A d s U v t.
    pose proof pt_near as E. pose proof pB_pos as B0. pose proof (rd_add_err t e0 (rd_dbl _) De0) as Er. rewrite u53v in Er.
    apply Rabs_le_inv in M0, M1. assert (HA : A = e1 - e0) by reflexivity. assert (A2 : A <= 2 * M) by lra.
    assert (Z : Rabs (t + e0) <= 2 * M). { apply Rabs_le_inv in E. apply Rabs_le. simpl (2 ^ 53) in E. lra. }
    replace (rd (t + e0) - (e0 + B)) with ((rd (t + e0) - (t + e0)) + (t - B)) by ring. eapply Rle_trans; [apply Rabs_triang|].
    simpl (2 ^ 53) in *. simpl (2 ^ 49). lra.
  Qed.
  Lemma pseg_low : e0 <= seg y0 y1 e0 e1 x.
  Proof. unfold seg. fold W w A d s U v t. rewrite <- (rd_id e0) at 1 by exact De0. apply rd_mono. pose proof pt_pos. lra. Qed.
End Segment.
