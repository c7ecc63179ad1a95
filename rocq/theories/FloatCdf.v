(** The cumulative distribution of histograms (hist_pdf.py 90-95, 111-117) in double precision: the real-number part. *)
From Coq Require Import List Arith ZArith Bool Sorted Permutation Lia Reals Lra Psatz Floats.SpecFloat.
From Flocq Require Import Core.Zaux Core.Raux.
From Verif Require Import Num NumProofs Py NdArray NumpyLib Utils ScipyWrap HistPdf Spec InterpProofs BinProofs Float FloatProofs FloatHist FloatMachine FloatTheorems FloatExamples FloatNorm.
Import ListNotations.
Local Open Scope R_scope.

(** ** One segment of a linear interpolation *)
Definition seg (x0 x1 y0 y1 x : R) : R := rd (rd (rd (rd (y1 - y0) / rd (x1 - x0)) * rd (x - x0)) + y0).
Lemma tiny_pos : 0 < tiny. Proof. apply bpow_gt_0. Qed.
Lemma tiny_402 : tiny * 2 ^ 402 <= / 2 ^ 600.
Proof. unfold tiny. rewrite !pow_bpow, <- bpow_plus, <- bpow_opp. apply bpow_le. simpl. lia. Qed.
Lemma tiny_600 : tiny <= / 2 ^ 600.
Proof. unfold tiny. rewrite pow_bpow, <- bpow_opp. apply bpow_le. simpl. lia. Qed.
Lemma p600 : 0 < / 2 ^ 600 <= / 2 ^ 100.
Proof. split; [apply Rinv_0_lt_compat, pow_lt; lra|]. apply Rinv_le_contravar; [apply pow_lt; lra|]. apply Rle_pow; [lra|lia]. Qed.

Section Segment.
  Variables x0 x1 y0 y1 : R.
  Hypothesis Dx0 : dbl x0.
  Hypothesis Dx1 : dbl x1.
  Hypothesis Dy0 : dbl y0.
  Hypothesis Dy1 : dbl y1.
  Hypothesis Hw : / 2 ^ 1000 <= x1 - x0 <= 2 ^ 401.
  Hypothesis Hy : 0 <= y0 <= y1.
  Hypothesis Hy1 : y1 <= 3.
  Let W := x1 - x0.
  Let w := rd W.
  Let A := y1 - y0.
  Let d := rd A.
  Let s := rd (d / w).

  Lemma W_pos : 0 < W. Proof. eapply Rlt_le_trans; [|apply Hw]. apply Rinv_0_lt_compat, pow_lt; lra. Qed.
  Lemma w_low : / 2 ^ 1000 <= w.
  Proof. rewrite pow_bpow, <- bpow_opp. unfold w. rewrite <- (rd_id (bpow radix2 _)) by (apply dbl_bpow; simpl; lia). apply rd_mono. rewrite bpow_opp, <- pow_bpow. apply Hw. Qed.
  Lemma w_pos : 0 < w. Proof. eapply Rlt_le_trans; [|apply w_low]. apply Rinv_0_lt_compat, pow_lt; lra. Qed.
  Lemma w_high : w <= 2 ^ 401.
  Proof. unfold w. rewrite pow_bpow, <- (rd_id (bpow radix2 _)) by (apply dbl_bpow; simpl; lia). apply rd_mono. rewrite <- pow_bpow. apply Hw. Qed.
  Lemma w_near : Rabs (w - W) <= / 2 ^ 53 * W.
  Proof. pose proof (rd_sub_err x1 x0 Dx1 Dx0) as E. rewrite u53v in E. fold W w in E. rewrite (Rabs_pos_eq W) in E by (apply Rlt_le, W_pos). exact E. Qed.
  Lemma A_pos : 0 <= A <= 3. Proof. unfold A. lra. Qed.
  Lemma d_near : Rabs (d - A) <= / 2 ^ 53 * A.
  Proof. pose proof (rd_sub_err y1 y0 Dy1 Dy0) as E. rewrite u53v in E. fold A d in E. rewrite (Rabs_pos_eq A) in E by apply A_pos. exact E. Qed.
  Lemma d_pos : 0 <= d <= 4. Proof. pose proof d_near as E. pose proof A_pos. apply Rabs_le_inv in E. split; [apply rd_pos, A_pos|]. simpl in E. lra. Qed.
  Lemma s_pos : 0 <= s. Proof. apply rd_pos. apply Rmult_le_pos; [apply d_pos|]. apply Rlt_le, Rinv_0_lt_compat, w_pos. Qed.
  Lemma q_pos : 0 <= d / w. Proof. apply Rmult_le_pos; [apply d_pos|]. apply Rlt_le, Rinv_0_lt_compat, w_pos. Qed.
  Lemma s_near : Rabs (s - d / w) <= / 2 ^ 53 * (d / w) + tiny.
  Proof. pose proof (rd_err (d / w)) as E. rewrite u53v in E. rewrite (Rabs_pos_eq (d / w)) in E by apply q_pos. exact E. Qed.

  Lemma seg_mono x x' : x <= x' -> seg x0 x1 y0 y1 x <= seg x0 x1 y0 y1 x'.
  Proof.
    intros H. unfold seg. apply rd_mono, Rplus_le_compat_r, rd_mono, Rmult_le_compat_l; [apply s_pos|]. apply rd_mono. lra.
  Qed.

  Variable x : R.
  Hypothesis Dx : dbl x.
  Hypothesis Hx : x0 <= x <= x1.
  Let U := x - x0.
  Let v := rd U.
  Let t := rd (s * v).
  Lemma U_pos : 0 <= U <= W. Proof. unfold U, W. lra. Qed.
  Lemma v_pos : 0 <= v <= w. Proof. split; [apply rd_pos, U_pos|]. apply rd_mono, U_pos. Qed.
  Lemma v_near : Rabs (v - U) <= / 2 ^ 53 * U.
  Proof. pose proof (rd_sub_err x x0 Dx Dx0) as E. rewrite u53v in E. fold U v in E. rewrite (Rabs_pos_eq U) in E by apply U_pos. exact E. Qed.
  Let B := A * (U / W).
  Lemma lam : 0 <= U / W <= 1.
  Proof.
    pose proof W_pos. pose proof U_pos. split; [apply Rmult_le_pos; [lra|apply Rlt_le, Rinv_0_lt_compat; lra]|].
    apply Rmult_le_reg_r with W; [lra|]. unfold Rdiv. rewrite Rmult_assoc, Rinv_l by lra. lra.
  Qed.
  Lemma B_pos : 0 <= B <= A.
  Proof. pose proof lam. pose proof A_pos. unfold B. split; [apply Rmult_le_pos; lra|]. replace A with (A * 1) at 2 by lra. apply Rmult_le_compat_l; lra. Qed.

  (** the product of the slope and the distance, before the roundings of the division and the product *)
  Lemma prod_near : Rabs (d / w * v - B) <= / 2 ^ 51 * B.
  Proof.
    pose proof W_pos as HW. pose proof w_pos as Hw0. pose proof w_near as Ew. pose proof d_near as Ed. pose proof v_near as Ev. pose proof U_pos as HU. pose proof A_pos as HA.
    apply Rabs_le_inv in Ew, Ed, Ev. set (u := / 2 ^ 53) in *. assert (Hu : 0 < u) by (unfold u; apply Rinv_0_lt_compat, pow_lt; lra). assert (Hu2 : u <= / 2 ^ 50) by (unfold u; apply Rinv_le_contravar; [apply pow_lt; lra|apply Rle_pow; [lra|lia]]).
    assert (HB : B * W = A * U) by (unfold B; field; lra). assert (P : (d / w * v) * w = d * v) by (field; lra).
    pose proof B_pos as [B0 _]. assert (AU : 0 <= A * U) by (apply Rmult_le_pos; lra). assert (dv : (1 - u) * (1 - u) * (A * U) <= d * v <= (1 + u) * (1 + u) * (A * U)).
    { pose proof d_pos. pose proof v_pos. assert (u1 : u < 1) by (simpl in Hu2; lra). split.
      - replace ((1 - u) * (1 - u) * (A * U)) with (((1 - u) * A) * ((1 - u) * U)) by ring. apply Rmult_le_compat; try lra; apply Rmult_le_pos; lra.
      - replace ((1 + u) * (1 + u) * (A * U)) with (((1 + u) * A) * ((1 + u) * U)) by ring. apply Rmult_le_compat; lra. }
    assert (E4 : / 2 ^ 51 = 4 * u) by (unfold u; replace 53%nat with (51 + 2)%nat by lia; rewrite pow_add; field; apply pow_nonzero; lra). rewrite E4.
    assert (wl : (1 - u) * W <= w <= (1 + u) * W) by lra. simpl in Hu2.
    apply Rabs_le. split; apply Rmult_le_reg_r with w; try exact Hw0; rewrite ?Rmult_minus_distr_r, P.
    - assert (B * w <= B * ((1 + u) * W)) by (apply Rmult_le_compat_l; lra). assert (B * ((1 - u) * W) <= B * w) by (apply Rmult_le_compat_l; lra).
      replace (B * ((1 + u) * W)) with ((1 + u) * (A * U)) in * by (rewrite <- HB; ring). replace (B * ((1 - u) * W)) with ((1 - u) * (A * U)) in * by (rewrite <- HB; ring).
      apply Rle_trans with (- (4 * u) * ((1 - u) * (A * U))). { replace (- (4 * u * B) * w) with (- (4 * u) * (B * w)) by ring. apply Rmult_le_compat_neg_l; lra. }
      assert (0 <= (1 - u) * (1 - u) - (1 + u) + 4 * u * (1 - u)) by nra. assert (0 <= ((1 - u) * (1 - u) - (1 + u) + 4 * u * (1 - u)) * (A * U)) by (apply Rmult_le_pos; lra). lra.
    - assert (B * ((1 - u) * W) <= B * w) by (apply Rmult_le_compat_l; lra).
      replace (B * ((1 - u) * W)) with ((1 - u) * (A * U)) in * by (rewrite <- HB; ring).
      apply Rle_trans with (4 * u * ((1 - u) * (A * U)) + ((1 + u) * (1 + u) * (A * U) - (1 - u) * (A * U) - 4 * u * ((1 - u) * (A * U)))); [lra|].
      replace (4 * u * B * w) with (4 * u * (B * w)) by ring. assert (4 * u * ((1 - u) * (A * U)) <= 4 * u * (B * w)) by (apply Rmult_le_compat_l; lra).
      assert ((1 + u) * (1 + u) - (1 - u) - 4 * u * (1 - u) <= 0) by nra. assert (((1 + u) * (1 + u) - (1 - u) - 4 * u * (1 - u)) * (A * U) <= 0 * (A * U)) by (apply Rmult_le_compat_r; lra). lra.
  Qed.
  Lemma sv_near : Rabs (s * v - B) <= 11 / 2 / 2 ^ 53 * B + / 2 ^ 600.
  Proof.
    pose proof prod_near as P. pose proof s_near as E. pose proof v_pos as V. pose proof w_high as Wh. pose proof q_pos as Q. pose proof B_pos as B0. pose proof tiny_pos as T.
    replace (s * v - B) with ((s - d / w) * v + (d / w * v - B)) by ring. eapply Rle_trans; [apply Rabs_triang|]. rewrite Rabs_mult, (Rabs_pos_eq v) by lra.
    assert (F : Rabs (s - d / w) * v <= (/ 2 ^ 53 * (d / w) + tiny) * v) by (apply Rmult_le_compat_r; lra).
    assert (G : tiny * v <= / 2 ^ 600). { apply Rle_trans with (tiny * 2 ^ 402); [|apply tiny_402]. apply Rmult_le_compat_l; [lra|]. apply Rle_trans with (2 ^ 401); [lra|apply Rle_pow; [lra|lia]]. }
    assert (K : d / w * v <= (1 + / 2 ^ 51) * B) by (apply Rabs_le_inv in P; lra).
    assert (L : / 2 ^ 53 * (d / w * v) <= / 2 ^ 53 * ((1 + / 2 ^ 51) * B)) by (apply Rmult_le_compat_l; [apply Rlt_le, Rinv_0_lt_compat, pow_lt; lra|exact K]).
    simpl (2 ^ 51) in *. simpl (2 ^ 53) in *. lra.
  Qed.
  Lemma sv_small : 0 <= s * v <= 4.
  Proof.
    split; [apply Rmult_le_pos; [apply s_pos|apply v_pos]|]. pose proof sv_near as E. pose proof B_pos. pose proof A_pos. pose proof p600. apply Rabs_le_inv in E. simpl (2 ^ 53) in E. simpl (2 ^ 100) in *. lra.
  Qed.
  Lemma t_small : 0 <= t <= 4.
  Proof. split; [apply rd_pos, sv_small|]. rewrite <- (rd_id 4); [apply rd_mono, sv_small|]. apply (dbl_IZR 4). lia. Qed.
  Lemma seg_err : Rabs (seg x0 x1 y0 y1 x - (y0 + (y1 - y0) * ((x - x0) / (x1 - x0)))) <= / 2 ^ 50 * y1 + 3 / 2 ^ 600.
  Proof.
    change (y0 + (y1 - y0) * ((x - x0) / (x1 - x0))) with (y0 + B). unfold seg. fold W w A d s U v t.
    pose proof sv_near as E. pose proof B_pos as B0. pose proof p600 as P6. pose proof tiny_600 as T6. pose proof sv_small as S4.
    pose proof (rd_err (s * v)) as Et. rewrite u53v in Et. fold tiny t in Et. rewrite (Rabs_pos_eq (s * v)) in Et by lra.
    pose proof (rd_add_err t y0 (rd_dbl _) Dy0) as Er. rewrite u53v in Er. pose proof t_small as T4. rewrite (Rabs_pos_eq (t + y0)) in Er by lra.
    assert (HA : A = y1 - y0) by reflexivity. apply Rabs_le_inv in E, Et, Er. simpl (2 ^ 100) in *. simpl (2 ^ 53) in *. simpl (2 ^ 50). replace (3 / 2 ^ 600) with (3 * / 2 ^ 600) by reflexivity. set (z := / 2 ^ 600) in *. apply Rabs_le. lra.
  Qed.
  Lemma seg_at : seg x0 x1 y0 y1 x0 = y0.
  Proof. unfold seg. replace (x0 - x0) with 0 by ring. rewrite rd_0, Rmult_0_r, rd_0, Rplus_0_l. apply rd_id, Dy0. Qed.
End Segment.

(** ** The table of cumulative sums *)
Fixpoint sums (a : nat -> R) (k : nat) : R := match k with O => 0 | S k => rd (sums a k + a k) end.
Lemma sums_dbl a k : dbl (sums a k). Proof. destruct k; [apply dbl_0|apply rd_dbl]. Qed.
Lemma sums_inc a k : 0 <= a k -> sums a k <= sums a (S k).
Proof. intros H. rewrite <- (rd_id (sums a k)) at 1 by apply sums_dbl. cbn [sums]. apply rd_mono. lra. Qed.
Lemma sums_added a k : (forall i, dbl (a i)) -> added a (seq 0 (S k)) (sums a (S k)).
Proof.
  intros Ha. induction k; [cbn [sums seq]; rewrite Rplus_0_l, rd_id by apply Ha; apply added_one|].
  rewrite seq_S. cbn [sums]. apply added_two; [exact IHk|apply added_one].
Qed.
Lemma rsum_le' n f g : (forall i, (i < n)%nat -> f i <= g i) -> rsum n f <= rsum n g.
Proof. intros H. induction n; simpl; [lra|]. pose proof (H n ltac:(lia)). assert (rsum n f <= rsum n g) by (apply IHn; intros; apply H; lia). lra. Qed.
Lemma rsum_mono_n n m f : (n <= m)%nat -> (forall i, (i < m)%nat -> 0 <= f i) -> rsum n f <= rsum m f.
Proof. intros H Hf. induction H; [lra|]. simpl. pose proof (Hf m ltac:(lia)). assert (rsum n f <= rsum m f) by (apply IHle; intros; apply Hf; lia). lra. Qed.
Section Table.
  Variables (n : nat) (p W w : nat -> R).
  Hypothesis Hn : INR n <= 2 ^ 40.
  Hypothesis Hp : forall i, (i < n)%nat -> 0 <= p i.
  Hypothesis HW : forall i, (i < n)%nat -> 0 <= W i.
  Hypothesis Hw : forall i, (i < n)%nat -> Rabs (w i - W i) <= u53 * W i.
  Let X i := p i * W i.
  Let a i := rd (p i * w i).
  Hypothesis Htot : rsum n X <= 2.
  Lemma X_pos i : (i < n)%nat -> 0 <= X i. Proof. intros H. apply Rmult_le_pos; auto. Qed.
  Lemma a_pos i : (i < n)%nat -> 0 <= a i.
  Proof.
    intros H. apply rd_pos, Rmult_le_pos; [auto|]. pose proof (Hw i H) as E. pose proof (HW i H). rewrite u53v in E. apply Rabs_le_inv in E. simpl in E. lra.
  Qed.
  Lemma sums_near k : (k <= n)%nat -> Rabs (sums a k - rsum k X) <= (INR n + 2) / 2 ^ 51 + / 2 ^ 600.
  Proof.
    intros Hk. pose proof p600 as P6. destruct k as [|k].
    - cbn [sums rsum]. rewrite Rminus_0_r, Rabs_R0. pose proof (pos_INR n). assert (0 <= (INR n + 2) / 2 ^ 51) by (apply Rmult_le_pos; [lra|apply Rlt_le, Rinv_0_lt_compat, pow_lt; lra]). lra.
    - assert (Kn : INR (S k) <= INR n) by (apply le_INR, Hk).
      pose proof (added_err a X tiny (seq 0 (S k)) (sums a (S k)) (fun i => rd_dbl _) (sums_added a k (fun i => rd_dbl _)) (Rlt_le _ _ tiny_pos)) as E. rewrite tot_seq, seq_length in E.
      assert (E' := E ltac:(intros i Hi; apply in_seq in Hi; split; [apply X_pos; lia|apply product_err; [apply Hp; lia|apply HW; lia|apply Hw; lia]]) ltac:(lra)). clear E.
      eapply Rle_trans; [exact E'|]. assert (T0 : 0 <= rsum (S k) X <= 2). { split; [|eapply Rle_trans; [apply (rsum_mono_n (S k) n); [exact Hk|apply X_pos]|exact Htot]]. apply (rsum_mono_n 0 (S k) X); [lia|]. intros; apply X_pos; lia. }
      set (T := rsum (S k) X) in *. set (K := INR (S k)) in *. pose proof (pos_INR (S k)) as K0. fold K in K0.
      assert (tn : (2 * K - 1) * tiny <= / 2 ^ 600).
      { apply Rle_trans with (2 ^ 402 * tiny); [|rewrite Rmult_comm; apply tiny_402]. apply Rmult_le_compat_r; [apply Rlt_le, tiny_pos|]. apply Rle_trans with (2 ^ 42); [simpl in *; lra|apply Rle_pow; [lra|lia]]. }
      assert (M : (/ 2 ^ 51 + K / 2 ^ 52) * T <= (/ 2 ^ 51 + K / 2 ^ 52) * 2) by (apply Rmult_le_compat_l; [simpl; lra|lra]).
      simpl (2 ^ 51) in *. simpl (2 ^ 52) in *. lra.
  Qed.
  Lemma sums_high k : (k <= n)%nat -> 0 <= sums a k <= 5 / 2.
  Proof.
    intros Hk. split. { clear - Hk Hp HW Hw. induction k; [simpl; lra|]. eapply Rle_trans; [apply IHk; lia|]. apply sums_inc, a_pos. lia. }
    pose proof (sums_near k Hk) as E. apply Rabs_le_inv in E. pose proof p600 as P6. assert (rsum k X <= 2) by (eapply Rle_trans; [apply (rsum_mono_n k n); [exact Hk|apply X_pos]|exact Htot]).
    simpl (2 ^ 51) in *. simpl (2 ^ 40) in *. simpl (2 ^ 100) in *. lra.
  Qed.
End Table.
