(** The density of interpolated ensembles (interp_pdf.py 118-122) in double precision: the real-number part. *)
From Coq Require Import List Arith ZArith Bool Lia Reals Lra Psatz Floats.SpecFloat.
From Flocq Require Import Core.Zaux Core.Raux.
From Verif Require Import Num NumProofs Py NdArray NumpyLib Spec Float FloatProofs FloatHist FloatMachine FloatTheorems FloatNorm FloatCdf FloatInterp.
Import ListNotations.
Local Open Scope R_scope.

(** ** The rising part of one segment, without a bound on the height *)
Section Slope.
  Variables x0 x1 a b : R.
  Hypothesis Dx0 : dbl x0.
  Hypothesis Da : dbl a.
  Hypothesis Db : dbl b.
  Hypothesis Dx1 : dbl x1.
  Hypothesis Hw : / 2 ^ 1000 <= x1 - x0 <= 2 ^ 401.
  Hypothesis Hab : a <= b.
  Let W := x1 - x0.
  Let w := rd W.
  Let A := b - a.
  Let d := rd A.
  Let s := rd (d / w).
  Lemma o_W : 0 < W. Proof. apply (W_pos x0 x1 Hw). Qed.
  Lemma o_w : 0 < w. Proof. apply (w_pos x0 x1 Hw). Qed.
  Lemma o_d : 0 <= d. Proof. apply rd_pos. unfold A. lra. Qed.
  Lemma o_dnear : Rabs (d - A) <= / 2 ^ 53 * A.
  Proof. pose proof (rd_sub_err b a Db Da) as E. rewrite u53v in E. fold A d in E. rewrite (Rabs_pos_eq A) in E by (unfold A; lra). exact E. Qed.
  Lemma o_q : 0 <= d / w. Proof. apply Rmult_le_pos; [apply o_d|]. apply Rlt_le, Rinv_0_lt_compat, o_w. Qed.
  Lemma o_snear : Rabs (s - d / w) <= / 2 ^ 53 * (d / w) + tiny.
  Proof. pose proof (rd_err (d / w)) as E. rewrite u53v in E. rewrite (Rabs_pos_eq (d / w)) in E by apply o_q. exact E. Qed.
  Lemma o_s : 0 <= s. Proof. apply rd_pos, o_q. Qed.
  Variable x : R.
  Hypothesis Dx : dbl x.
  Hypothesis Hx : x0 <= x <= x1.
  Let U := x - x0.
  Let v := rd U.
  Let t := rd (s * v).
  Let B := A * (U / W).
  Lemma o_lam : 0 <= U / W <= 1. Proof. apply (lam x0 x1 Hw x Hx). Qed.
  Lemma o_v : 0 <= v <= w. Proof. apply (v_pos x0 x1 x Hx). Qed.
  Lemma o_B : 0 <= B <= A.
  Proof. pose proof o_lam. assert (0 <= A) by (unfold A; lra). unfold B. split; [apply Rmult_le_pos; lra|]. replace A with (A * 1) at 2 by lra. apply Rmult_le_compat_l; lra. Qed.
  Lemma o_prod : Rabs (d / w * v - B) <= / 2 ^ 51 * B.
  Proof.
    pose proof o_W as HW. pose proof o_w as Hw0. pose proof (w_near x0 x1 Dx0 Dx1 Hw) as Ew. fold W w in Ew. pose proof o_dnear as Ed. pose proof (v_near x0 x1 Dx0 x Dx Hx) as Ev. fold U v in Ev. assert (HU : 0 <= U <= W) by (unfold U, W; lra). assert (HA : 0 <= A) by (unfold A; lra).
    apply Rabs_le_inv in Ew, Ed, Ev. set (u := / 2 ^ 53) in *. assert (Hu : 0 < u) by (unfold u; apply Rinv_0_lt_compat, pow_lt; lra). assert (Hu2 : u <= / 2 ^ 50) by (unfold u; apply Rinv_le_contravar; [apply pow_lt; lra|apply Rle_pow; [lra|lia]]).
    assert (HB : B * W = A * U) by (unfold B; field; lra). assert (P : (d / w * v) * w = d * v) by (field; lra).
    pose proof o_B as [B0 _]. assert (AU : 0 <= A * U) by (apply Rmult_le_pos; lra). assert (dv : (1 - u) * (1 - u) * (A * U) <= d * v <= (1 + u) * (1 + u) * (A * U)).
    { pose proof o_d. pose proof o_v. assert (u1 : u < 1) by (simpl in Hu2; lra). split.
      - replace ((1 - u) * (1 - u) * (A * U)) with (((1 - u) * A) * ((1 - u) * U)) by ring. apply Rmult_le_compat; try lra; apply Rmult_le_pos; lra.
      - replace ((1 + u) * (1 + u) * (A * U)) with (((1 + u) * A) * ((1 + u) * U)) by ring. apply Rmult_le_compat; lra. }
    assert (E4 : / 2 ^ 51 = 4 * u) by (unfold u; replace 53%nat with (51 + 2)%nat by lia; rewrite pow_add; field; apply pow_nonzero; lra). rewrite E4.
    assert (wl : (1 - u) * W <= w <= (1 + u) * W) by lra. simpl in Hu2.
    apply Rabs_le. split; apply Rmult_le_reg_r with w; try exact Hw0; rewrite ?Rmult_minus_distr_r, P.
    - assert (B * w <= B * ((1 + u) * W)) by (apply Rmult_le_compat_l; lra). assert (B * ((1 - u) * W) <= B * w) by (apply Rmult_le_compat_l; lra).
      replace (B * ((1 + u) * W)) with ((1 + u) * (A * U)) in * by (rewrite <- HB; ring). replace (B * ((1 - u) * W)) with ((1 - u) * (A * U)) in * by (rewrite <- HB; ring).
      apply Rle_trans with (- (4 * u) * ((1 - u) * (A * U))). { replace (- (4 * u * B) * w) with (- (4 * u) * (B * w)) by ring. apply Rmult_le_compat_neg_l; lra. }
      assert (0 <= (1 - u) * (1 - u) - (1 + u) + 4 * u * (1 - u)) by nra. assert (0 <= ((1 - u) * (1 - u) - (1 + u) + 4 * u * (1 - u)) * (A * U)) by (apply Rmult_le_pos; lra). lra.
    - assert (B * ((1 - u) * W) <= B * w) by (apply Rmult_le_compat_l; lra).
      replace (B * ((1 - u) * W)) with ((1 - u) * (A * U)) in * by (rewrite <- HB; ring).
      apply Rle_trans with (4 * u * ((1 - u) * (A * U)) + ((1 + u) * (1 + u) * (A * U) - (1 - u) * (A * U) - 4 * u * ((1 - u) * (A * U)))); [lra|].
      replace (4 * u * B * w) with (4 * u * (B * w)) by ring. assert (4 * u * ((1 - u) * (A * U)) <= 4 * u * (B * w)) by (apply Rmult_le_compat_l; lra).
      assert ((1 + u) * (1 + u) - (1 - u) - 4 * u * (1 - u) <= 0) by nra. assert (((1 + u) * (1 + u) - (1 - u) - 4 * u * (1 - u)) * (A * U) <= 0 * (A * U)) by (apply Rmult_le_compat_r; lra). lra.
  Qed.
  Lemma o_sv : 0 <= s * v /\ Rabs (s * v - B) <= 11 / 2 / 2 ^ 53 * B + / 2 ^ 600.
  Proof.
    pose proof o_prod as P. pose proof o_snear as E. pose proof o_v as V. pose proof (w_high x0 x1 Hw) as Wh. fold W w in Wh. pose proof o_q as Q. pose proof o_B as B0. pose proof tiny_pos as T.
    split; [apply Rmult_le_pos; [apply o_s|apply V]|].
    replace (s * v - B) with ((s - d / w) * v + (d / w * v - B)) by ring. eapply Rle_trans; [apply Rabs_triang|]. rewrite Rabs_mult, (Rabs_pos_eq v) by lra.
    assert (F : Rabs (s - d / w) * v <= (/ 2 ^ 53 * (d / w) + tiny) * v) by (apply Rmult_le_compat_r; lra).
    assert (G : tiny * v <= / 2 ^ 600). { apply Rle_trans with (tiny * 2 ^ 402); [|apply tiny_402]. apply Rmult_le_compat_l; [lra|]. apply Rle_trans with (2 ^ 401); [lra|apply Rle_pow; [lra|lia]]. }
    assert (K : d / w * v <= (1 + / 2 ^ 51) * B) by (apply Rabs_le_inv in P; lra).
    assert (L : / 2 ^ 53 * (d / w * v) <= / 2 ^ 53 * ((1 + / 2 ^ 51) * B)) by (apply Rmult_le_compat_l; [apply Rlt_le, Rinv_0_lt_compat, pow_lt; lra|exact K]).
    simpl (2 ^ 51) in *. simpl (2 ^ 53) in *. lra.
  Qed.
  Lemma o_t : 0 <= t /\ Rabs (t - B) <= 34 / 5 / 2 ^ 53 * B + 3 * / 2 ^ 600.
  Proof.
    pose proof o_sv as [S0 E]. split; [apply rd_pos, S0|]. pose proof o_B as B0. pose proof p600 as P6. pose proof tiny_600 as T6.
    pose proof (rd_err (s * v)) as Et. rewrite u53v in Et. fold tiny t in Et. rewrite (Rabs_pos_eq (s * v)) in Et by lra.
    apply Rabs_le_inv in E, Et. simpl (2 ^ 53) in *. set (z := / 2 ^ 600) in *. apply Rabs_le. lra.
  Qed.
End Slope.

(** ** One segment, rising or falling *)
Section AnySegment.
  Variables x0 x1 y0 y1 : R.
  Hypothesis Dx0 : dbl x0.
  Hypothesis Dx1 : dbl x1.
  Hypothesis Dy0 : dbl y0.
  Hypothesis Dy1 : dbl y1.
  Hypothesis Hw : / 2 ^ 1000 <= x1 - x0 <= 2 ^ 401.
  Hypothesis H0 : 0 <= y0.
  Hypothesis H1 : 0 <= y1.
  Variable x : R.
  Hypothesis Dx : dbl x.
  Hypothesis Hx : x0 <= x <= x1.
  Let t := rd (rd (rd (y1 - y0) / rd (x1 - x0)) * rd (x - x0)).
  Let B := (y1 - y0) * ((x - x0) / (x1 - x0)).
  Lemma any_t : Rabs (t - B) <= 34 / 5 / 2 ^ 53 * Rabs B + 3 * / 2 ^ 600.
  Proof.
    destruct (Rle_lt_dec y0 y1) as [C|C].
    - destruct (o_t x0 x1 y0 y1 Dx0 Dy0 Dy1 Dx1 Hw C x Dx Hx) as [_ E]. destruct (o_B x0 x1 y0 y1 Hw C x Hx) as [B0 _]. fold t B in E. fold B in B0. rewrite (Rabs_pos_eq B B0). exact E.
    - destruct (o_t x0 x1 y1 y0 Dx0 Dy1 Dy0 Dx1 Hw (Rlt_le _ _ C) x Dx Hx) as [_ E]. destruct (o_B x0 x1 y1 y0 Hw (Rlt_le _ _ C) x Hx) as [B0 _].
      assert (Et : rd (rd (rd (y0 - y1) / rd (x1 - x0)) * rd (x - x0)) = - t).
      { unfold t. replace (y0 - y1) with (- (y1 - y0)) by ring. rewrite rd_opp. unfold Rdiv. rewrite Ropp_mult_distr_l_reverse, rd_opp, Ropp_mult_distr_l_reverse, rd_opp. reflexivity. }
      assert (Eb : (y0 - y1) * ((x - x0) / (x1 - x0)) = - B) by (unfold B; ring). rewrite Et, Eb in E. rewrite Eb in B0.
      replace (- t - - B) with (- (t - B)) in E by ring. rewrite Rabs_Ropp in E. rewrite (Rabs_left1 B) by lra. exact E.
  Qed.
  Lemma any_B : - y0 <= B /\ Rabs B <= Rmax y0 y1 /\ 0 <= y0 + B <= Rmax y0 y1.
  Proof.
    pose proof (lam x0 x1 Hw x Hx) as L. unfold B. set (q := (x - x0) / (x1 - x0)) in *. clearbody q. assert (E : y0 + (y1 - y0) * q = (1 - q) * y0 + q * y1) by ring.
    pose proof (Rmax_l y0 y1) as M0. pose proof (Rmax_r y0 y1) as M1. set (M := Rmax y0 y1) in *. assert (0 <= (1 - q) * y0) by (apply Rmult_le_pos; lra). assert (0 <= q * y1) by (apply Rmult_le_pos; lra).
    assert ((1 - q) * y0 <= (1 - q) * M) by (apply Rmult_le_compat_l; lra). assert (q * y1 <= q * M) by (apply Rmult_le_compat_l; lra). assert (0 <= q * y0) by (apply Rmult_le_pos; lra). assert (q * y0 <= q * M) by (apply Rmult_le_compat_l; lra). assert (q * M <= 1 * M) by (apply Rmult_le_compat_r; lra).
    split; [lra|]. split; [apply Rabs_le; lra|lra].
  Qed.
  Lemma any_seg : Rabs (seg x0 x1 y0 y1 x - (y0 + (y1 - y0) * ((x - x0) / (x1 - x0)))) <= / 2 ^ 50 * Rmax y0 y1 + 4 / 2 ^ 600.
  Proof.
    pose proof any_t as E. destruct any_B as (_ & B1 & B2). pose proof p600 as P6. change (y0 + (y1 - y0) * ((x - x0) / (x1 - x0))) with (y0 + B). unfold seg. fold t.
    pose proof (rd_add_err t y0 (rd_dbl _) Dy0) as Er. rewrite u53v in Er. set (M := Rmax y0 y1) in *.
    assert (T : Rabs (t + y0) <= 2 * M + 3 * / 2 ^ 600). { replace (t + y0) with ((t - B) + (y0 + B)) by ring. eapply Rle_trans; [apply Rabs_triang|]. rewrite (Rabs_pos_eq (y0 + B)) by lra. simpl (2 ^ 53) in E. pose proof (Rabs_pos B). lra. }
    assert (T2 : Rabs (rd (t + y0) - (y0 + B)) <= Rabs (rd (t + y0) - (t + y0)) + Rabs (t - B)). { replace (rd (t + y0) - (y0 + B)) with ((rd (t + y0) - (t + y0)) + (t - B)) by ring. apply Rabs_triang. }
    assert (T3 : Rabs (t + y0) <= M + Rabs (t - B)). { replace (t + y0) with ((t - B) + (y0 + B)) by ring. eapply Rle_trans; [apply Rabs_triang|]. rewrite (Rabs_pos_eq (y0 + B)) by lra. lra. }
    pose proof (Rabs_pos B) as Bp. simpl (2 ^ 53) in *. simpl (2 ^ 50). replace (4 / 2 ^ 600) with (4 * / 2 ^ 600) by reflexivity. set (z := / 2 ^ 600) in *. lra.
  Qed.
  Lemma any_rise : y0 <= y1 -> 0 <= seg x0 x1 y0 y1 x.
  Proof.
    intros C. destruct (o_t x0 x1 y0 y1 Dx0 Dy0 Dy1 Dx1 Hw C x Dx Hx) as [P _]. unfold seg. apply rd_pos. lra.
  Qed.
End AnySegment.

(** ** The stored values compared with the exact density *)
Section OneNorm.
  Variables (n : nat) (y X : nat -> R).
  Hypothesis Hn : (1 <= n)%nat.
  Hypothesis HN : INR n <= 2 ^ 40.
  Hypothesis DX : forall i, (i <= n)%nat -> dbl (X i).
  Hypothesis HX : forall i, (i < n)%nat -> / 2 ^ 1000 <= X (S i) - X i.
  Hypothesis Dy : forall i, (i <= n)%nat -> dbl (y i).
  Hypothesis Hy : forall i, (i <= n)%nat -> 0 <= y i.
  Hypothesis Hy0 : y 0%nat = 0 \/ / 2 ^ 1020 <= y 0%nat.
  Hypothesis Hmass : / 2 ^ 500 <= cum y X n.
  Hypothesis Htot : X n - X 0%nat <= 2 ^ 202.
  Let s := cum64 y X n.
  Let f i := y i / cum y X n.
  Lemma f_pos i : (i <= n)%nat -> 0 <= f i.
  Proof. intros H. apply Rmult_le_pos; [apply Hy, H|]. apply Rlt_le, Rinv_0_lt_compat. eapply Rlt_le_trans; [|exact Hmass]. apply Rinv_0_lt_compat, pow_lt; lra. Qed.
  Lemma once i : (i <= n)%nat -> Rabs (stored64 n y X i - f i) <= (INR n + 8) / 2 ^ 52 * (501 / 500) * f i + tiny.
  Proof.
    intros H. assert (Sp : 0 < s) by (apply (s_total n y X); assumption). assert (St : Rabs (cum y X n / s - 1) <= (theta n + / 2 ^ 50) * (501 / 500)) by (apply (share_total n y X); assumption).
    assert (E : Rabs (stored64 n y X i - y i / s) <= / 2 ^ 53 * (y i / s) + tiny) by (apply stored64_err; assumption).
    assert (Cp : 0 < cum y X n) by (eapply Rlt_le_trans; [|exact Hmass]; apply Rinv_0_lt_compat, pow_lt; lra).
    set (k := cum y X n / s) in *. assert (Eq : y i / s = f i * k) by (unfold f, k; field; lra). rewrite Eq in E. pose proof (f_pos i H) as F0. set (g := f i) in *. clearbody g. clearbody k.
    assert (Th : theta n + / 2 ^ 50 = (INR n + 6) / 2 ^ 52) by (unfold theta; replace (2 ^ 52) with (2 ^ 50 * 4) by (simpl; lra); field; apply pow_nonzero; lra). rewrite Th in St.
    apply Rabs_le_inv in St, E. set (c := (INR n + 6) / 2 ^ 52) in *. assert (c0 : 0 <= c <= / 2 ^ 11). { unfold c. pose proof (pos_INR n). simpl (2 ^ 40) in HN. simpl (2 ^ 52). simpl (2 ^ 11). split; lra. }
    assert (c8 : (INR n + 8) / 2 ^ 52 = c + 2 / 2 ^ 52) by (unfold c; field; apply pow_nonzero; lra). rewrite c8.
    assert (G1 : g * k <= g * (1 + c * (501 / 500))) by (apply Rmult_le_compat_l; lra). assert (G2 : g * (1 - c * (501 / 500)) <= g * k) by (apply Rmult_le_compat_l; lra).
    assert (G3 : g * (1 + c * (501 / 500)) <= g * (101 / 100)) by (apply Rmult_le_compat_l; [lra|simpl (2 ^ 11) in c0; lra]).
    apply Rabs_le. simpl (2 ^ 53) in *. simpl (2 ^ 52). split; lra.
  Qed.
  Lemma rescaled i : (i <= n)%nat -> Rabs (stored64 n y X i / cum (stored64 n y X) X n - f i) <= 4 / 2 ^ 53 * f i + 2 * tiny.
  Proof.
    intros H. assert (Sp : 0 < s) by (apply (s_total n y X); assumption). assert (Sb : 99 / 100 <= cum y X n / s <= 101 / 100) by (apply (scaled_bounds n y X); assumption).
    assert (Sc : Rabs (cum (stored64 n y X) X n - cum y X n / s) <= / 2 ^ 53 * (cum y X n / s) + tiny * 2 ^ 202) by (apply (cum_scaled n y X); try assumption; lia).
    assert (E : Rabs (stored64 n y X i - y i / s) <= / 2 ^ 53 * (y i / s) + tiny) by (apply stored64_err; assumption).
    assert (Cp : 0 < cum y X n) by (eapply Rlt_le_trans; [|exact Hmass]; apply Rinv_0_lt_compat, pow_lt; lra).
    assert (T2 : 0 <= tiny * 2 ^ 202 <= / 2 ^ 60) by exact (tiny_202 n Hn).
    set (k := cum y X n / s) in *. assert (Eq : y i / s = f i * k) by (unfold f, k; field; lra). rewrite Eq in E. pose proof (f_pos i H) as F0. set (g := f i) in *. clearbody g. clearbody k.
    set (z := stored64 n y X i) in *. set (C := cum (stored64 n y X) X n) in *. clearbody z C. apply Rabs_le_inv in E, Sc. pose proof tiny_pos as Tp. simpl (2 ^ 53) in *. simpl (2 ^ 60) in T2.
    set (u := / 9007199254740992) in *. assert (u9 : u = / 9007199254740992) by reflexivity. assert (C1 : k * (1 - 102 / 100 * u) <= C <= k * (1 + 102 / 100 * u)) by (rewrite u9 in *; split; lra).
    assert (Cl : 98 / 100 <= C) by (rewrite u9 in *; lra). assert (Hgk : 0 <= g * k) by (apply Rmult_le_pos; lra).
    assert (gC : g * (k * (1 - 102 / 100 * u)) <= g * C <= g * (k * (1 + 102 / 100 * u))) by (split; apply Rmult_le_compat_l; lra).
    assert (TC : tiny * (98 / 100) <= tiny * C) by (apply Rmult_le_compat_l; lra).
    apply Rabs_le. split; apply Rmult_le_reg_r with C; try lra; unfold Rdiv; rewrite Rmult_minus_distr_r, (Rmult_assoc z), Rinv_l, Rmult_1_r by lra; rewrite u9 in *; nra.
  Qed.
End OneNorm.
