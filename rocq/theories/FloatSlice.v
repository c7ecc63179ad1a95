(** Repeated normalisation (hist_pdf.py 67, 79-80; every selection from an ensemble normalises twice, ensemble.py 46-75) in double precision: how far the stored values can drift. *)
From Coq Require Import List Arith ZArith Bool Lia Reals Lra Psatz Floats.SpecFloat.
From Flocq Require Import Core.Zaux Core.Raux.
From Verif Require Import Num Spec Float FloatProofs FloatHist FloatMachine FloatTheorems FloatExamples FloatNorm.
Import ListNotations.
Local Open Scope R_scope.

Lemma rsum_ge0 n f : (forall i, (i < n)%nat -> 0 <= f i) -> 0 <= rsum n f.
Proof. induction n; intros H; simpl; [lra|]. assert (0 <= rsum n f) by (apply IHn; intros; apply H; lia). pose proof (H n ltac:(lia)). lra. Qed.

Section Drift.
  Variables (n : nat) (W y0 : nat -> R).
  Hypothesis HW : forall i, (i < n)%nat -> 0 <= W i.
  Hypothesis HT : rsum n W <= 2 ^ 502.
  Hypothesis H0 : forall i, (i < n)%nat -> 0 <= y0 i.
  Let A (y : nat -> R) := rsum n (fun i => y i * W i).
  (** After [t] normalisations: a common factor, and the rounding of every step. *)
  Definition drift (t : nat) (y : nat -> R) : Prop :=
    exists c, 9 / 10 <= c <= 11 / 10 /\ forall i, (i < n)%nat -> 0 <= y i /\ Rabs (y i - c * y0 i) <= 2 * INR t * u53 * (c * y0 i) + 4 * INR t * tiny * c.
  Lemma drift_0 : drift 0 y0.
  Proof. exists 1. split; [lra|]. intros i Hi. split; [apply H0, Hi|]. replace (y0 i - 1 * y0 i) with 0 by ring. rewrite Rabs_R0. simpl. lra. Qed.

  Lemma small_tau t : INR t <= 2 ^ 42 -> 0 <= 4 * INR t * tiny * rsum n W <= / 2 ^ 60.
  Proof.
    intros Ht. pose proof (pos_INR t). assert (T : 0 <= tiny) by apply bpow_ge_0. assert (S0 : 0 <= rsum n W) by (apply rsum_ge0, HW). split; [repeat apply Rmult_le_pos; lra|].
    apply Rle_trans with (tiny * 2 ^ (44 + 502)); [|apply tiny_mul; lia]. rewrite pow_add. replace (4 * INR t * tiny * rsum n W) with (tiny * (4 * INR t * rsum n W)) by ring. apply Rmult_le_compat_l; [exact T|].
    apply Rmult_le_compat; [lra|exact S0|replace (2 ^ 44) with (4 * 2 ^ 42) by (simpl; lra); lra|exact HT].
  Qed.
  Lemma area_drift t y c : INR t <= 2 ^ 42 -> 0 < c -> (forall i, (i < n)%nat -> 0 <= y i /\ Rabs (y i - c * y0 i) <= 2 * INR t * u53 * (c * y0 i) + 4 * INR t * tiny * c) ->
    c * (A y0 * (1 - 2 * INR t * u53) - / 2 ^ 60) <= A y <= c * (A y0 * (1 + 2 * INR t * u53) + / 2 ^ 60).
  Proof.
    intros Ht Hc H. assert (D : Rabs (A y - rsum n (fun i => c * (y0 i * W i) + 0 * 0)) <= rsum n (fun i => (2 * INR t * u53 * c) * (y0 i * W i) + (4 * INR t * tiny * c) * W i)).
    { unfold A. apply rsum_sub_abs. intros i Hi. destruct (H i Hi) as [_ E]. replace (y i * W i - (c * (y0 i * W i) + 0 * 0)) with ((y i - c * y0 i) * W i) by ring. rewrite Rabs_mult, (Rabs_pos_eq (W i)) by (apply HW, Hi).
      replace (2 * INR t * u53 * c * (y0 i * W i) + 4 * INR t * tiny * c * W i) with ((2 * INR t * u53 * (c * y0 i) + 4 * INR t * tiny * c) * W i) by ring. apply Rmult_le_compat_r; [apply HW, Hi|exact E]. }
    rewrite (rsum_lin n (fun i => y0 i * W i) (fun _ => 0)), (rsum_lin n (fun i => y0 i * W i) W) in D. fold (A y0) in D. pose proof (small_tau t Ht) as [T0 T1].
    assert (B : c * (4 * INR t * tiny * rsum n W) <= c * / 2 ^ 60) by (apply Rmult_le_compat_l; lra).
    replace (4 * INR t * tiny * c * rsum n W) with (c * (4 * INR t * tiny * rsum n W)) in D by ring. rewrite Rmult_0_l, Rplus_0_r in D. apply Rabs_le_inv in D. lra.
  Qed.
  Lemma drift_step t y s : INR (S t) <= 2 ^ 42 -> drift t y -> 99 / 100 <= s <= 101 / 100 -> Rabs (A y0 - 1) <= / 100 -> Rabs (A (fun i => rd (y i / s)) - 1) <= / 100 -> drift (S t) (fun i => rd (y i / s)).
  Proof.
    intros Ht (c & Hc & H) Hs Ha Ha'. assert (Ht0 : INR t <= 2 ^ 42) by (rewrite S_INR in Ht; lra). pose proof (pos_INR t) as Tp. set (c' := c / s).
    assert (Is : 0 < / s) by (apply Rinv_0_lt_compat; lra). assert (Js : / s <= 100 / 99) by (replace (100 / 99) with (/ (99 / 100)) by lra; apply Rinv_le_contravar; lra). assert (Ks : 100 / 101 <= / s) by (replace (100 / 101) with (/ (101 / 100)) by lra; apply Rinv_le_contravar; lra).
    assert (C1 : 89 / 100 <= c' <= 112 / 100).
    { unfold c', Rdiv. split; [apply Rle_trans with (9 / 10 * (100 / 101)); [lra|apply Rmult_le_compat; lra]|apply Rle_trans with (11 / 10 * (100 / 99)); [apply Rmult_le_compat; lra|lra]]. }
    assert (U : 0 < u53 <= / 2 ^ 53) by (rewrite u53v; split; [apply Rinv_0_lt_compat, pow_lt; lra|apply Rle_refl]). assert (T : 0 <= tiny) by apply bpow_ge_0.
    assert (Tu : 2 * INR t * u53 <= / 2 ^ 10) by (apply Rle_trans with (2 * 2 ^ 42 * / 2 ^ 53); [apply Rmult_le_compat; lra|simpl; lra]). assert (Tu0 : 0 <= 2 * INR t * u53) by (repeat apply Rmult_le_pos; lra).
    assert (G : forall i, (i < n)%nat -> 0 <= rd (y i / s) /\ Rabs (rd (y i / s) - c' * y0 i) <= 2 * INR (S t) * u53 * (c' * y0 i) + 4 * INR (S t) * tiny * c').
    { intros i Hi. destruct (H i Hi) as [Y E]. specialize (H0 i Hi). assert (Q : 0 <= y i / s) by (apply Rmult_le_pos; lra). split; [apply rd_pos, Q|].
      pose proof (rd_err (y i / s)) as F. fold tiny in F. rewrite (Rabs_pos_eq _ Q) in F.
      assert (E' : Rabs (y i / s - c' * y0 i) <= 2 * INR t * u53 * (c' * y0 i) + 4 * INR t * tiny * c').
      { replace (y i / s - c' * y0 i) with ((y i - c * y0 i) * / s) by (unfold c', Rdiv; ring). rewrite Rabs_mult, (Rabs_pos_eq (/ s)) by lra.
        replace (2 * INR t * u53 * (c' * y0 i) + 4 * INR t * tiny * c') with ((2 * INR t * u53 * (c * y0 i) + 4 * INR t * tiny * c) * / s) by (unfold c', Rdiv; ring). apply Rmult_le_compat_r; lra. }
      set (z := y i / s) in *. set (p := c' * y0 i) in *. assert (P : 0 <= p) by (apply Rmult_le_pos; lra). set (E1 := 2 * INR t * u53) in *. set (d := 4 * INR t * tiny * c') in *. assert (D0 : 0 <= d) by (unfold d; repeat apply Rmult_le_pos; lra).
      assert (Ud : u53 * d <= tiny / 2). { unfold d. replace (u53 * (4 * INR t * tiny * c')) with (tiny * (2 * c' * E1)) by (unfold E1; ring). unfold Rdiv. apply Rmult_le_compat_l; [exact T|]. assert (c' * E1 <= 112 / 100 * / 2 ^ 10) by (apply Rmult_le_compat; lra). simpl (2 ^ 10) in *. lra. }
      assert (Up : u53 * (E1 * p) <= u53 * p) by (apply Rmult_le_compat_l; [lra|]; rewrite <- (Rmult_1_l p) at 2; apply Rmult_le_compat_r; [exact P|]; simpl (2 ^ 10) in Tu; lra).
      apply Rabs_le_inv in E'. assert (Uz : u53 * z <= u53 * (p + E1 * p + d)) by (apply Rmult_le_compat_l; lra).
      replace (2 * INR (S t) * u53 * p) with (E1 * p + 2 * (u53 * p)) by (rewrite S_INR; unfold E1; ring). replace (4 * INR (S t) * tiny * c') with (d + 4 * tiny * c') by (rewrite S_INR; unfold d; ring).
      assert (tiny * (89 / 100) <= tiny * c') by (apply Rmult_le_compat_l; lra). apply Rabs_le_inv in F. apply Rabs_le. split; lra. }
    exists c'. split; [|exact G]. pose proof (area_drift (S t) _ c' Ht ltac:(lra) G) as [L1 L2]. set (B := A (fun i => rd (y i / s))) in *.
    assert (Tu1 : 2 * INR (S t) * u53 <= / 2 ^ 10) by (apply Rle_trans with (2 * 2 ^ 42 * / 2 ^ 53); [apply Rmult_le_compat; try lra; pose proof (pos_INR (S t)); lra|simpl; lra]). assert (Tu2 : 0 <= 2 * INR (S t) * u53) by (pose proof (pos_INR (S t)); repeat apply Rmult_le_pos; lra). set (E1 := 2 * INR (S t) * u53) in *.
    apply Rabs_le_inv in Ha, Ha'. simpl (2 ^ 10) in *. simpl (2 ^ 60) in *.
    assert (X1 : 98 / 100 <= A y0 * (1 - E1) - / 1152921504606846976) by nra. assert (X2 : A y0 * (1 + E1) + / 1152921504606846976 <= 102 / 100) by nra. split; nra.
  Qed.

  (** The difference from the start, once both have area 1 up to [e]. *)
  Lemma drift_end t y e : INR t <= 2 ^ 42 -> drift t y -> Rabs (A y0 - 1) <= e -> Rabs (A y - 1) <= e -> e <= / 2 ^ 10 ->
    forall i, (i < n)%nat -> Rabs (y i - y0 i) <= (21 / 10 * e + 5 * INR t * / 2 ^ 53 + / 2 ^ 58) * y0 i + / 2 ^ 1000.
  Proof.
    intros Ht (c & Hc & H) Ha Ha' He i Hi. pose proof (area_drift t y c Ht ltac:(lra) H) as [L1 L2]. pose proof (pos_INR t) as Tp.
    assert (U : u53 = / 2 ^ 53) by apply u53v. destruct (H i Hi) as [_ E]. specialize (H0 i Hi).
    assert (Tu1 : 2 * INR t * u53 <= / 2 ^ 10) by (rewrite U; apply Rle_trans with (2 * 2 ^ 42 * / 2 ^ 53); [apply Rmult_le_compat; try lra|simpl; lra]).
    replace (5 * INR t * / 2 ^ 53) with (5 / 2 * (2 * INR t * u53)) by (rewrite U; field; apply pow_nonzero; lra).
    assert (Tu0 : 0 <= 2 * INR t * u53) by (rewrite U; repeat apply Rmult_le_pos; lra). set (E1 := 2 * INR t * u53) in *.
    assert (T : 0 <= tiny) by apply bpow_ge_0. assert (Tt : 4 * INR t * tiny * c <= / 2 ^ 1000).
    { apply Rle_trans with (tiny * 2 ^ 45); [|apply tiny_mul; lia]. replace (4 * INR t * tiny * c) with (tiny * (4 * INR t * c)) by ring. apply Rmult_le_compat_l; [exact T|]. apply Rle_trans with (4 * 2 ^ 42 * 2); [apply Rmult_le_compat; lra|simpl; lra]. }
    set (d := 4 * INR t * tiny * c) in *. set (k := / 2 ^ 1000) in *. assert (e0 : 0 <= e) by (pose proof (Rabs_pos (A y - 1)); lra). apply Rabs_le_inv in Ha, Ha'. set (q := / 2 ^ 60) in *. assert (Hq : 0 < q <= / 2 ^ 20 /\ / 2 ^ 58 = 4 * q) by (unfold q; simpl; lra). destruct Hq as [Hq ->].
    simpl (2 ^ 10) in *. simpl (2 ^ 20) in Hq.
    assert (x1 : 1 - e - E1 - q <= A y0 * (1 - E1) - q) by nra. assert (x2 : A y0 * (1 + E1) + q <= 1 + e + 101 / 100 * E1 + q) by nra.
    assert (c1 : c * (1 - e - E1 - q) <= 1 + e) by nra. assert (c2 : 1 - e <= c * (1 + e + 101 / 100 * E1 + q)) by nra.
    assert (D : Rabs (c - 1) <= 21 / 10 * e + 11 / 10 * E1 + 11 / 10 * q) by (apply Rabs_le; split; nra).
    replace (y i - y0 i) with ((y i - c * y0 i) + (c - 1) * y0 i) by ring. eapply Rle_trans; [apply Rabs_triang|]. rewrite Rabs_mult, (Rabs_pos_eq (y0 i)) by exact H0.
    assert (Rabs (c - 1) * y0 i <= (21 / 10 * e + 11 / 10 * E1 + 11 / 10 * q) * y0 i) by (apply Rmult_le_compat_r; [exact H0|exact D]). assert (E1 * (c * y0 i) <= E1 * (11 / 10 * y0 i)) by (apply Rmult_le_compat_l; [exact Tu0|]; apply Rmult_le_compat_r; lra).
    assert (0 <= E1 * y0 i) by (apply Rmult_le_pos; assumption). assert (0 <= q * y0 i) by (apply Rmult_le_pos; lra). lra.
  Qed.
End Drift.
