(** Interpolated-grid ensembles over R. *)
From Coq Require Import List Arith ZArith Bool Sorted Lia Reals Lra Psatz.
From Coquelicot Require Import Coquelicot.
From Verif Require Import Num NumProofs Py NdArray NumpyLib Utils ScipyWrap SortProofs EvalProofs NdProofs
  InterpProofs IntegralProofs BinProofs HistProofs InterpPdf Spec.
Import ListNotations.
Local Open Scope R_scope.

Lemma rsum_nonneg n f : (forall i, (i < n)%nat -> 0 <= f i) -> 0 <= rsum n f.
Proof. induction n; simpl; intros; [lra|]. assert (0 <= rsum n f) by auto. assert (0 <= f n) by auto. lra. Qed.
Lemma rsum_scale n f k : rsum n (fun i => f i * k) = rsum n f * k.
Proof. induction n; simpl; [lra|rewrite IHn; lra]. Qed.

Section Row.
  Variables (xs ys : list R).
  Hypothesis Hs : increasing xs.
  Hypothesis Hn : (2 <= length xs)%nat.
  Hypothesis Hl : length ys = length xs.

  Definition trap (i : nat) : R := (nth0 (S i) xs - nth0 i xs) * (nth0 i ys + nth0 (S i) ys) / 2.
  Definition area : R := rsum (pred (length xs)) trap.

  Lemma trap_length : length (trapezoids xs ys) = pred (length xs).
  Proof. unfold trapezoids. rewrite !map2_len, map_length, ndiff_length, tl_length, removelast_length. lia. Qed.
  Lemma trap_nth i : (S i < length xs)%nat -> nth0 i (trapezoids xs ys) = trap i.
  Proof.
    intros Hi. unfold trapezoids.
    rewrite nth0_map2 by (rewrite ?map2_len, ?map_length, ?ndiff_length, ?tl_length, ?removelast_length; lia).
    rewrite nth0_map by (rewrite ndiff_length; lia). rewrite ndiff_nth by lia.
    rewrite nth0_map2 by (rewrite ?tl_length, ?removelast_length; lia).
    assert (E1 : nth0 i (tl ys) = nth0 (S i) ys) by apply tl_nth.
    assert (E2 : nth0 i (removelast ys) = nth0 i ys) by (apply removelast_nth; lia).
    rewrite E1, E2. rewrite nhalf_R. numR. unfold trap. lra.
  Qed.
  Lemma trap_sum j : (j <= pred (length xs))%nat -> nsum (firstn j (trapezoids xs ys)) = rsum j trap.
  Proof.
    intros Hj. rewrite nsum_rsum, firstn_length, trap_length, Nat.min_l by auto. apply rsum_ext.
    intros i Hi. rewrite <- trap_nth by lia. unfold nth0.
    rewrite <- (firstn_skipn j (trapezoids xs ys)) at 2. rewrite app_nth1; auto.
    rewrite firstn_length, trap_length. lia.
  Qed.

  Let c := ycumul_row xs ys.
  Definition first_step : R := nth0 0 ys * (nth0 1 xs - nth0 0 xs) / 2.
  Lemma yc_length : length c = length xs.
  Proof. unfold c, ycumul_row, ncumsum. cbn [length]. rewrite cumsum_length, trap_length. lia. Qed.
  Lemma yc_0 : nth0 0 c = first_step.
  Proof. unfold c, ycumul_row. change (nth0 0 (?a :: ?l)) with a. rewrite nhalf_R. numR. unfold first_step.
    change (nth0 0 ((1 / 2 * nth0 0 ys * (nth0 1 xs - nth0 0 xs)) :: ncumsum (trapezoids xs ys)))
      with (1 / 2 * nth0 0 ys * (nth0 1 xs - nth0 0 xs)). lra. Qed.
  Lemma yc_S j : (S j < length xs)%nat -> nth0 (S j) c = rsum (S j) trap.
  Proof.
    intros Hj. unfold c, ycumul_row. rewrite nth0_cons_S.
    change (nth0 j (ncumsum (trapezoids xs ys))) with (nth0 (S j) (0 :: ncumsum_from 0 (trapezoids xs ys))).
    rewrite cum_nth by (rewrite trap_length; lia). rewrite trap_sum by lia. lra.
  Qed.
  Lemma yc_last : nlast c = area.
  Proof.
    rewrite nlast_nth0, yc_length. unfold area. destruct (pred (length xs)) eqn:E; [lia|].
    apply yc_S. lia.
  Qed.
  Hypothesis Hp : forall i, (i < length ys)%nat -> 0 <= nth0 i ys.
  Lemma dx_pos i : (S i < length xs)%nat -> 0 < nth0 (S i) xs - nth0 i xs.
  Proof. intros. assert (nth0 i xs < nth0 (S i) xs) by (apply inc_lt; auto; lia). lra. Qed.
  Lemma trap_nonneg i : (S i < length xs)%nat -> 0 <= trap i.
  Proof. intros. unfold trap. pose proof (dx_pos i H). pose proof (Hp i ltac:(lia)). pose proof (Hp (S i) ltac:(lia)). nra. Qed.
  Lemma first_step_nonneg : 0 <= first_step.
  Proof. unfold first_step. pose proof (dx_pos 0 ltac:(lia)). pose proof (Hp 0%nat ltac:(lia)). nra. Qed.
  Lemma yc_nondec : nondecreasing c.
  Proof.
    apply step_nondecreasing. intros j Hj. rewrite yc_length in Hj. rewrite yc_S by auto.
    destruct j.
    - rewrite yc_0. simpl. unfold first_step, trap. pose proof (dx_pos 0 ltac:(lia)).
      pose proof (Hp 0%nat ltac:(lia)). pose proof (Hp 1%nat ltac:(lia)). nra.
    - rewrite yc_S by lia. cbn [rsum]. pose proof (trap_nonneg (S j) Hj). lra.
  Qed.
  Lemma area_nonneg : 0 <= area.
  Proof. apply rsum_nonneg. intros. apply trap_nonneg. lia. Qed.
End Row.

(** Integral of the piecewise-linear function. *)
Section PL.
  Variables (xs ys : list R).
  Hypothesis Hs : increasing xs.
  Hypothesis Hn : (2 <= length xs)%nat.
  Definition pl (x : R) : R := interp1d xs ys 0 0 x.
  Definition slope (j : nat) : R := (nth0 (S j) ys - nth0 j ys) / (nth0 (S j) xs - nth0 j xs).
  Lemma pl_integral j x : (S j < length xs)%nat -> nth0 j xs <= x <= nth0 (S j) xs ->
    is_RInt pl (nth0 0 xs) x (rsum j (trap xs ys) +
       (slope j * (x - nth0 j xs) * (x - nth0 j xs) / 2 + nth0 j ys * (x - nth0 j xs))).
  Proof.
    intros Hj Hx.
    assert (E : forall k, (k < length xs)%nat -> nth0 k (map (fun j => rsum j (trap xs ys)) (seq 0 (length xs))) = rsum k (trap xs ys)).
    { intros k Hk. unfold nth0. rewrite nth_indep with (d' := rsum 0 (trap xs ys)) by (rewrite map_length, seq_length; auto).
      rewrite (map_nth (fun j => rsum j (trap xs ys))), seq_nth by auto. f_equal. }
    rewrite <- E by lia.
    apply (piecewise_integral pl xs _ (fun j x => slope j * (x - nth0 j xs) * (x - nth0 j xs) / 2 + nth0 j ys * (x - nth0 j xs))); auto.
    - rewrite E by lia. reflexivity.
    - intros k y Hk Hy. apply is_RInt_affine; [lra|]. intros z Hz. unfold pl.
      rewrite (interp1d_closed _ _ _ _ _ k) by (auto; lra). reflexivity.
    - intros k Hk. rewrite !E by lia. cbn [rsum]. f_equal. unfold trap, slope.
      assert (nth0 k xs < nth0 (S k) xs) by (apply inc_lt; auto; lia). field. lra.
  Qed.
  Lemma pl_integral_knot j : (j < length xs)%nat ->
    is_RInt pl (nth0 0 xs) (nth0 j xs) (rsum j (trap xs ys)).
  Proof.
    intros Hj. destruct (Nat.eq_dec (S j) (length xs)) as [E|E].
    - destruct j; [lia|]. 
      assert (H := pl_integral j (nth0 (S j) xs) Hj).
      assert (L : nth0 j xs < nth0 (S j) xs) by (apply inc_lt; auto; lia).
      specialize (H ltac:(lra)).
      replace (rsum (S j) (trap xs ys)) with (rsum j (trap xs ys) +
        (slope j * (nth0 (S j) xs - nth0 j xs) * (nth0 (S j) xs - nth0 j xs) / 2 + nth0 j ys * (nth0 (S j) xs - nth0 j xs))); auto.
      cbn [rsum]. f_equal. unfold trap, slope. field. lra.
    - assert (H := pl_integral j (nth0 j xs) ltac:(lia)).
      assert (L : nth0 j xs < nth0 (S j) xs) by (apply inc_lt; auto; lia).
      specialize (H ltac:(lra)). rewrite Rminus_eq_0 in H. 
      replace (rsum j (trap xs ys)) with (rsum j (trap xs ys) + (slope j * 0 * 0 / 2 + nth0 j ys * 0)) by lra. auto.
  Qed.
End PL.
