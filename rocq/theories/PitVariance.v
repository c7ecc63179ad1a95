(** The variance of the two-sample Anderson-Darling statistic is positive: a fact about real numbers only. *)
From Coq Require Import List Arith Lia Reals Lra.
From Verif Require Import Spec HistProofs InterpPdfProofs FitProofs.
Import ListNotations.
Local Open Scope R_scope.

(** The harmonic sum 1 + 1/2 + ... + 1/n *)
Definition harmonic (n : nat) : R := rsum n (fun i => / INR (S i)).
(** Scholz and Stephens (1987): the sum over 1 <= i < j <= N-1 of 1/((N-i) j), written with m = N-i and k = N-j. *)
Definition double_harmonic (N : nat) : R := rsum (N - 2) (fun i => rsum (S i) (fun t => / INR (N - 1 - t)) / INR (i + 2)).
(** The variance of the statistic for two samples of n values each *)
Definition ad_variance (n : nat) : R :=
  let N := INR (2 * n) in let h := harmonic (2 * n - 1) in let g := double_harmonic (2 * n) in
  ((4 * g - 6) * N * (N - 1) + 4 * h * (2 * N - 1)) / ((N - 1) * (N - 3)).

Lemma harmonic_S n : harmonic (S n) = harmonic n + / INR (S n).
Proof. reflexivity. Qed.
Lemma inner_harmonic N i : (i < N)%nat -> rsum (S i) (fun t => / INR (N - t)) = harmonic N - harmonic (N - S i).
Proof.
  induction i as [|i IH]; intros H.
  - simpl. replace (N - 0)%nat with (S (N - 1)) by lia. replace N with (S (N - 1)) at 2 by lia. rewrite harmonic_S. lra.
  - change (rsum (S i) (fun t => / INR (N - t)) + / INR (N - S i) = harmonic N - harmonic (N - S (S i))). rewrite IH by lia.
    replace (N - S i)%nat with (S (N - S (S i))) by lia. rewrite harmonic_S. lra.
Qed.
(** with N = k + 2 *)
Definition G (k : nat) : R := rsum k (fun i => (harmonic (S k) - harmonic (k - i)) / INR (i + 2)).
Lemma double_G k : double_harmonic (k + 2) = G k.
Proof.
  unfold double_harmonic, G. replace (k + 2 - 2)%nat with k by lia. apply rsum_ext. intros i Hi. f_equal.
  replace (k + 2 - 1)%nat with (S k) by lia. rewrite inner_harmonic by lia. reflexivity.
Qed.
Lemma tail_harmonic k : rsum k (fun i => / INR (i + 2)) = harmonic (S k) - 1.
Proof.
  unfold harmonic. rewrite rsum_S_l. replace (/ INR 1) with 1 by (simpl; lra).
  rewrite (rsum_ext k (fun i => / INR (S (S i))) (fun i => / INR (i + 2))); [lra|]. intros i _. do 2 f_equal. lia.
Qed.
Lemma tail_reversed k : rsum k (fun i => / INR (S k - i)) = harmonic (S k) - 1.
Proof.
  rewrite <- tail_harmonic. rewrite <- (rsum_rev k (fun i => / INR (i + 2))). apply rsum_ext. intros i Hi. do 2 f_equal. lia.
Qed.
Lemma rsum_comb n f g a b : rsum n (fun i => a * f i + b * g i) = a * rsum n f + b * rsum n g.
Proof. induction n as [|n IH]; simpl; [lra|]. rewrite IH. lra. Qed.
Lemma G_S k : G (S k) = G k + 2 * (harmonic (S k) - 1) / (INR (k + 2) * INR (k + 3)) + / (INR (k + 2) * INR (k + 2)).
Proof.
  unfold G at 1. change (rsum (S k) ?f) with (rsum k f + f k). cbv beta.
  replace (S k - k)%nat with 1%nat by lia.
  assert (P2 : 0 < INR (k + 2)) by (apply lt_0_INR; lia). assert (P3 : 0 < INR (k + 3)) by (apply lt_0_INR; lia).
  assert (E3 : INR (k + 3) = INR (k + 2) + 1) by (replace (k + 3)%nat with (S (k + 2)) by lia; apply S_INR).
  assert (E : rsum k (fun i => (harmonic (S (S k)) - harmonic (S k - i)) / INR (i + 2)) =
              G k + (/ INR (k + 2) * rsum k (fun i => / INR (i + 2)) - / INR (k + 3) * (rsum k (fun i => / INR (i + 2)) + rsum k (fun i => / INR (S k - i))))).
  { rewrite <- (Rplus_comm (rsum k (fun i => / INR (S k - i)))).
    transitivity (G k + ((/ INR (k + 2) - / INR (k + 3)) * rsum k (fun i => / INR (i + 2)) + (- / INR (k + 3)) * rsum k (fun i => / INR (S k - i)))); [|lra].
    rewrite <- (rsum_comb k). unfold G. rewrite <- (Rmult_1_l (rsum k (fun i => (harmonic (S k) - _) / _))).
    rewrite <- (Rmult_1_l (rsum k (fun i => (/ INR (k + 2) - / INR (k + 3)) * / INR (i + 2) + _))).
    rewrite <- (rsum_comb k). apply rsum_ext. intros i Hi.
    replace (S k - i)%nat with (S (k - i)) by lia. rewrite !harmonic_S.
    replace (INR (S (S k))) with (INR (k + 2)) by (f_equal; lia).
    set (a := INR (i + 2)). set (b := INR (S (k - i))).
    assert (Pa : 0 < a) by (apply lt_0_INR; lia). assert (Pb : 0 < b) by (apply lt_0_INR; lia).
    assert (Eab : INR (k + 3) = a + b) by (unfold a, b; rewrite <- plus_INR; f_equal; lia).
    assert (Pk : 0 < INR (S k)) by (apply lt_0_INR; lia). rewrite Eab. field. repeat split; lra. }
  rewrite E, tail_reversed, tail_harmonic, (harmonic_S (S k)). replace (INR (S (S k))) with (INR (k + 2)) by (f_equal; lia).
  replace (harmonic 1) with 1 by (unfold harmonic; simpl; lra). rewrite E3.
  field. lra.
Qed.

Lemma third k : (1 <= k)%nat -> 0 < 8 * G k - 12 + 16 * harmonic (S k) / INR (k + 2) + 8 / (INR (k + 2) * INR (k + 2)) + 8 / INR (k + 3).
Proof.
  induction k as [|k IH]; [lia|]. intros _. destruct k as [|k].
  - clear IH. unfold G, harmonic. simpl. lra.
  - specialize (IH ltac:(lia)). revert IH. set (k' := S k). intros IH. rewrite (G_S k'), (harmonic_S (S k')).
    replace (INR (S (S k'))) with (INR (k' + 2)) by (f_equal; lia). replace (S k' + 2)%nat with (S (k' + 2)) by lia. replace (S k' + 3)%nat with (S (S (k' + 2))) by lia.
    replace (k' + 3)%nat with (S (k' + 2)) in * by lia. rewrite !S_INR in *.
    set (x := INR (k' + 2)) in *. assert (Px : 0 < x) by (apply lt_0_INR; lia). set (h := harmonic (S k')) in *. set (g := G k') in *.
    assert (E : 8 * (g + 2 * (h - 1) / (x * (x + 1)) + / (x * x)) - 12 + 16 * (h + / x) / (x + 1) + 8 / ((x + 1) * (x + 1)) + 8 / (x + 1 + 1) =
       (8 * g - 12 + 16 * h / x + 8 / (x * x) + 8 / (x + 1)) + 8 / ((x + 1) * (x + 1) * (x + 1 + 1))) by (field; lra).
    rewrite E. assert (0 < 8 / ((x + 1) * (x + 1) * (x + 1 + 1))); [|lra]. apply Rdiv_lt_0_compat; [lra|]. repeat apply Rmult_lt_0_compat; lra.
Qed.
Lemma second k : (1 <= k)%nat -> 0 < 8 * INR (k + 2) * (G k - 3 / 2) + 16 * harmonic (S k) + 4 + 8 / INR (k + 2).
Proof.
  induction k as [|k IH]; [lia|]. intros _. destruct k as [|k].
  - clear IH. unfold G, harmonic. simpl. lra.
  - specialize (IH ltac:(lia)). pose proof (third (S k) ltac:(lia)) as H3. revert IH H3. set (k' := S k). intros IH H3. rewrite (G_S k'), (harmonic_S (S k')).
    replace (INR (S (S k'))) with (INR (k' + 2)) by (f_equal; lia). replace (S k' + 2)%nat with (S (k' + 2)) by lia.
    replace (k' + 3)%nat with (S (k' + 2)) in * by lia. rewrite !S_INR in *.
    set (x := INR (k' + 2)) in *. assert (Px : 0 < x) by (apply lt_0_INR; lia). set (h := harmonic (S k')) in *. set (g := G k') in *.
    assert (E : 8 * (x + 1) * (g + 2 * (h - 1) / (x * (x + 1)) + / (x * x) - 3 / 2) + 16 * (h + / x) + 4 + 8 / (x + 1) =
       (8 * x * (g - 3 / 2) + 16 * h + 4 + 8 / x) + (8 * g - 12 + 16 * h / x + 8 / (x * x) + 8 / (x + 1))) by (field; lra).
    rewrite E. lra.
Qed.
Lemma first k : (2 <= k)%nat -> 0 < (4 * G k - 6) * INR (k + 2) * (INR (k + 2) - 1) + 4 * harmonic (S k) * (2 * INR (k + 2) - 1).
Proof.
  intros Hk. destruct k as [|k]; [lia|]. assert (K : (1 <= k)%nat) by lia. clear Hk.
  assert (S1 : forall k, (1 <= k)%nat -> (4 * G (S k) - 6) * INR (S k + 2) * (INR (S k + 2) - 1) + 4 * harmonic (S (S k)) * (2 * INR (S k + 2) - 1) =
    ((4 * G k - 6) * INR (k + 2) * (INR (k + 2) - 1) + 4 * harmonic (S k) * (2 * INR (k + 2) - 1)) + (8 * INR (k + 2) * (G k - 3 / 2) + 16 * harmonic (S k) + 4 + 8 / INR (k + 2))).
  { clear. intros k Hk. rewrite (G_S k), (harmonic_S (S k)). replace (INR (S (S k))) with (INR (k + 2)) by (f_equal; lia).
    replace (S k + 2)%nat with (S (k + 2)) by lia. replace (k + 3)%nat with (S (k + 2)) in * by lia. rewrite !S_INR in *.
    set (x := INR (k + 2)) in *. assert (Px : 0 < x) by (apply lt_0_INR; lia). field. lra. }
  assert (I : forall k, (1 <= k)%nat -> 0 <= (4 * G k - 6) * INR (k + 2) * (INR (k + 2) - 1) + 4 * harmonic (S k) * (2 * INR (k + 2) - 1)).
  { clear k K. induction k as [|k IH]; [lia|]. intros _. destruct k as [|k]; [unfold G, harmonic; simpl; lra|].
    rewrite S1 by lia. specialize (IH ltac:(lia)). pose proof (second (S k) ltac:(lia)). lra. }
  rewrite S1 by lia. pose proof (I k K). pose proof (second k K). lra.
Qed.
Lemma ad_variance_pos n : (2 <= n)%nat -> 0 < ad_variance n.
Proof.
  intros Hn. unfold ad_variance. cbv zeta. remember (2 * n - 2)%nat as k eqn:Ek. replace (2 * n)%nat with (k + 2)%nat by lia. replace (k + 2 - 1)%nat with (S k) by lia.
  rewrite double_G. assert (Hx : 4 <= INR (k + 2)) by (replace 4 with (INR 4) by (simpl; lra); apply le_INR; lia).
  apply Rdiv_lt_0_compat; [apply first; lia|]. apply Rmult_lt_0_compat; lra.
Qed.
