(** Interpolated densities (interp_pdf.py 86-106) in double precision: the real-number part. *)
From Coq Require Import List Arith ZArith Bool Lia Reals Lra Psatz Floats.SpecFloat.
From Flocq Require Import Core.Zaux Core.Raux Core.Generic_fmt Core.FLT Mult_error.
From Verif Require Import Num NumProofs Py NdArray NumpyLib Utils Spec Float FloatProofs FloatHist FloatMachine FloatTheorems FloatExamples FloatNorm FloatCdf.
Import ListNotations.
Local Open Scope R_scope.

Lemma half_exact z : dbl z -> z = 0 \/ / 2 ^ 1020 <= z -> rd (z * / 2) = z * / 2.
Proof.
  intros D [->|H]; [rewrite Rmult_0_l; apply rd_0|]. apply rd_id. unfold dbl in *. replace (/ 2) with (bpow radix2 (-1)) by (simpl; lra).
  apply mult_bpow_exact_FLT; [exact D|].
  assert (M : (-1019 <= mag radix2 z)%Z); [|lia].
  apply mag_ge_bpow. change (-1019 - 1)%Z with (- Z.of_nat 1020)%Z. rewrite bpow_opp, <- pow_bpow. rewrite Rabs_pos_eq; [exact H|]. pose proof (Rinv_0_lt_compat _ (pow_lt 2 1020 ltac:(lra))). lra.
Qed.

(** Two quotients of numbers that are close to each other. *)
Lemma ratio_near a a' b b' th d : 0 <= a <= b -> 0 < b -> 0 <= th <= / 2 ^ 10 -> 0 <= d <= / 2 ^ 50 * b -> Rabs (a' - a) <= th * a + d -> Rabs (b' - b) <= th * b + d ->
  0 < b' /\ Rabs (a' / b' - a / b) <= (2 * th + / 2 ^ 49) * (501 / 500).
Proof.
  intros Ha Hb Ht Hd A B. assert (B0 : 999 / 1000 * b <= b').
  { apply Rabs_le_inv in B. assert (th * b <= / 2 ^ 10 * b) by (apply Rmult_le_compat_r; lra). simpl in *. lra. }
  assert (Pb : 0 < b') by lra. split; [exact Pb|].
  assert (R : 0 <= a / b <= 1).
  { split; [apply Rmult_le_pos; [lra|apply Rlt_le, Rinv_0_lt_compat, Hb]|]. apply Rmult_le_reg_r with b; [exact Hb|]. unfold Rdiv. rewrite Rmult_assoc, Rinv_l by lra. lra. }
  set (r := a / b) in *. assert (Er : a = r * b) by (unfold r; field; lra).
  replace (a' / b' - r) with (((a' - a) - r * (b' - b)) / b') by (rewrite Er; field; lra).
  unfold Rdiv. rewrite Rabs_mult, (Rabs_pos_eq (/ b')) by (apply Rlt_le, Rinv_0_lt_compat, Pb).
  apply Rmult_le_reg_r with b'; [exact Pb|]. rewrite Rmult_assoc, Rinv_l, Rmult_1_r by lra.
  assert (N : Rabs (a' - a - r * (b' - b)) <= (2 * th + / 2 ^ 49) * b).
  { unfold Rminus at 1. eapply Rle_trans; [apply Rabs_triang|]. rewrite Rabs_Ropp, Rabs_mult, (Rabs_pos_eq r) by lra.
    assert (r * Rabs (b' - b) <= 1 * (th * b + d)) by (apply Rmult_le_compat; [lra|apply Rabs_pos|lra|exact B]).
    assert (th * a <= th * b) by (apply Rmult_le_compat_l; lra). simpl in *. lra. }
  eapply Rle_trans; [exact N|]. rewrite (Rmult_assoc _ (501 / 500) b'). apply Rmult_le_compat_l; [simpl; lra|]. lra.
Qed.

(** [y i]: the values at the grid points [X 0], ..., [X n]. *)
Section Trapezoids.
  Variables (n : nat) (y X : nat -> R).
  Hypothesis Hn : (1 <= n)%nat.
  Hypothesis HN : INR n <= 2 ^ 40.
  Hypothesis DX : forall i, (i <= n)%nat -> dbl (X i).
  Hypothesis HX : forall i, (i < n)%nat -> / 2 ^ 1000 <= X (S i) - X i.
  Hypothesis Dy : forall i, (i <= n)%nat -> dbl (y i).
  Hypothesis Hy : forall i, (i <= n)%nat -> 0 <= y i.
  Hypothesis Hy0 : y 0%nat = 0 \/ / 2 ^ 1020 <= y 0%nat.
  Definition width i := X (S i) - X i.
  Definition trap i := (y i + y (S i)) / 2 * width i.
  (** the areas as the code computes them *)
  Definition trap64 i := rd (rd (rd (width i) * / 2) * rd (y (S i) + y i)).
  Definition first64 := rd (rd (/ 2 * y 0%nat) * rd (width 0)).
  Definition cum64 k := match k with O => first64 | S _ => sums trap64 k end.
  (** and without rounding *)
  Definition cum k := match k with O => y 0%nat / 2 * width 0 | S _ => rsum k trap end.

  Lemma width_low i : (i < n)%nat -> 0 < / 2 ^ 1000 <= width i.
  Proof. intros H. split; [apply Rinv_0_lt_compat, pow_lt; lra|apply HX, H]. Qed.
  Lemma width_near i : (i < n)%nat -> Rabs (rd (width i) - width i) <= / 2 ^ 53 * width i.
  Proof. intros H. pose proof (rd_sub_err (X (S i)) (X i) (DX _ H) (DX i ltac:(lia))) as E. rewrite u53v in E. fold (width i) in E. rewrite (Rabs_pos_eq (width i)) in E by (pose proof (width_low i H); lra). exact E. Qed.
  Lemma rwidth_low i : (i < n)%nat -> / 2 ^ 1000 <= rd (width i).
  Proof. intros H. rewrite pow_bpow, <- bpow_opp. rewrite <- (rd_id (bpow radix2 _)) by (apply dbl_bpow; simpl; lia). apply rd_mono. rewrite bpow_opp, <- pow_bpow. apply width_low, H. Qed.
  Lemma half_width i : (i < n)%nat -> rd (rd (width i) * / 2) = rd (width i) * / 2.
  Proof.
    intros H. apply half_exact; [apply rd_dbl|]. right. eapply Rle_trans; [|apply rwidth_low, H]. apply Rinv_le_contravar; [apply pow_lt; lra|apply Rle_pow; [lra|lia]].
  Qed.
  Lemma sum_near2 i : (i < n)%nat -> Rabs (rd (y (S i) + y i) - (y i + y (S i))) <= / 2 ^ 53 * (y i + y (S i)).
  Proof.
    intros H. pose proof (rd_add_err (y (S i)) (y i) (Dy _ H) (Dy i ltac:(lia))) as E. rewrite u53v in E. pose proof (Hy i ltac:(lia)). pose proof (Hy (S i) ltac:(lia)).
    rewrite (Rabs_pos_eq (y (S i) + y i)) in E by lra. rewrite (Rplus_comm (y i)). exact E.
  Qed.
  Lemma trap_pos i : (i < n)%nat -> 0 <= trap i.
  Proof. intros H. pose proof (width_low i H). pose proof (Hy i ltac:(lia)). pose proof (Hy (S i) ltac:(lia)). apply Rmult_le_pos; lra. Qed.
  Lemma trap64_pos i : (i < n)%nat -> 0 <= trap64 i.
  Proof.
    intros H. pose proof (Hy i ltac:(lia)). pose proof (Hy (S i) ltac:(lia)). apply rd_pos, Rmult_le_pos; [|apply rd_pos; lra]. rewrite half_width by exact H. pose proof (rwidth_low i H). pose proof (width_low i H). lra.
  Qed.
  (** products of two factors known up to a relative error of u each *)
  Lemma prod2 P Q p q : 0 <= P -> 0 <= Q -> Rabs (p - P) <= / 2 ^ 53 * P -> Rabs (q - Q) <= / 2 ^ 53 * Q -> 0 <= p * q /\ Rabs (rd (p * q) - P * Q) <= / 2 ^ 51 * (P * Q) + tiny.
  Proof.
    intros HP HQ A B. apply Rabs_le_inv in A, B. set (u := / 2 ^ 53) in *. assert (Hu : 0 < u <= / 2 ^ 50) by (unfold u; simpl; lra). simpl in Hu. assert (PQ : 0 <= P * Q) by (apply Rmult_le_pos; assumption).
    assert (uP : u * P <= 1 * P) by (apply Rmult_le_compat_r; lra). assert (uQ : u * Q <= 1 * Q) by (apply Rmult_le_compat_r; lra).
    assert (L : (1 - u) * (1 - u) * (P * Q) <= p * q <= (1 + u) * (1 + u) * (P * Q)).
    { split.
      - replace ((1 - u) * (1 - u) * (P * Q)) with (((1 - u) * P) * ((1 - u) * Q)) by ring. apply Rmult_le_compat; try lra; apply Rmult_le_pos; lra.
      - replace ((1 + u) * (1 + u) * (P * Q)) with (((1 + u) * P) * ((1 + u) * Q)) by ring. apply Rmult_le_compat; lra. }
    assert (pq : 0 <= p * q) by (apply Rmult_le_pos; lra). split; [exact pq|].
    pose proof (rd_err (p * q)) as E. rewrite u53v in E. fold u tiny in E. rewrite (Rabs_pos_eq (p * q) pq) in E. apply Rabs_le_inv in E.
    replace (/ 2 ^ 51) with (4 * u) by (unfold u; simpl; lra). set (Z := P * Q) in *. assert (uu : u * u * Z <= / 2 ^ 50 * u * Z) by (apply Rmult_le_compat_r; [exact PQ|]; apply Rmult_le_compat_r; simpl; lra).
    assert (uuu : u * (u * u * Z) <= u * (/ 2 ^ 50 * u * Z)) by (apply Rmult_le_compat_l; lra). assert (u0 : u * (/ 2 ^ 50 * u * Z) <= 1 * (/ 2 ^ 50 * u * Z)) by (apply Rmult_le_compat_r; [|lra]; apply Rmult_le_pos; [apply Rmult_le_pos; simpl; lra|exact PQ]).
    assert (uZ : 0 <= u * Z) by (apply Rmult_le_pos; lra). assert (uu0 : 0 <= u * u * Z) by (rewrite Rmult_assoc; apply Rmult_le_pos; lra). assert (uuu0 : 0 <= u * (u * u * Z)) by (apply Rmult_le_pos; lra).
    replace (/ 2 ^ 50 * u * Z) with (/ 2 ^ 50 * (u * Z)) in * by ring.
    assert (E1 : u * (p * q) <= u * ((1 + u) * (1 + u) * Z)) by (apply Rmult_le_compat_l; lra).
    replace ((1 - u) * (1 - u) * Z) with (Z - 2 * (u * Z) + u * u * Z) in L by ring. replace ((1 + u) * (1 + u) * Z) with (Z + 2 * (u * Z) + u * u * Z) in L, E1 by ring.
    replace (u * (Z + 2 * (u * Z) + u * u * Z)) with (u * Z + 2 * (u * u * Z) + u * (u * u * Z)) in E1 by ring. replace (4 * u * Z) with (4 * (u * Z)) by ring. simpl (2 ^ 50) in *. apply Rabs_le. lra.
  Qed.
  Lemma trap_err i : (i < n)%nat -> Rabs (trap64 i - trap i) <= / 2 ^ 51 * trap i + tiny.
  Proof.
    intros H. pose proof (width_low i H) as Wl. pose proof (Hy i ltac:(lia)). pose proof (Hy (S i) ltac:(lia)). unfold trap64. rewrite half_width by exact H.
    replace (trap i) with ((width i * / 2) * (y i + y (S i))) by (unfold trap; field). apply prod2; [lra|lra| |apply sum_near2, H].
    pose proof (width_near i H) as E. apply Rabs_le_inv in E. apply Rabs_le. lra.
  Qed.
  Lemma first_err : Rabs (first64 - cum 0) <= / 2 ^ 51 * cum 0 + tiny.
  Proof.
    unfold first64, cum. rewrite (Rmult_comm (/ 2)), half_exact by (try exact Hy0; apply Dy; lia). pose proof (width_low 0 ltac:(lia)). pose proof (Hy 0%nat ltac:(lia)).
    apply prod2; [lra|lra| |apply width_near; lia]. replace (y 0%nat * / 2 - y 0%nat / 2) with 0 by field. rewrite Rabs_R0. apply Rmult_le_pos; [simpl; lra|lra].
  Qed.
  Lemma first64_pos : 0 <= first64.
  Proof. pose proof (Hy 0%nat ltac:(lia)). pose proof (width_low 0 ltac:(lia)). apply rd_pos, Rmult_le_pos; apply rd_pos; lra. Qed.
  Lemma first64_le : first64 <= trap64 0.
  Proof.
    unfold first64, trap64. rewrite half_width by lia. rewrite (Rmult_comm (/ 2)), half_exact by (try exact Hy0; apply Dy; lia). apply rd_mono.
    pose proof (Hy 0%nat ltac:(lia)). pose proof (Hy 1%nat ltac:(lia)). pose proof (rwidth_low 0 ltac:(lia)). pose proof (width_low 0 ltac:(lia)).
    assert (y 0%nat <= rd (y 1%nat + y 0%nat)) by (rewrite <- (rd_id (y 0%nat)) at 1 by (apply Dy; lia); apply rd_mono; lra).
    replace (y 0%nat * / 2 * rd (width 0)) with (rd (width 0) * / 2 * y 0%nat) by ring. apply Rmult_le_compat_l; lra.
  Qed.
  Lemma cum64_dbl k : dbl (cum64 k). Proof. destruct k; [apply rd_dbl|apply sums_dbl]. Qed.
  Lemma cum64_inc k : (k < n)%nat -> 0 <= cum64 k <= cum64 (S k).
  Proof.
    intros H. assert (P : forall j, (j <= n)%nat -> 0 <= sums trap64 j).
    { induction j; intros Hj; [simpl; lra|]. eapply Rle_trans; [apply IHj; lia|]. apply sums_inc, trap64_pos. lia. }
    destruct k; [|cbn [cum64]; split; [apply P; lia|apply sums_inc, trap64_pos, H]].
    cbn [cum64]. split; [apply first64_pos|]. cbn [sums]. rewrite Rplus_0_l, rd_id by apply rd_dbl. apply first64_le.
  Qed.
  Lemma cum64_mono j k : (j <= k <= n)%nat -> 0 <= cum64 j <= cum64 k.
  Proof.
    intros [H1 H2]. induction H1.
    - split; [|lra]. destruct j; [apply first64_pos|]. pose proof (cum64_inc j ltac:(lia)). lra.
    - pose proof (cum64_inc m ltac:(lia)). specialize (IHle ltac:(lia)). lra.
  Qed.
  Lemma cum_inc k : (k < n)%nat -> 0 <= cum k <= cum (S k).
  Proof.
    intros H. assert (P : forall j, (j <= n)%nat -> 0 <= rsum j trap) by (intros j Hj; apply (rsum_mono_n 0 j trap); [lia|intros; apply trap_pos; lia]).
    destruct k; cbn [cum].
    - pose proof (Hy 0%nat ltac:(lia)). pose proof (Hy 1%nat ltac:(lia)). pose proof (width_low 0 ltac:(lia)). split; [apply Rmult_le_pos; lra|]. cbn [rsum]. rewrite Rplus_0_l. unfold trap. apply Rmult_le_compat_r; lra.
    - split; [apply P; lia|]. apply rsum_mono_n; [lia|intros; apply trap_pos; lia].
  Qed.
  Lemma cum_mono j k : (j <= k <= n)%nat -> 0 <= cum j <= cum k.
  Proof.
    intros [H1 H2]. induction H1.
    - split; [|lra]. destruct j; [apply (cum_inc 0); lia|]. pose proof (cum_inc j ltac:(lia)). lra.
    - pose proof (cum_inc m ltac:(lia)). specialize (IHle ltac:(lia)). lra.
  Qed.
  Definition theta := (INR n + 2) / 2 ^ 52.
  Definition delta := 2 ^ 42 * tiny.
  Lemma delta_low : tiny <= delta. Proof. unfold delta. pose proof tiny_pos. simpl. lra. Qed.
  Lemma theta_bounds : 3 / 2 ^ 52 <= theta <= / 2 ^ 11.
  Proof. unfold theta. pose proof (le_INR 1 n Hn) as N1. simpl (INR 1) in N1. simpl in *. lra. Qed.
  Lemma cum_err k : (k <= n)%nat -> Rabs (cum64 k - cum k) <= theta * cum k + delta.
  Proof.
    intros Hk. pose proof theta_bounds as Tb. pose proof delta_low as Dl. destruct k.
    - eapply Rle_trans; [apply first_err|]. assert (0 <= cum 0) by (apply (cum_inc 0); lia). assert (/ 2 ^ 51 * cum 0 <= theta * cum 0) by (apply Rmult_le_compat_r; [assumption|simpl in *; lra]). lra.
    - cbn [cum64 cum].
      pose proof (added_err trap64 trap tiny (seq 0 (S k)) (sums trap64 (S k)) (fun i => rd_dbl _) (sums_added trap64 k (fun i => rd_dbl _)) (Rlt_le _ _ tiny_pos)) as E. rewrite tot_seq, seq_length in E.
      pose proof (le_INR (S k) n Hk) as KN. eapply Rle_trans; [apply E; [|lra]|].
      + intros i Hi. apply in_seq in Hi. split; [apply trap_pos; lia|apply trap_err; lia].
      + assert (P : 0 <= rsum (S k) trap) by (apply (rsum_mono_n 0 (S k) trap); [lia|intros; apply trap_pos; lia]). apply Rplus_le_compat.
        * apply Rmult_le_compat_r; [exact P|]. unfold theta. simpl (2 ^ 51) in *. simpl (2 ^ 52) in *. lra.
        * unfold delta. apply Rmult_le_compat_r; [apply Rlt_le, tiny_pos|]. simpl (2 ^ 42). simpl (2 ^ 40) in HN. lra.
  Qed.

  (** *** Division by the total *)
  Hypothesis Hmass : / 2 ^ 500 <= cum n.
  Lemma mass_pos : 0 < cum n. Proof. eapply Rlt_le_trans; [|exact Hmass]. apply Rinv_0_lt_compat, pow_lt; lra. Qed.
  Lemma delta_small : 0 <= delta <= / 2 ^ 50 * cum n.
  Proof.
    unfold delta. pose proof tiny_pos. split; [apply Rmult_le_pos; [simpl; lra|lra]|]. apply Rle_trans with (/ 2 ^ 50 * / 2 ^ 500); [|apply Rmult_le_compat_l; [simpl; lra|exact Hmass]].
    rewrite <- Rinv_mult, <- pow_add, Rmult_comm. apply (tiny_mul 42 550). lia.
  Qed.
  Lemma total_near : 0 < cum64 n /\ Rabs (cum64 n - cum n) <= / 2 ^ 10 * cum n.
  Proof.
    pose proof (cum_err n ltac:(lia)) as E. pose proof theta_bounds as T. pose proof delta_small as D. pose proof mass_pos as M.
    assert (theta * cum n <= / 2 ^ 11 * cum n) by (apply Rmult_le_compat_r; lra). simpl in *. apply Rabs_le_inv in E. split; [lra|apply Rabs_le; lra].
  Qed.
  Definition table64 k := rd (cum64 k / cum64 n).
  Lemma quot_bounds k : (k <= n)%nat -> 0 <= cum64 k / cum64 n <= 1.
  Proof.
    intros Hk. destruct total_near as [P _]. pose proof (cum64_mono k n ltac:(lia)). split; [apply Rmult_le_pos; [lra|apply Rlt_le, Rinv_0_lt_compat, P]|].
    apply Rmult_le_reg_r with (cum64 n); [exact P|]. unfold Rdiv. rewrite Rmult_assoc, Rinv_l by lra. lra.
  Qed.
  Lemma table64_dbl k : dbl (table64 k). Proof. apply rd_dbl. Qed.
  Lemma table64_inc k : (k < n)%nat -> 0 <= table64 k <= table64 (S k).
  Proof.
    intros Hk. split; [apply rd_pos, quot_bounds; lia|]. apply rd_mono. destruct total_near as [P _]. apply Rmult_le_compat_r; [apply Rlt_le, Rinv_0_lt_compat, P|]. apply cum64_inc, Hk.
  Qed.
  Lemma table64_last : table64 n = 1.
  Proof. unfold table64, Rdiv. destruct total_near as [P _]. rewrite Rinv_r by lra. apply (rd_IZR 1). lia. Qed.
  Lemma table64_high k : (k <= n)%nat -> 0 <= table64 k <= 1.
  Proof. intros Hk. split; [apply rd_pos, quot_bounds, Hk|]. rewrite <- table64_last. unfold table64. apply rd_mono. destruct total_near as [P _]. apply Rmult_le_compat_r; [apply Rlt_le, Rinv_0_lt_compat, P|]. apply cum64_mono. lia. Qed.
  Lemma table64_err k : (k <= n)%nat -> Rabs (table64 k - cum k / cum n) <= (501 / 500 * (INR n + 2) + 5) / 2 ^ 51.
  Proof.
    intros Hk. pose proof theta_bounds as T. destruct (ratio_near (cum k) (cum64 k) (cum n) (cum64 n) theta delta (cum_mono k n ltac:(lia)) mass_pos) as [P R].
    { simpl in *; lra. } { apply delta_small. } { apply cum_err, Hk. } { apply cum_err. lia. }
    unfold table64. pose proof (rd_err (cum64 k / cum64 n)) as E. rewrite u53v in E. fold tiny in E. pose proof (quot_bounds k Hk) as Q. rewrite (Rabs_pos_eq (cum64 k / cum64 n)) in E by lra.
    pose proof (tiny_le 60 ltac:(lia)) as Ti. apply Rabs_le_inv in E, R. unfold theta in *. apply Rabs_le. simpl (2 ^ 49) in *. simpl (2 ^ 51) in *. simpl (2 ^ 52) in *. simpl (2 ^ 53) in *. simpl (2 ^ 60) in *. lra.
  Qed.

  (** *** The stored values *)
  Definition stored64 i := rd (y i / cum64 n).
  Lemma stored64_pos i : (i <= n)%nat -> 0 <= stored64 i.
  Proof. intros Hi. destruct total_near as [P _]. apply rd_pos, Rmult_le_pos; [apply Hy, Hi|apply Rlt_le, Rinv_0_lt_compat, P]. Qed.
  Lemma stored64_err i : (i <= n)%nat -> Rabs (stored64 i - y i / cum64 n) <= / 2 ^ 53 * (y i / cum64 n) + tiny.
  Proof.
    intros Hi. destruct total_near as [P _]. unfold stored64. pose proof (rd_err (y i / cum64 n)) as E. rewrite u53v in E. fold tiny in E.
    rewrite (Rabs_pos_eq (y i / cum64 n)) in E; [exact E|]. apply Rmult_le_pos; [apply Hy, Hi|apply Rlt_le, Rinv_0_lt_compat, P].
  Qed.

  Hypothesis Htot : X n - X 0%nat <= 2 ^ 202.
  Lemma reach k : (k <= n)%nat -> 0 <= rsum k width <= 2 ^ 202.
  Proof.
    intros Hk. assert (E : forall m, rsum m width = X m - X 0%nat) by (intros m; apply rsum_tele). split; [apply (rsum_mono_n 0 k width); [lia|intros i Hi; pose proof (width_low i ltac:(lia)); lra]|].
    eapply Rle_trans; [apply (rsum_mono_n k n width Hk); intros i Hi; pose proof (width_low i Hi); lra|]. rewrite E. exact Htot.
  Qed.
End Trapezoids.

Section Again.
  Variables (n : nat) (y X : nat -> R).
  Hypothesis Hn : (1 <= n)%nat.
  Hypothesis HN : INR n <= 2 ^ 40.
  Hypothesis DX : forall i, (i <= n)%nat -> dbl (X i).
  Hypothesis HX : forall i, (i < n)%nat -> / 2 ^ 1000 <= X (S i) - X i.
  Hypothesis Dy : forall i, (i <= n)%nat -> dbl (y i).
  Hypothesis Hy : forall i, (i <= n)%nat -> 0 <= y i.
  Hypothesis Hy0 : y 0%nat = 0 \/ / 2 ^ 1020 <= y 0%nat.
  Hypothesis Hmass : / 2 ^ 500 <= cum y X n.
  Hypothesis Htot : X n - X 0%nat <= 2 ^ 202.
  Let s := cum64 y X n.
  Let z i := stored64 n y X i.
  Lemma s_total : 0 < s /\ Rabs (s - cum y X n) <= / 2 ^ 10 * cum y X n.
  Proof. apply total_near; assumption. Qed.
  Lemma share_total : Rabs (cum y X n / s - 1) <= (theta n + / 2 ^ 50) * (501 / 500).
  Proof.
    destruct s_total as [P E]. assert (C : Rabs (s - cum y X n) <= theta n * cum y X n + delta) by (apply cum_err; try assumption; lia). assert (D : 0 <= delta <= / 2 ^ 50 * cum y X n) by (apply delta_small; assumption). assert (M : 0 < cum y X n) by (apply mass_pos; assumption). pose proof (theta_bounds n Hn HN) as T.
    replace (cum y X n / s - 1) with (- (s - cum y X n) / s) by (field; lra). unfold Rdiv. rewrite Rabs_mult, Rabs_Ropp, (Rabs_pos_eq (/ s)) by (apply Rlt_le, Rinv_0_lt_compat, P).
    apply Rmult_le_reg_r with s; [exact P|]. rewrite Rmult_assoc, Rinv_l, Rmult_1_r by lra. eapply Rle_trans; [exact C|]. apply Rle_trans with ((theta n + / 2 ^ 50) * cum y X n); [lra|].
    rewrite (Rmult_assoc _ (501 * / 500) s). apply Rmult_le_compat_l; [simpl in *; lra|]. apply Rabs_le_inv in E. simpl in E. lra.
  Qed.
  Lemma cum_scaled k : (k <= n)%nat -> Rabs (cum z X k - cum y X k / s) <= / 2 ^ 53 * (cum y X k / s) + tiny * 2 ^ 202.
  Proof.
    intros Hk. destruct s_total as [P _]. pose proof tiny_pos as Tp. assert (Z : forall i, (i <= n)%nat -> Rabs (z i - y i / s) <= / 2 ^ 53 * (y i / s) + tiny) by (intros i Hi; apply stored64_err; assumption).
    destruct k.
    - cbn [cum]. pose proof (Z 0%nat ltac:(lia)) as Z0. pose proof (width_low n X HX 0 ltac:(lia)) as W. assert (R1 : rsum 1 (width X) <= 2 ^ 202) by (apply (reach n X); assumption). cbn [rsum] in R1.
      replace (z 0%nat / 2 * width X 0 - y 0%nat / 2 * width X 0 / s) with ((z 0%nat - y 0%nat / s) * (width X 0 / 2)) by (field; lra). rewrite Rabs_mult, (Rabs_pos_eq (width X 0 / 2)) by lra.
      apply Rle_trans with ((/ 2 ^ 53 * (y 0%nat / s) + tiny) * (width X 0 / 2)); [apply Rmult_le_compat_r; lra|]. rewrite Rmult_plus_distr_r. apply Rplus_le_compat; [right; field; repeat split; first [lra|apply pow_nonzero; lra]|]. apply Rmult_le_compat_l; lra.
    - set (k' := S k) in *. cbn [cum]. change (cum y X k') with (rsum k' (trap y X)). change (cum z X k') with (rsum k' (trap z X)).
      assert (E : Rabs (rsum k' (trap z X) - rsum k' (fun i => / s * trap y X i + 0 * 0)) <= rsum k' (fun i => (/ 2 ^ 53 * / s) * trap y X i + tiny * width X i)).
      { apply rsum_sub_abs. intros i Hi. unfold trap. pose proof (Z i ltac:(lia)) as Zi. pose proof (Z (S i) ltac:(lia)) as Zj. pose proof (width_low n X HX i ltac:(lia)) as W.
        replace ((z i + z (S i)) / 2 * width X i - (/ s * ((y i + y (S i)) / 2 * width X i) + 0 * 0)) with (((z i - y i / s) + (z (S i) - y (S i) / s)) * (width X i / 2)) by (field; lra).
        rewrite Rabs_mult, (Rabs_pos_eq (width X i / 2)) by lra. pose proof (Rabs_triang (z i - y i / s) (z (S i) - y (S i) / s)) as Tr.
        apply Rle_trans with (((/ 2 ^ 53 * (y i / s) + tiny) + (/ 2 ^ 53 * (y (S i) / s) + tiny)) * (width X i / 2)); [apply Rmult_le_compat_r; lra|]. right. field; repeat split; first [lra|apply pow_nonzero; lra]. }
      rewrite (rsum_lin k' (trap y X) (fun _ => 0)), (rsum_lin k' (trap y X) (width X)) in E. assert (R : 0 <= rsum k' (width X) <= 2 ^ 202) by (apply (reach n X); assumption).
      replace (/ s * rsum k' (trap y X) + 0 * rsum k' (fun _ => 0)) with (rsum k' (trap y X) / s) in E by (unfold Rdiv; ring).
      replace (/ 2 ^ 53 * / s * rsum k' (trap y X)) with (/ 2 ^ 53 * (rsum k' (trap y X) / s)) in E by (unfold Rdiv; ring).
      assert (tiny * rsum k' (width X) <= tiny * 2 ^ 202) by (apply Rmult_le_compat_l; lra). lra.
  Qed.
  Lemma tiny_202 : 0 <= tiny * 2 ^ 202 <= / 2 ^ 60.
  Proof. split; [apply Rmult_le_pos; [apply Rlt_le, tiny_pos|apply pow_le; lra]|]. apply (tiny_mul 202 60). lia. Qed.
  Lemma scaled_bounds : 99 / 100 <= cum y X n / s <= 101 / 100.
  Proof. pose proof share_total as E. pose proof (theta_bounds n Hn HN) as T. apply Rabs_le_inv in E. simpl in *. lra. Qed.
  (** the area of the stored values *)
  Lemma stored_area : Rabs (cum z X n - 1) <= (INR n + 3) / 2 ^ 51.
  Proof.
    pose proof (cum_scaled n (le_n n)) as E. pose proof share_total as F. pose proof scaled_bounds as B. pose proof tiny_202 as T. pose proof (le_INR 1 n Hn) as N1. simpl (INR 1) in N1.
    apply Rabs_le_inv in E, F. unfold theta in *. apply Rabs_le. simpl (2 ^ 50) in *. simpl (2 ^ 51) in *. simpl (2 ^ 52) in *. simpl (2 ^ 53) in *. simpl (2 ^ 60) in *. lra.
  Qed.
  Lemma stored_mass : / 2 ^ 500 <= cum z X n.
  Proof.
    pose proof stored_area as E. apply Rabs_le_inv in E. apply Rle_trans with (/ 2 ^ 1); [apply Rinv_le_contravar; [apply pow_lt; lra|apply Rle_pow; [lra|lia]]|]. simpl (2 ^ 40) in HN. simpl (2 ^ 51) in E. simpl (2 ^ 1). lra.
  Qed.
  (** the shares of the stored values are those of the given ones *)
  Lemma stored_shares k : (k <= n)%nat -> Rabs (cum z X k / cum z X n - cum y X k / cum y X n) <= 5 / 2 ^ 51.
  Proof.
    intros Hk. destruct s_total as [P _]. assert (M : 0 < cum y X n) by (apply mass_pos; assumption). assert (C : 0 <= cum y X k <= cum y X n) by (apply (cum_mono n y X); try assumption; lia). pose proof scaled_bounds as B. pose proof tiny_202 as T.
    destruct (ratio_near (cum y X k / s) (cum z X k) (cum y X n / s) (cum z X n) (/ 2 ^ 53) (tiny * 2 ^ 202)) as [_ R].
    { split; [apply Rmult_le_pos; [lra|apply Rlt_le, Rinv_0_lt_compat, P]|apply Rmult_le_compat_r; [apply Rlt_le, Rinv_0_lt_compat, P|lra]]. }
    { lra. } { simpl; lra. } { simpl in *; lra. } { apply cum_scaled, Hk. } { apply cum_scaled, le_n. }
    replace (cum y X k / s / (cum y X n / s)) with (cum y X k / cum y X n) in R by (field; split; lra). eapply Rle_trans; [exact R|]. simpl. lra.
  Qed.
  Lemma stored_first : cum y X n <= 2 ^ 402 -> y 0%nat = 0 \/ / 2 ^ 500 <= y 0%nat -> z 0%nat = 0 \/ / 2 ^ 1020 <= z 0%nat.
  Proof.
    intros Hb [H|H]; [left; unfold z, stored64; rewrite H; unfold Rdiv; rewrite Rmult_0_l; apply rd_0|right].
    destruct s_total as [P E]. apply Rabs_le_inv in E. assert (S4 : s <= 2 ^ 403) by (rewrite (tech_pow_Rmult 2 402) || (change (2 ^ 403) with (2 * 2 ^ 402)); simpl (2 ^ 10) in E; assert (M : 0 < cum y X n) by (apply mass_pos; assumption); lra).
    rewrite pow_bpow, <- bpow_opp, <- (rd_id (bpow radix2 _)) by (apply dbl_bpow; simpl; lia). apply rd_mono. fold s. rewrite bpow_opp, <- pow_bpow.
    apply Rle_trans with (/ 2 ^ 500 * / 2 ^ 403); [rewrite <- Rinv_mult, <- pow_add; apply Rinv_le_contravar; [apply pow_lt; lra|apply Rle_pow; [lra|lia]]|].
    apply Rmult_le_compat; [apply Rlt_le, Rinv_0_lt_compat, pow_lt; lra|apply Rlt_le, Rinv_0_lt_compat, pow_lt; lra|exact H|]. apply Rinv_le_contravar; [exact P|exact S4].
  Qed.
End Again.
