(** The number of points of the metrics' grids (metrics.py 40) in double precision. *)
From Coq Require Import List Arith ZArith Bool Sorted Lia Reals Lra Psatz Floats.SpecFloat.
From Flocq Require Import Core.Zaux Core.Raux.
From Verif Require Import Num NumProofs Py NdArray NumpyLib Utils ScipyWrap Ensemble Metrics Float FloatProofs FloatHist FloatMachine FloatTheorems FloatExamples.
Import ListNotations.
Local Open Scope R_scope.

(** ** Specification *)
(** A call of [_calculate_grid_parameters((lo, hi), dx)] that gives a grid of [n] points. *)
Definition has_points (lo hi dx : spec_float) (n : nat) : Prop := exists g, grid_parameters (N := SFNum) lo hi dx = Ok g /\ mg_card g = n.
(** The quotient of the numbers stored, not rounded. *)
Definition steps (lo hi dx : spec_float) : R := (val64 hi - val64 lo) / val64 dx.

Lemma trunc64 x : fin64 x -> 0 <= val64 x -> int_trunc (N := SFNum) x = Int_part (val64 x).
Proof.
  intros Hx Hp. unfold int_trunc. cbn [nleb n0 SFNum nfloor]. rewrite (leb64 _ _ fin64_0 Hx), val64_0.
  assert (E : Rleb 0 (val64 x) = true) by (apply Rleb_true, Hp). rewrite E. apply floor64, Hx.
Qed.
Lemma points_are lo hi dx : double lo -> double hi -> double dx -> 0 < val64 dx -> 0 <= steps lo hi dx <= 2 ^ 60 ->
  exists q, Rabs (q - steps lo hi dx) <= eps51 * steps lo hi dx + / 2 ^ 60 /\ forall n, (2 <= n)%nat -> Int_part q = Z.of_nat n -> has_points lo hi dx n.
Proof.
  intros Hl Hh Hd Hp Hs. unfold steps in *. apply double_moderate in Hl, Hh, Hd.
  destruct (mod_sub 1000 hi lo ltac:(lia) Hh Hl) as [M V].
  pose proof (quotient_err (val64 hi) (val64 lo) (val64 dx) (dbl64 _ (proj1 Hh)) (dbl64 _ (proj1 Hl)) Hp) as Q.
  rewrite (Rabs_pos_eq ((val64 hi - val64 lo) / val64 dx)) in Q by lra.
  exists (rd (rd (val64 hi - val64 lo) / val64 dx)). split; [exact Q|]. intros n Hn E.
  assert (B : Rabs (rd (rd (val64 hi - val64 lo) / val64 dx)) <= bpow radix2 100).
  { change 100%Z with (Z.of_nat 100). rewrite <- pow_bpow. unfold eps51 in Q. apply Rabs_le_inv in Q. set (s := (val64 hi - val64 lo) / val64 dx) in *. apply Rabs_le. replace (2 ^ 100) with (2 ^ 60 * 2 ^ 40) by (rewrite <- pow_add; reflexivity). lra. }
  destruct (div64 _ _ (proj1 M) (proj1 Hd)) as [F W]; [lra|rewrite V; apply (small_le 100); [lia|exact B]|]. rewrite V in W.
  assert (P0 : 0 <= val64 (SFdiv 53 1024 (SFsub 53 1024 hi lo) dx)).
  { rewrite W. apply rd_pos. destruct Hs as [Hs _]. apply Rmult_le_pos; [|apply Rlt_le, Rinv_0_lt_compat, Hp]. apply rd_pos. apply Rmult_le_compat_r with (r := val64 dx) in Hs; [|lra]. replace ((val64 hi - val64 lo) / val64 dx * val64 dx) with (val64 hi - val64 lo) in Hs by (field; lra). lra. }
  unfold has_points, grid_parameters. cbn [ndiv nsub SFNum].
  assert (Z0 : neqb (N := SFNum) dx (n0 (Num := SFNum)) = false).
  { unfold neqb. cbn [nleb n0 SFNum]. rewrite (leb64 _ _ (proj1 Hd) fin64_0), val64_0. apply andb_false_iff. left. destruct (Rleb (val64 dx) 0) eqn:L; [|reflexivity]. apply Rleb_true in L. lra. }
  rewrite Z0, (trunc64 _ F P0), W, E. cbv zeta.
  destruct (Z.ltb_spec (Z.of_nat n) 0); [lia|]. destruct (Z.eqb_spec (Z.of_nat n) 1); [lia|]. destruct (Z.eqb_spec (Z.of_nat n) 0); [lia|].
  eexists. split; [reflexivity|]. cbn [mg_card]. apply Nat2Z.id.
Qed.

Lemma c131_points lo hi dx n : double lo -> double hi -> double dx -> 0 < val64 dx -> (2 <= n)%nat ->
  INR n + INR (n + 1) / 2 ^ 50 <= steps lo hi dx <= INR (n + 1) - INR (n + 1) / 2 ^ 50 -> has_points lo hi dx n.
Proof.
  intros Hl Hh Hd Hp Hn Hs. rewrite plus_INR in Hs. simpl (INR 1) in Hs. pose proof (pos_INR n).
  assert (Hb : INR n + 1 <= 2 ^ 49) by lra.
  destruct (points_are lo hi dx Hl Hh Hd Hp) as (q & Hq & P). { split; [lra|]. replace (2 ^ 60) with (2 ^ 49 * 2 ^ 11) by (rewrite <- pow_add; reflexivity). lra. }
  apply P; [exact Hn|]. apply Int_part_is. rewrite <- INR_IZR_INZ. unfold eps51 in Hq. apply Rabs_le_inv in Hq. lra.
Qed.
Lemma c131_near lo hi dx n : double lo -> double hi -> double dx -> 0 < val64 dx -> (3 <= n)%nat -> INR n <= 2 ^ 49 ->
  Rabs (steps lo hi dx - INR n) <= INR (n + 1) / 2 ^ 50 -> has_points lo hi dx n \/ has_points lo hi dx (n - 1).
Proof.
  intros Hl Hh Hd Hp Hn Hb Hs. rewrite plus_INR in Hs. simpl (INR 1) in Hs. pose proof (pos_INR n). apply Rabs_le_inv in Hs.
  assert (H3 : 3 <= INR n) by (replace 3 with (INR 3) by (simpl; lra); apply le_INR, Hn).
  destruct (points_are lo hi dx Hl Hh Hd Hp) as (q & Hq & P). { split; [lra|]. replace (2 ^ 60) with (2 ^ 49 * 2 ^ 11) by (rewrite <- pow_add; reflexivity). lra. }
  unfold eps51 in Hq. apply Rabs_le_inv in Hq. destruct (Rle_dec (INR n) q) as [L|L]; [left|right]; (apply P; [lia|]); apply Int_part_is; rewrite <- INR_IZR_INZ.
  - lra.
  - rewrite minus_INR by lia. simpl (INR 1). lra.
Qed.

(** ** Defaults and decimal numbers *)
Definition d0 : spec_float := S754_zero false.                   (* 0.0 *)
Definition d3 : spec_float := f64 6755399441055744 (-51).        (* 3.0 *)
Definition d001 : spec_float := f64 5764607523034235 (-59).      (* 0.01 *)
Definition d01 : spec_float := f64 7205759403792794 (-56).       (* 0.1 *)
Definition d03 : spec_float := f64 5404319552844595 (-54).       (* 0.3 *)
(** [x] is the double nearest to the number [r] written in the program. *)
Definition literal (x : spec_float) (r : R) : Prop := double x /\ val64 x = rd r.

Lemma literal_frac x p q : (Z.abs p <= 2 ^ 53)%Z -> (1 <= q <= 2 ^ 53)%Z -> Rabs (IZR p / IZR q) <= 4 ->
  SFdiv 53 1024 (nofZ (Num := SFNum) p) (nofZ (Num := SFNum) q) = x -> literal x (IZR p / IZR q).
Proof.
  intros Hp Hq Hb <-. cbn [nofZ SFNum].
  assert (B53 : forall z, (Z.abs z <= 2 ^ 53)%Z -> small (rd (IZR z))).
  { intros z Hz. rewrite (rd_IZR z Hz). apply (small_le 53); [lia|]. rewrite <- abs_IZR. change (bpow radix2 53) with (IZR (2 ^ 53)). apply IZR_le, Hz. }
  destruct (ofZ64 p (B53 p Hp)) as [F1 V1]. destruct (ofZ64 q (B53 q ltac:(lia))) as [F2 V2]. rewrite (rd_IZR p Hp) in V1. rewrite (rd_IZR q ltac:(lia)) in V2.
  assert (B : Rabs (rd (IZR p / IZR q)) <= bpow radix2 2) by (apply rd_le_bpow; [lia|simpl; lra]).
  destruct (div64 _ _ F1 F2) as [F V]; [rewrite V2; apply not_0_IZR; lia|rewrite V1, V2; apply (small_le 2); [lia|exact B]|].
  rewrite V1, V2 in V. split; [|exact V]. split.
  - destruct F as [F G]. destruct (SFdiv _ _ _ _); try discriminate G; [exact I|exact F].
  - rewrite V. eapply Rle_trans; [exact B|]. change (bpow radix2 2) with (bpow radix2 (Z.of_nat 2)). rewrite <- pow_bpow. apply Rle_pow; [lra|lia].
Qed.
Lemma lit0 : literal d0 0. Proof. split; [split; [exact I|change (val64 d0) with 0; rewrite Rabs_R0; apply pow_le; lra]|symmetry; apply rd_0]. Qed.
Lemma lit3 : literal d3 3. Proof. replace 3 with (3 / 1) by lra. apply (literal_frac d3 3 1); [lia|lia|rewrite Rabs_pos_eq; lra|vm_compute; reflexivity]. Qed.
Lemma lit001 : literal d001 (1 / 100). Proof. apply (literal_frac d001 1 100); [lia|lia|rewrite Rabs_pos_eq; lra|vm_compute; reflexivity]. Qed.
Lemma lit01 : literal d01 (1 / 10). Proof. apply (literal_frac d01 1 10); [lia|lia|rewrite Rabs_pos_eq; lra|vm_compute; reflexivity]. Qed.
Lemma lit03 : literal d03 (3 / 10). Proof. apply (literal_frac d03 3 10); [lia|lia|rewrite Rabs_pos_eq; lra|vm_compute; reflexivity]. Qed.

Lemma steps_f64 m e k d : steps d0 (f64 m e) (f64 k d) = (IZR (Z.pos m) * bpow radix2 e) / (IZR (Z.pos k) * bpow radix2 d).
Proof. unfold steps. change (val64 d0) with 0. rewrite !val_f64, Rminus_0_r. reflexivity. Qed.
(** the default limits (0, 3) and step 0.01: 300 points although the exact quotient is below 300 *)
Definition card_only (lo hi dx : spec_float) : Z := int_trunc (N := SFNum) (ndiv (Num := SFNum) (nsub (Num := SFNum) hi lo) dx).
Lemma card_only_ok lo hi dx n : (2 <= n)%nat -> neqb (N := SFNum) dx (n0 (Num := SFNum)) = false -> card_only lo hi dx = Z.of_nat n -> has_points lo hi dx n.
Proof.
  intros Hn Z0 E. unfold has_points, grid_parameters. rewrite Z0. fold (card_only lo hi dx). rewrite E.
  destruct (Z.ltb_spec (Z.of_nat n) 0); [lia|]. destruct (Z.eqb_spec (Z.of_nat n) 1); [lia|]. destruct (Z.eqb_spec (Z.of_nat n) 0); [lia|].
  eexists. split; [reflexivity|]. cbn [mg_card]. apply Nat2Z.id.
Qed.
Lemma c131_default : literal d0 0 /\ literal d3 3 /\ literal d001 (1 / 100) /\ steps d0 d3 d001 < 300 /\ has_points d0 d3 d001 300.
Proof.
  split; [apply lit0|]. split; [apply lit3|]. split; [apply lit001|]. split.
  - unfold d3, d001. rewrite steps_f64. simpl bpow. apply Rmult_lt_reg_r with (5764607523034235 * / 576460752303423488); [lra|]. unfold Rdiv. rewrite Rmult_assoc, Rinv_l by lra. lra.
  - apply card_only_ok; [lia|vm_compute; reflexivity|vm_compute; reflexivity].
Qed.
(** the limits (0, 0.3) and step 0.1: 2 points and not 3 *)
Lemma c131_short : literal d0 0 /\ literal d03 (3 / 10) /\ literal d01 (1 / 10) /\ (3 / 10 - 0) / (1 / 10) = INR 3 /\ has_points d0 d03 d01 2.
Proof.
  split; [apply lit0|]. split; [apply lit03|]. split; [apply lit01|]. split; [simpl; lra|].
  apply card_only_ok; [lia|vm_compute; reflexivity|vm_compute; reflexivity].
Qed.
Example c131_example : double d0 /\ double d3 /\ double d01 /\ 0 < val64 d01 /\ INR 29 + INR 30 / 2 ^ 50 <= steps d0 (f64 6650000000000000 (-51)) d01 <= INR 30 - INR 30 / 2 ^ 50.
Proof.
  split; [apply lit0|]. split; [apply lit3|]. split; [apply lit01|]. split; [unfold d01; rewrite val_f64; simpl; lra|].
  unfold d01. rewrite steps_f64, !INR_IZR_INZ. simpl bpow. cbn [Z.of_nat Pos.of_succ_nat Pos.succ]. lra.
Qed.
