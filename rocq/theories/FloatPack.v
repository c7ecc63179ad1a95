(** Linear packing into bytes (packing_utils.py 12-50) in double precision. *)
From Coq Require Import List Arith ZArith Bool Sorted Lia Reals Lra Psatz Floats.SpecFloat.
From Flocq Require Import Core.Zaux Core.Raux.
From Verif Require Import Num NumProofs Py NdArray NumpyLib Packing Float FloatProofs FloatHist FloatMachine FloatTheorems FloatExamples.
Import ListNotations.
Local Open Scope R_scope.

(** ** Specification *)
(** Non-negative doubles; the largest is not below 2^-1000. *)
Definition packable64 (row : list spec_float) : Prop :=
  (forall x, In x row -> double x /\ 0 <= val64 x) /\ exists x, In x row /\ / 2 ^ 1000 <= val64 x.
(** the largest entry *)
Definition greatest (M : R) (row : list spec_float) : Prop := In M (map val64 row) /\ forall x, In x row -> val64 x <= M.
Definition cell (rows : list (list spec_float)) (r i : nat) : R := val64 (nth i (nth r rows []) zero64).
Definition code (packed : list (list Z)) (r i : nat) : Z := nth i (nth r packed []) 0%Z.

(** ** Rounding to an integer *)
Lemma round_near_d q : 0 <= q <= 1000 -> Rabs (IZR (nround (N := DNum) q) - q) <= / 2 + / 2 ^ 49.
Proof.
  intros Hq. unfold nround. cbn [nfloor nsub nofZ DNum]. destruct (base_Int_part q) as [I1 I2]. set (f := Int_part q) in *.
  assert (Hf : (-1 <= f <= 1000)%Z) by (split; [apply Z.lt_succ_r; apply lt_IZR; rewrite succ_IZR|apply le_IZR]; lra).
  rewrite (rd_IZR f) by lia. set (t := q - IZR f) in *. assert (Ht : 0 <= t <= 1) by (unfold t; lra).
  assert (Hh : nhalf (N := DNum) = / 2).
  { unfold nhalf, nfrac. cbn [ndiv nofZ DNum]. rewrite (rd_IZR 1), (rd_IZR 2) by lia. replace (1 / 2) with (bpow radix2 (-1)) by (simpl; lra). rewrite rd_id by (apply dbl_bpow; lia). simpl. lra. }
  rewrite Hh. pose proof (rd_up t (proj1 Ht)) as U. pose proof (rd_down t (proj1 Ht)) as D. unfold nltb. cbn [nleb DNum].
  destruct (Rleb (/ 2) (rd t)) eqn:E1; cbn [negb].
  - apply Rleb_true in E1. assert (T1 : / 2 - / 2 ^ 49 <= t) by lra.
    destruct (Rleb (rd t) (/ 2)) eqn:E2; cbn [negb].
    + apply Rleb_true in E2. destruct (Z.even f); [|rewrite plus_IZR]; apply Rabs_le; unfold t in *; lra.
    + rewrite plus_IZR. apply Rabs_le; unfold t in *; lra.
  - assert (rd t < / 2) by (apply Rnot_le_lt; intros H; apply Rleb_true in H; congruence). apply Rabs_le; unfold t in *; lra.
Qed.
Lemma round64 x : fin64 x -> 0 <= val64 x <= 1000 -> nround (N := SFNum) x = nround (N := DNum) (val64 x).
Proof.
  intros Hx Hb. unfold nround. change (nfloor x) with (sf_floor x). rewrite (floor64 x Hx). change (nfloor (Num := DNum) (val64 x)) with (Int_part (val64 x)).
  set (f := Int_part (val64 x)) in *. destruct (base_Int_part (val64 x)) as [I1 I2]. fold f in I1, I2.
  assert (Hf : (-1 <= f <= 1000)%Z) by (split; [apply Z.lt_succ_r; apply lt_IZR; rewrite succ_IZR|apply le_IZR]; lra).
  assert (Sf : small (rd (IZR f))).
  { rewrite (rd_IZR f) by lia. apply (small_le 10); [lia|]. rewrite <- abs_IZR. change (bpow radix2 10) with (IZR 1024). apply IZR_le. lia. }
  destruct (ofZ64 f Sf) as [F V]. rewrite (rd_IZR f) in V by lia.
  assert (Mx : moderate 10 x) by (split; [exact Hx|rewrite Rabs_pos_eq by lra; simpl; lra]).
  assert (Mf : moderate 10 (SpecFloat.binary_normalize 53 1024 f 0 false)) by (split; [exact F|rewrite V, <- abs_IZR; change (bpow radix2 10) with (IZR 1024); apply IZR_le; lia]).
  destruct (mod_sub 10 _ _ ltac:(lia) Mx Mf) as [M W]. rewrite V in W.
  destruct (frac64 2 ltac:(lia)) as [Mh Vh]. unfold nltb, nhalf. cbn [nleb nsub nofZ SFNum]. rewrite !(leb64 _ _ (proj1 Mh) (proj1 M)), !(leb64 _ _ (proj1 M) (proj1 Mh)), W, Vh.
  cbn [nleb nsub nofZ DNum nfrac ndiv]. unfold nfrac. cbn [ndiv nofZ DNum]. rewrite (rd_IZR f) by lia. reflexivity.
Qed.

(** ** One entry *)
Lemma pow1000 : bpow radix2 (-1000) = / 2 ^ 1000.
Proof. rewrite pow_bpow. change (-1000)%Z with (- Z.of_nat 1000)%Z. apply bpow_opp. Qed.
Lemma tiny_over m : / 2 ^ 1000 <= m -> bpow radix2 (-1075) <= m / 2 ^ 75.
Proof.
  intros H. replace (bpow radix2 (-1075)) with (bpow radix2 (-1000) * bpow radix2 (-75)) by (rewrite <- bpow_plus; reflexivity).
  rewrite pow1000. replace (bpow radix2 (-75)) with (/ 2 ^ 75) by (rewrite pow_bpow; symmetry; apply (bpow_opp radix2 75)).
  unfold Rdiv. apply Rmult_le_compat_r; [|exact H]. apply Rlt_le, Rinv_0_lt_compat, pow_lt. lra.
Qed.
Lemma quot_near m x : / 2 ^ 1000 <= m -> 0 <= x <= m -> let q := rd (rd (255 * x) / m) in Rabs (q - 255 * x / m) <= / 2 ^ 41 /\ 0 <= q <= 256.
Proof.
  intros Hm Hx q. assert (Hm0 : 0 < m) by (eapply Rlt_le_trans; [|exact Hm]; apply Rinv_0_lt_compat, pow_lt; lra).
  set (z := 255 * x / m). assert (Ez : 255 * x = z * m) by (unfold z; field; lra).
  assert (Hz : 0 <= z <= 255).
  { split; [apply Rmult_le_reg_r with m; lra|]. apply Rmult_le_reg_r with m; [exact Hm0|]. rewrite <- Ez. apply Rmult_le_compat_l; lra. }
  pose proof (rd_err (255 * x)) as E. rewrite (Rabs_pos_eq (255 * x)) in E by lra. pose proof (tiny_over m Hm) as T. pose proof u53_small as [U0 U1].
  set (p := rd (255 * x) / m). assert (Ep : rd (255 * x) = p * m) by (unfold p; field; lra).
  assert (H1 : Rabs (p - z) <= / 2 ^ 50 * 255 + / 2 ^ 75).
  { apply Rmult_le_reg_r with m; [exact Hm0|]. rewrite <- (Rabs_pos_eq m) at 1 by lra. rewrite <- Rabs_mult. replace ((p - z) * m) with (rd (255 * x) - 255 * x) by (rewrite Ep, Ez; ring).
    eapply Rle_trans; [exact E|]. assert (u53 * (255 * x) <= / 2 ^ 50 * (255 * m)) by (apply Rmult_le_compat; lra). lra. }
  assert (Hp : 0 <= p <= 256).
  { split; [|apply Rabs_le_inv in H1; lra]. apply Rmult_le_reg_r with m; [exact Hm0|]. rewrite <- Ep, Rmult_0_l. apply rd_pos. lra. }
  pose proof (rd_up p (proj1 Hp)) as A. pose proof (rd_down p (proj1 Hp)) as B. fold p. fold p in q. unfold q. apply Rabs_le_inv in H1.
  assert (C : rd p <= 256) by (rewrite <- (rd_IZR 256) by lia; apply rd_mono; lra).
  split; [apply Rabs_le; lra|]. split; [apply rd_pos; lra|exact C].
Qed.
Lemma code_d m x : / 2 ^ 1000 <= m -> 0 <= x <= m ->
  let k := nround (N := DNum) (rd (rd (255 * x) / m)) in (0 <= k <= 255)%Z /\ Rabs (IZR k - 255 * x / m) <= / 2 + / 2 ^ 40.
Proof.
  intros Hm Hx k. destruct (quot_near m x Hm Hx) as [Hq Hb]. set (q := rd (rd (255 * x) / m)) in *. 
  pose proof (round_near_d q ltac:(lra)) as R. fold k in R. apply Rabs_le_inv in R, Hq.
  assert (Hm0 : 0 < m) by (eapply Rlt_le_trans; [|exact Hm]; apply Rinv_0_lt_compat, pow_lt; lra).
  assert (Hz : 0 <= 255 * x / m <= 255).
  { set (z := 255 * x / m). assert (Ez : 255 * x = z * m) by (unfold z; field; lra). split; apply Rmult_le_reg_r with m; try exact Hm0; rewrite <- Ez; [lra|apply Rmult_le_compat_l; lra]. }
  split; [|apply Rabs_le; lra]. split; apply Z.lt_succ_r, lt_IZR; rewrite succ_IZR; lra.
Qed.
Lemma value_d m k : / 2 ^ 1000 <= m -> (0 <= k <= 255)%Z -> Rabs (rd (rd (m * IZR k) / 255) - m * IZR k / 255) <= m / 2 ^ 49.
Proof.
  intros Hm Hk. assert (Hm0 : 0 < m) by (eapply Rlt_le_trans; [|exact Hm]; apply Rinv_0_lt_compat, pow_lt; lra).
  assert (Hk' : 0 <= IZR k <= 255) by (split; apply IZR_le; lia).
  pose proof (tiny_over m Hm) as T. pose proof u53_small as [U0 U1]. set (a := m * IZR k). assert (Ha : 0 <= a <= 255 * m) by (unfold a; split; nra).
  pose proof (rd_err a) as E. rewrite (Rabs_pos_eq a) in E by lra. set (b := rd a) in *.
  assert (Hb : 0 <= b) by (apply rd_pos; lra).
  pose proof (rd_err (b / 255)) as F. rewrite (Rabs_pos_eq (b / 255)) in F by lra.
  apply Rabs_le_inv in E, F. assert (Hu : u53 = / 2 ^ 53) by (unfold u53; simpl; f_equal; lra). rewrite Hu in *. apply Rabs_le. lra.
Qed.

(** ** The machine's operations *)
Lemma code64 m x : double m -> double x -> / 2 ^ 1000 <= val64 m -> 0 <= val64 x <= val64 m ->
  linear_code (N := SFNum) m x = u8 (nround (N := DNum) (rd (rd (255 * val64 x) / val64 m))).
Proof.
  intros Dm Dx Hm Hx. apply double_moderate in Dm, Dx. unfold linear_code. cbn [nmul ndiv nofZ SFNum].
  assert (R255 : rd 255 = 255) by (apply (rd_IZR 255); lia).
  destruct (ofZ64 255) as [F V]; [rewrite R255; apply (small_le 8); [lia|rewrite Rabs_pos_eq; simpl; lra]|]. rewrite R255 in V.
  assert (M : moderate 8 (SpecFloat.binary_normalize 53 1024 255 0 false)) by (split; [exact F|rewrite V, Rabs_pos_eq; simpl; lra]).
  destruct (mod_mul 8 1000 _ x ltac:(lia) M Dx) as [M1 V1]. rewrite V in V1.
  destruct (quot_near (val64 m) (val64 x) Hm Hx) as [_ Hb].
  assert (Hm0 : 0 < val64 m) by (eapply Rlt_le_trans; [|exact Hm]; apply Rinv_0_lt_compat, pow_lt; lra).
  destruct (div64 _ m (proj1 M1) (proj1 Dm)) as [F2 V2]; [lra|rewrite V1; apply (small_le 8); [lia|rewrite Rabs_pos_eq; simpl; lra]|].
  rewrite round64; [|exact F2|rewrite V2, V1; lra]. rewrite V2, V1. reflexivity.
Qed.
Lemma value64 m k : double m -> 0 <= val64 m -> (0 <= k <= 255)%Z -> fin64 (linear_value (N := SFNum) m k) /\ val64 (linear_value (N := SFNum) m k) = rd (rd (val64 m * IZR k) / 255).
Proof.
  intros Dm Hm Hk. apply double_moderate in Dm. unfold linear_value. cbn [nmul ndiv nofZ SFNum].
  assert (K : forall k, (0 <= k <= 255)%Z -> moderate 8 (SpecFloat.binary_normalize 53 1024 k 0 false) /\ val64 (SpecFloat.binary_normalize 53 1024 k 0 false) = IZR k).
  { intros j Hj. assert (Rj : rd (IZR j) = IZR j) by (apply rd_IZR; lia). assert (0 <= IZR j <= 255) by (split; apply IZR_le; lia).
    destruct (ofZ64 j) as [F V]; [rewrite Rj; apply (small_le 8); [lia|rewrite Rabs_pos_eq; simpl; lra]|]. rewrite Rj in V. split; [split; [exact F|rewrite V, Rabs_pos_eq; simpl; lra]|exact V]. }
  destruct (K k Hk) as [Mk Vk]. destruct (K 255%Z ltac:(lia)) as [M255 V255].
  destruct (mod_mul 1000 8 m _ ltac:(lia) Dm Mk) as [M1 V1]. rewrite Vk in V1.
  assert (B : Rabs (rd (val64 (SFmul 53 1024 m (SpecFloat.binary_normalize 53 1024 k 0 false)) / 255)) <= bpow radix2 1008).
  { apply rd_le_bpow; [lia|]. destruct M1 as [_ B1]. unfold Rdiv. rewrite Rabs_mult, (Rabs_pos_eq (/ 255)) by lra. pose proof (Rabs_pos (val64 (SFmul 53 1024 m (SpecFloat.binary_normalize 53 1024 k 0 false)))). change (1000 + 8)%Z with 1008%Z in B1. lra. }
  destruct (div64 _ _ (proj1 M1) (proj1 M255)) as [F V]; [rewrite V255; lra|rewrite V255; apply (small_le 1008); [lia|exact B]|].
  rewrite V255 in V. split; [exact F|]. rewrite V, V1. reflexivity.
Qed.

(** the row maximum *)
Lemma max64 l d : (forall x, In x (d :: l) -> fin64 x) -> In (nmaximum (N := SFNum) d l) (d :: l) /\ forall x, In x (d :: l) -> val64 x <= val64 (nmaximum (N := SFNum) d l).
Proof.
  unfold nmaximum. revert d. induction l as [|y l IH]; intros d H.
  - cbn. split; [auto|]. intros x [<-|[]]. lra.
  - cbn [fold_left]. assert (Fd : fin64 d) by (apply H; left; reflexivity). assert (Fy : fin64 y) by (apply H; right; left; reflexivity).
    assert (C : nmax (N := SFNum) d y = d /\ val64 y <= val64 d \/ nmax (N := SFNum) d y = y /\ val64 d <= val64 y).
    { unfold nmax. cbn [nleb SFNum]. rewrite (leb64 d y Fd Fy). destruct (Rleb (val64 d) (val64 y)) eqn:E; [right|left]; (split; [reflexivity|]).
      - apply Rleb_true, E.
      - apply Rnot_lt_le. intros L. assert (Rleb (val64 d) (val64 y) = true) by (apply Rleb_true; lra). congruence. }
    destruct (IH (nmax (N := SFNum) d y)) as [I1 I2]; [intros x [<-|Hx]; [destruct C as [[-> _]|[-> _]]; assumption|apply H; right; right; exact Hx]|].
    split.
    + destruct I1 as [I1|I1]; [|right; right; exact I1]. rewrite <- I1. destruct C as [[-> _]|[-> _]]; [left|right; left]; reflexivity.
    + intros x Hx. pose proof (I2 (nmax (N := SFNum) d y) (or_introl eq_refl)) as L. destruct Hx as [<-|[<-|Hx]]; [| |apply I2; right; exact Hx]; destruct C as [[E G]|[E G]]; rewrite E in L |- *; lra.
Qed.
Lemma row_max64 row : row <> [] -> (forall x, In x row -> fin64 x) -> In (row_max (N := SFNum) row) row /\ forall x, In x row -> val64 x <= val64 (row_max (N := SFNum) row).
Proof. intros Hne H. destruct row as [|d l]; [congruence|]. apply (max64 l d H). Qed.
Lemma row_max_facts row : packable64 row -> In (row_max (N := SFNum) row) row /\ double (row_max (N := SFNum) row) /\ / 2 ^ 1000 <= val64 (row_max (N := SFNum) row) /\
  forall x, In x row -> val64 x <= val64 (row_max (N := SFNum) row).
Proof.
  intros (H & x & Hx & Hp). destruct (row_max64 row) as [I L]; [intros ->; contradiction|intros y Hy; apply double_moderate, H, Hy|].
  split; [exact I|]. split; [apply H, I|]. split; [|exact L]. eapply Rle_trans; [exact Hp|apply L, Hx].
Qed.

(** one entry, there and back *)
Lemma entry64 row x : packable64 row -> In x row -> let m := row_max (N := SFNum) row in let k := linear_code (N := SFNum) m x in
  (0 <= k <= 255)%Z /\ Rabs (IZR k - 255 * val64 x / val64 m) <= / 2 + / 2 ^ 40 /\
  Rabs (val64 (linear_value (N := SFNum) m k) - val64 x) <= val64 m / 510 + val64 m / 2 ^ 47.
Proof.
  intros Hr Hx m k. destruct (row_max_facts row Hr) as (I & Dm & Hm & L). fold m in Dm, Hm, L. destruct (proj1 Hr x Hx) as [Dx Px].
  pose proof (code_d (val64 m) (val64 x) Hm (conj Px (L x Hx))) as [K1 K2]. unfold k. rewrite (code64 m x Dm Dx Hm (conj Px (L x Hx))).
  set (j := nround (N := DNum) (rd (rd (255 * val64 x) / val64 m))) in *. assert (U : u8 j = j) by (unfold u8; apply Z.mod_small; lia). rewrite U.
  split; [exact K1|]. split; [exact K2|].
  assert (Hm0 : 0 < val64 m) by (eapply Rlt_le_trans; [|exact Hm]; apply Rinv_0_lt_compat, pow_lt; lra).
  destruct (value64 m j Dm ltac:(lra) K1) as [_ V]. rewrite V. pose proof (value_d (val64 m) j Hm K1) as W. apply Rabs_le_inv in W, K2.
  set (M := val64 m) in *. set (z := 255 * val64 x / M) in *. assert (Ez : val64 x = M * z / 255) by (unfold z; field; lra). rewrite Ez.
  assert (A : M * (- (/ 2 + / 2 ^ 40)) <= M * (IZR j - z) <= M * (/ 2 + / 2 ^ 40)) by (split; apply Rmult_le_compat_l; lra). apply Rabs_le. lra.
Qed.

(** ** Whole arrays *)
Lemma pack64 rows : (forall row, In row rows -> packable64 row) ->
  linear_pack (N := SFNum) rows = Ok (map (fun r => map (linear_code (N := SFNum) (row_max (N := SFNum) r)) r) rows, map (row_max (N := SFNum)) rows).
Proof.
  intros H. unfold linear_pack, pack_rows. replace (existsb _ rows) with false; [reflexivity|]. symmetry.
  destruct (existsb (fun r => Nat.eqb (length r) 0) rows) eqn:E; [|reflexivity]. apply existsb_exists in E. destruct E as (r & Hr & E). apply Nat.eqb_eq, length_zero_iff_nil in E. subst r.
  destruct (H [] Hr) as (_ & x & Hx & _). contradiction.
Qed.
Lemma unpack64 rows : linear_unpack (N := SFNum) (map (fun r => map (linear_code (N := SFNum) (row_max (N := SFNum) r)) r) rows) (map (row_max (N := SFNum)) rows) =
  map (fun r => map (fun x => linear_value (N := SFNum) (row_max (N := SFNum) r) (linear_code (N := SFNum) (row_max (N := SFNum) r) x)) r) rows.
Proof. unfold linear_unpack. induction rows as [|r rows IH]; [reflexivity|]. cbn [map map2]. rewrite IH, map_map. reflexivity. Qed.

Lemma c130_error rows : (forall row, In row rows -> packable64 row) ->
  exists packed maxs back, linear_pack (N := SFNum) rows = Ok (packed, maxs) /\ linear_unpack (N := SFNum) packed maxs = back /\
    length packed = length rows /\ length maxs = length rows /\ length back = length rows /\
    forall r, (r < length rows)%nat -> length (nth r packed []) = length (nth r rows []) /\ length (nth r back []) = length (nth r rows []) /\
      greatest (val64 (nth r maxs zero64)) (nth r rows []) /\
      forall M i, greatest M (nth r rows []) -> (i < length (nth r rows []))%nat ->
        (0 <= code packed r i <= 255)%Z /\ Rabs (IZR (code packed r i) - 255 * cell rows r i / M) <= / 2 + / 2 ^ 40 /\ Rabs (cell back r i - cell rows r i) <= M / 510 + M / 2 ^ 47.
Proof.
  intros H. do 3 eexists. split; [apply pack64, H|]. split; [apply unpack64|]. rewrite !map_length. repeat (split; [reflexivity|]).
  intros r Hr. assert (Hp : packable64 (nth r rows [])) by (apply H, nth_In, Hr). unfold code, cell.
  assert (N1 : forall {B} (f : list spec_float -> B) d, nth r (map f rows) d = f (nth r rows [])) by (intros; rewrite nth_indep with (d' := f []) by (rewrite map_length; exact Hr); apply map_nth).
  rewrite !(N1 _ _ []), !(N1 _ _ zero64), !map_length. split; [reflexivity|]. split; [reflexivity|].
  destruct (row_max_facts _ Hp) as (I & Dm & Hm & L). split; [split; [apply in_map, I|exact L]|].
  intros M i [G1 G2] Hi. assert (EM : M = val64 (row_max (N := SFNum) (nth r rows []))).
  { apply in_map_iff in G1. destruct G1 as (y & <- & Hy). apply Rle_antisym; [apply L, Hy|apply G2, I]. }
  rewrite EM. pose proof (entry64 _ _ Hp (nth_In _ zero64 Hi)) as E. cbv zeta in E. destruct E as (E1 & E2 & E3).
  assert (N2 : forall {B} (f : spec_float -> B) d, nth i (map f (nth r rows [])) d = f (nth i (nth r rows []) zero64)) by (intros; rewrite nth_indep with (d' := f zero64) by (rewrite map_length; exact Hi); apply map_nth).
  rewrite !N2. auto.
Qed.

(** ** Packing again what was unpacked gives the same bytes *)
Definition there (row : list spec_float) (x : spec_float) : Z := linear_code (N := SFNum) (row_max (N := SFNum) row) x.
Definition and_back (row : list spec_float) (x : spec_float) : spec_float := linear_value (N := SFNum) (row_max (N := SFNum) row) (there row x).
Lemma int_close a b : Rabs (IZR a - IZR b) < 1 -> a = b.
Proof. intros H. rewrite <- minus_IZR, <- abs_IZR in H. apply lt_IZR in H. lia. Qed.
Lemma value_range m k : / 2 ^ 1000 <= m <= 2 ^ 1000 -> (0 <= k <= 255)%Z -> 0 <= rd (rd (m * IZR k) / 255) <= 2 ^ 1000 /\ (k = 255%Z -> / 2 ^ 1000 <= rd (rd (m * IZR k) / 255)).
Proof.
  intros [Hm1 Hm2] Hk. assert (Hk' : 0 <= IZR k <= 255) by (split; apply IZR_le; lia).
  assert (Hm0 : 0 < m) by (eapply Rlt_le_trans; [|exact Hm1]; apply Rinv_0_lt_compat, pow_lt; lra).
  assert (B : forall e, (-1000 <= e <= 1000)%Z -> dbl (255 * bpow radix2 e)).
  { intros e He. apply FLT.generic_format_FLT. exists (Defs.Float radix2 255 e); [reflexivity|cbn; lia|cbn; lia]. }
  assert (S : 255 * bpow radix2 1000 / 255 = bpow radix2 1000) by lra. assert (S' : 255 * bpow radix2 (-1000) / 255 = bpow radix2 (-1000)) by lra.
  split; [split|].
  - apply rd_pos. apply Rmult_le_pos; [|lra]. apply rd_pos. nra.
  - rewrite pow_bpow in *. change (Z.of_nat 1000) with 1000%Z in *. rewrite <- (rd_id (bpow radix2 1000)) by (apply dbl_bpow; lia). apply rd_mono. rewrite <- S. apply Rmult_le_compat_r; [lra|].
    rewrite <- (rd_id _ (B 1000%Z ltac:(lia))). apply rd_mono. nra.
  - intros ->. rewrite <- pow1000 in *. rewrite <- (rd_id (bpow radix2 (-1000))) by (apply dbl_bpow; lia). apply rd_mono. rewrite <- S'. apply Rmult_le_compat_r; [lra|].
    rewrite <- (rd_id _ (B (-1000)%Z ltac:(lia))). apply rd_mono. nra.
Qed.
Lemma max_code row : packable64 row -> there row (row_max (N := SFNum) row) = 255%Z.
Proof.
  intros Hr. destruct (row_max_facts row Hr) as (I & Dm & Hm & L). pose proof (entry64 row _ Hr I) as E. cbv zeta in E. destruct E as (K & A & _). fold (there row (row_max (N := SFNum) row)) in K, A.
  assert (Hm0 : 0 < val64 (row_max (N := SFNum) row)) by (eapply Rlt_le_trans; [|exact Hm]; apply Rinv_0_lt_compat, pow_lt; lra).
  replace (255 * val64 (row_max (N := SFNum) row) / val64 (row_max (N := SFNum) row)) with 255 in A by (field; lra). apply int_close. apply Rabs_le_inv in A.
  apply Rabs_lt. lra.
Qed.
Lemma again64 row : packable64 row -> packable64 (map (and_back row) row) /\ map (there (map (and_back row) row)) (map (and_back row) row) = map (there row) row.
Proof.
  intros Hr. destruct (row_max_facts row Hr) as (I & Dm & Hm & L). set (m := row_max (N := SFNum) row) in *.
  assert (Hm2 : val64 m <= 2 ^ 1000) by (destruct Dm as [_ B]; apply Rabs_le_inv in B; lra).
  assert (Hm0 : 0 < val64 m) by (eapply Rlt_le_trans; [|exact Hm]; apply Rinv_0_lt_compat, pow_lt; lra).
  assert (K : forall x, In x row -> (0 <= there row x <= 255)%Z) by (intros x Hx; apply (entry64 row x Hr Hx)).
  assert (V : forall x, In x row -> fin64 (and_back row x) /\ val64 (and_back row x) = rd (rd (val64 m * IZR (there row x)) / 255)) by (intros x Hx; apply value64; [exact Dm|lra|apply K, Hx]).
  assert (Hp : packable64 (map (and_back row) row)).
  { split.
    - intros y Hy. apply in_map_iff in Hy. destruct Hy as (x & <- & Hx). destruct (V x Hx) as [F E]. destruct (value_range (val64 m) (there row x) (conj Hm Hm2) (K x Hx)) as [[G1 G2] _]. rewrite <- E in G1, G2.
      split; [|exact G1]. split; [|rewrite Rabs_pos_eq by exact G1; exact G2]. destruct F as [F1 F2]. destruct (and_back row x); try discriminate F2; [exact Logic.I|exact F1].
    - exists (and_back row m). split; [apply in_map, I|]. destruct (V m I) as [_ E]. rewrite E. apply value_range; [split; assumption|apply K, I|apply max_code, Hr]. }
  split; [exact Hp|]. rewrite map_map. apply map_ext_in. intros x Hx.
  (* the new maximum *)
  destruct (row_max_facts _ Hp) as (I' & Dm' & Hm' & L'). set (m' := row_max (N := SFNum) (map (and_back row) row)) in *.
  assert (E' : val64 m' = rd (rd (val64 m * 255) / 255)).
  { apply Rle_antisym.
    - apply in_map_iff in I'. destruct I' as (y & <- & Hy). destruct (V y Hy) as [_ E]. rewrite E. apply rd_mono. apply Rmult_le_compat_r; [lra|]. apply rd_mono. apply Rmult_le_compat_l; [lra|]. apply IZR_le, K, Hy.
    - pose proof (L' (and_back row m) (in_map _ _ _ I)) as G. destruct (V m I) as [_ E]. pose proof (max_code row Hr) as C. fold m in C. rewrite E, C in G. exact G. }
  pose proof (value_d (val64 m) 255 Hm ltac:(lia)) as W'. rewrite <- E' in W'. apply Rabs_le_inv in W'.
  pose proof (value_d (val64 m) (there row x) Hm (K x Hx)) as W. destruct (V x Hx) as [_ E]. rewrite <- E in W. apply Rabs_le_inv in W.
  pose proof (entry64 _ (and_back row x) Hp (in_map _ _ _ Hx)) as N. cbv zeta in N. destruct N as (_ & N & _). fold m' in N. fold (there (map (and_back row) row) (and_back row x)) in N.
  set (k' := there (map (and_back row) row) (and_back row x)) in *. pose proof (K x Hx) as Kx. set (k := there row x) in *. apply int_close.
  assert (Hk : 0 <= IZR k <= 255) by (split; apply IZR_le; lia).
  set (M := val64 m) in *. set (M' := val64 m') in *. set (v := val64 (and_back row x)) in *.
  assert (HM' : M * (1 - / 2 ^ 48) <= M' <= M * (1 + / 2 ^ 48)) by lra.
  assert (HM0 : 0 < M') by lra. set (z := 255 * v / M') in *. assert (Ez : 255 * v = z * M') by (unfold z; field; lra).
  assert (Q : Rabs (z - IZR k) <= / 2 ^ 38).
  { apply Rmult_le_reg_r with M'; [exact HM0|]. rewrite <- (Rabs_pos_eq M') at 1 by lra. rewrite <- Rabs_mult. replace ((z - IZR k) * M') with (255 * v - IZR k * M') by (rewrite Ez; ring).
    assert (B : Rabs (IZR k * M' - IZR k * M) <= 255 * (M / 2 ^ 48)).
    { replace (IZR k * M' - IZR k * M) with (IZR k * (M' - M)) by ring. rewrite Rabs_mult. apply Rmult_le_compat; try apply Rabs_pos; [rewrite Rabs_pos_eq; lra|apply Rabs_le; lra]. }
    apply Rabs_le_inv in B. apply Rabs_le. lra. }
  apply Rabs_le_inv in Q, N. change (linear_code m' (and_back row x)) with k' in N. apply Rabs_lt. lra.
Qed.
Lemma c130_again rows : (forall row, In row rows -> packable64 row) ->
  exists packed maxs maxs', linear_pack (N := SFNum) rows = Ok (packed, maxs) /\ linear_pack (N := SFNum) (linear_unpack (N := SFNum) packed maxs) = Ok (packed, maxs').
Proof.
  intros H. do 3 eexists. split; [apply pack64, H|]. rewrite unpack64. match goal with |- linear_pack ?a = _ => change a with (map (fun r => map (and_back r) r) rows) end.
  rewrite pack64; [|intros y Hy; apply in_map_iff in Hy; destruct Hy as (r & <- & Hr); apply again64, H, Hr].
  f_equal. f_equal. rewrite map_map. apply map_ext_in. intros r Hr. apply (again64 r (H r Hr)).
Qed.

(** ** An example *)
Definition d1 : spec_float := f64 4503599627370496 (-52).
Definition d05 : spec_float := f64 4503599627370496 (-53).
Lemma f64_double m e : bounded 53 1024 m e = true -> IZR (Z.pos m) * bpow radix2 e <= 1 -> double (f64 m e) /\ 0 <= val64 (f64 m e).
Proof.
  intros B H. assert (P : 1 <= 2 ^ 1000) by (apply pow_R1_Rle; lra). assert (G : 0 <= val64 (f64 m e)) by (rewrite val_f64; apply Rmult_le_pos; [apply IZR_le; lia|apply bpow_ge_0]).
  split; [split; [exact B|]|exact G]. rewrite Rabs_pos_eq by exact G. rewrite val_f64. lra.
Qed.
Example c130_example : packable64 [d05; S754_zero false; d1; f64 7205759403792794 (-56)].
Proof.
  assert (P : 1 <= 2 ^ 1000) by (apply pow_R1_Rle; lra).
  split.
  - intros x H. cbn [In] in H. destruct H as [<-|[<-|[<-|[<-|[]]]]].
    + apply f64_double; [reflexivity|simpl; lra].
    + split; [split; [exact Logic.I|]|]; change (val64 (S754_zero false)) with 0; [rewrite Rabs_R0|]; lra.
    + apply f64_double; [reflexivity|simpl; lra].
    + apply f64_double; [reflexivity|simpl; lra].
  - exists d1. split; [right; right; left; reflexivity|]. unfold d1. rewrite val_f64. apply Rle_trans with 1; [|simpl; lra]. rewrite <- Rinv_1. apply Rinv_le_contravar; lra.
Qed.
