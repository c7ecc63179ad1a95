(** Facts about double precision: the two instances of Float.v agree; bounds for rounded operations. *)
From Coq Require Import ZArith Reals Bool List Lia Lra Floats.SpecFloat.
From Flocq Require Import Core Relative Operations Plus_error BinarySingleNaN.
From Verif Require Import Num NumProofs Float.
Import ListNotations.
Local Open Scope R_scope.

Notation dexp := (FLT_exp (-1074) 53).
Global Instance prec53 : Prec_gt_0 53. Proof. reflexivity. Qed.
Global Instance prec53_emax : Prec_lt_emax 53 1024. Proof. reflexivity. Qed.

(** ** The executable operations are the rounded ones *)
Definition val64 (x : spec_float) : R := SF2R radix2 x.
Definition fin64 (x : spec_float) : Prop := valid_binary 53 1024 x = true /\ is_finite_SF x = true.
Definition small (x : R) : Prop := Rabs x < bpow radix2 1024.

Lemma to_B x : fin64 x -> exists b : binary_float 53 1024, B2SF b = x /\ is_finite b = true /\ B2R b = val64 x.
Proof.
  intros [Hv Hf]. exists (SF2B x Hv). split; [apply B2SF_SF2B|]. split; [rewrite is_finite_SF2B; exact Hf|]. apply B2R_SF2B.
Qed.
Lemma of_B (b : binary_float 53 1024) : is_finite b = true -> fin64 (B2SF b) /\ val64 (B2SF b) = B2R b.
Proof.
  intros Hf. split; [split; [apply valid_binary_B2SF|rewrite is_finite_SF_B2SF; exact Hf]|apply SF2R_B2SF].
Qed.
Lemma round_even_equiv s m l : round_nearest_even m l = choice_mode mode_NE s m l.
Proof. case l; [reflexivity|intro c]. case c; [|reflexivity..]. simpl; unfold Round.cond_incr; case Z.even; reflexivity. Qed.
Lemma round_aux_equiv sx mx ex lx : SpecFloat.binary_round_aux 53 1024 sx mx ex lx = BinarySingleNaN.binary_round_aux 53 1024 mode_NE sx mx ex lx.
Proof.
  unfold SpecFloat.binary_round_aux, BinarySingleNaN.binary_round_aux. set (m := shr_fexp _ _ _). case m; intros mrs e'; simpl.
  rewrite (round_even_equiv sx). reflexivity.
Qed.
Lemma round_equiv s m e : SpecFloat.binary_round 53 1024 s m e = BinarySingleNaN.binary_round 53 1024 mode_NE s m e.
Proof.
  unfold SpecFloat.binary_round, BinarySingleNaN.binary_round, shl_align_fexp. set (m' := shl_align _ _ _); case m' as [mz ez]. apply round_aux_equiv.
Qed.
Lemma normalize_equiv m e s : SpecFloat.binary_normalize 53 1024 m e s = B2SF (BinarySingleNaN.binary_normalize 53 1024 prec53 prec53_emax mode_NE m e s).
Proof. case m as [|p|p]; [reflexivity|simpl; rewrite B2SF_SF2B; apply round_equiv..]. Qed.

Lemma rd_mode x : rd x = round radix2 dexp (round_mode mode_NE) x. Proof. reflexivity. Qed.
Lemma small_true x : small x -> Rlt_bool (Rabs x) (bpow radix2 1024) = true.
Proof. intros H. apply Rlt_bool_true. exact H. Qed.

Lemma add64 x y : fin64 x -> fin64 y -> small (rd (val64 x + val64 y)) -> fin64 (SFadd 53 1024 x y) /\ val64 (SFadd 53 1024 x y) = rd (val64 x + val64 y).
Proof.
  intros Hx Hy Hs. destruct (to_B x Hx) as (bx & <- & Fx & Vx). destruct (to_B y Hy) as (bY & <- & Fy & Vy). rewrite <- Vx, <- Vy in *.
  assert (E : SFadd 53 1024 (B2SF bx) (B2SF bY) = B2SF (Bplus mode_NE bx bY)).
  { case bx as [sx|sx| |sx mx ex Bx]; case bY as [sy|sy| |sy my ey By]; [now (trivial || simpl; case Bool.eqb).. | ]. apply normalize_equiv. }
  pose proof (Bplus_correct 53 1024 _ _ mode_NE bx bY Fx Fy) as C. change (SpecFloat.fexp 53 1024) with dexp in C. rewrite <- rd_mode, (small_true _ Hs) in C. destruct C as (C1 & C2 & _).
  rewrite E. destruct (of_B _ C2) as [F V]. split; [exact F|congruence].
Qed.
Lemma sub64 x y : fin64 x -> fin64 y -> small (rd (val64 x - val64 y)) -> fin64 (SFsub 53 1024 x y) /\ val64 (SFsub 53 1024 x y) = rd (val64 x - val64 y).
Proof.
  intros Hx Hy Hs. destruct (to_B x Hx) as (bx & <- & Fx & Vx). destruct (to_B y Hy) as (bY & <- & Fy & Vy). rewrite <- Vx, <- Vy in *.
  assert (E : SFsub 53 1024 (B2SF bx) (B2SF bY) = B2SF (Bminus mode_NE bx bY)).
  { case bx as [sx|sx| |sx mx ex Bx]; case bY as [sy|sy| |sy my ey By]; [now (trivial || simpl; case Bool.eqb).. | ].
    simpl. unfold Zminus. rewrite <- cond_Zopp_negb. apply normalize_equiv. }
  pose proof (Bminus_correct 53 1024 _ _ mode_NE bx bY Fx Fy) as C. change (SpecFloat.fexp 53 1024) with dexp in C. rewrite <- rd_mode, (small_true _ Hs) in C. destruct C as (C1 & C2 & _).
  rewrite E. destruct (of_B _ C2) as [F V]. split; [exact F|congruence].
Qed.
Lemma mul64 x y : fin64 x -> fin64 y -> small (rd (val64 x * val64 y)) -> fin64 (SFmul 53 1024 x y) /\ val64 (SFmul 53 1024 x y) = rd (val64 x * val64 y).
Proof.
  intros Hx Hy Hs. destruct (to_B x Hx) as (bx & <- & Fx & Vx). destruct (to_B y Hy) as (bY & <- & Fy & Vy). rewrite <- Vx, <- Vy in *.
  assert (E : SFmul 53 1024 (B2SF bx) (B2SF bY) = B2SF (Bmult mode_NE bx bY)).
  { case bx as [sx|sx| |sx mx ex Bx]; case bY as [sy|sy| |sy my ey By]; try reflexivity. simpl. rewrite B2SF_SF2B. apply round_aux_equiv. }
  pose proof (Bmult_correct 53 1024 _ _ mode_NE bx bY) as C. change (SpecFloat.fexp 53 1024) with dexp in C. rewrite <- rd_mode, (small_true _ Hs) in C. destruct C as (C1 & C2 & _). rewrite Fx, Fy in C2.
  rewrite E. destruct (of_B _ C2) as [F V]. split; [exact F|congruence].
Qed.
Lemma div64 x y : fin64 x -> fin64 y -> val64 y <> 0 -> small (rd (val64 x / val64 y)) -> fin64 (SFdiv 53 1024 x y) /\ val64 (SFdiv 53 1024 x y) = rd (val64 x / val64 y).
Proof.
  intros Hx Hy Hne Hs. destruct (to_B x Hx) as (bx & <- & Fx & Vx). destruct (to_B y Hy) as (bY & <- & Fy & Vy). rewrite <- Vx, <- Vy in *.
  assert (E : SFdiv 53 1024 (B2SF bx) (B2SF bY) = B2SF (Bdiv mode_NE bx bY)).
  { case bx as [sx|sx| |sx mx ex Bx]; case bY as [sy|sy| |sy my ey By]; try reflexivity. simpl. rewrite B2SF_SF2B. set (m := SFdiv_core_binary _ _ _ _ _ _). case m as [[mz ez] lz]. apply round_aux_equiv. }
  pose proof (Bdiv_correct 53 1024 _ _ mode_NE bx bY Hne) as C. change (SpecFloat.fexp 53 1024) with dexp in C. rewrite <- rd_mode, (small_true _ Hs) in C. destruct C as (C1 & C2 & _). rewrite Fx in C2.
  rewrite E. destruct (of_B _ C2) as [F V]. split; [exact F|congruence].
Qed.
Lemma opp64 x : fin64 x -> fin64 (SFopp x) /\ val64 (SFopp x) = - val64 x.
Proof.
  intros Hx. destruct (to_B x Hx) as (bx & <- & Fx & Vx). rewrite <- Vx.
  assert (E : SFopp (B2SF bx) = B2SF (Bopp bx)) by (case bx; reflexivity). rewrite E.
  destruct (of_B (Bopp bx)) as [F V]; [rewrite is_finite_Bopp; exact Fx|]. split; [exact F|]. rewrite V. apply B2R_Bopp.
Qed.
Lemma leb64 x y : fin64 x -> fin64 y -> SFleb x y = Rleb (val64 x) (val64 y).
Proof.
  intros Hx Hy. destruct (to_B x Hx) as (bx & <- & Fx & Vx). destruct (to_B y Hy) as (bY & <- & Fy & Vy). rewrite <- Vx, <- Vy.
  pose proof (Bleb_correct 53 1024 bx bY Fx Fy) as C. unfold Bleb in C. rewrite C. unfold Rleb. destruct (Rle_bool_spec (B2R bx) (B2R bY)) as [H|H]; destruct (Rle_dec (B2R bx) (B2R bY)) as [G|G]; try reflexivity; exfalso; [exact (G H)|lra].
Qed.
Lemma ofZ64 z : small (rd (IZR z)) -> fin64 (SpecFloat.binary_normalize 53 1024 z 0 false) /\ val64 (SpecFloat.binary_normalize 53 1024 z 0 false) = rd (IZR z).
Proof.
  intros Hs. pose proof (BinarySingleNaN.binary_normalize_correct 53 1024 _ _ mode_NE z 0 false) as C. cbv zeta in C. change (SpecFloat.fexp 53 1024) with dexp in C.
  assert (E : F2R (Float radix2 z 0) = IZR z) by (unfold F2R; simpl; lra). rewrite E in C. rewrite <- rd_mode, (small_true _ Hs) in C. destruct C as (C1 & C2 & _).
  rewrite normalize_equiv. destruct (of_B _ C2) as [F V]. split; [exact F|congruence].
Qed.
Lemma floor64 x : fin64 x -> sf_floor x = Int_part (val64 x).
Proof.
  intros [_ Hf]. destruct x as [s|s| |s m e]; try discriminate Hf.
  - simpl. unfold val64. simpl. symmetry. change 0 with (IZR 0). rewrite <- (Zfloor_IZR 0) at 2. unfold Int_part, Zfloor. reflexivity.
  - unfold val64, SF2R, F2R, sf_floor. cbn [Fnum Fexp]. set (z := cond_Zopp s (Z.pos m)). replace (if s then Z.neg m else Z.pos m) with z by (unfold z; destruct s; reflexivity).
    change (Int_part (IZR z * bpow radix2 e)) with (Zfloor (IZR z * bpow radix2 e)). destruct (Z.leb_spec 0 e) as [H|H].
    + rewrite <- (IZR_Zpower radix2) by exact H. rewrite <- mult_IZR, Zfloor_IZR. reflexivity.
    + rewrite <- (Zfloor_div z (2 ^ (- e))) by (apply Z.pow_nonzero; lia). f_equal. unfold Rdiv. f_equal.
      change (2 ^ (- e))%Z with (Zpower radix2 (- e)). rewrite (IZR_Zpower radix2) by lia. rewrite <- bpow_opp. f_equal. lia.
Qed.

(** ** Rounding *)
Definition u53 : R := bpow radix2 (-53).
Lemma rd_mono x y : x <= y -> rd x <= rd y. Proof. apply round_le; typeclasses eauto. Qed.
Lemma rd_id x : dbl x -> rd x = x. Proof. intros H. apply round_generic; [typeclasses eauto|exact H]. Qed.
Lemma rd_dbl x : dbl (rd x). Proof. apply generic_format_round; typeclasses eauto. Qed.
Lemma rd_0 : rd 0 = 0. Proof. apply round_0; typeclasses eauto. Qed.
Lemma dbl_0 : dbl 0. Proof. apply generic_format_0. Qed.
Lemma rd_opp x : rd (- x) = - rd x. Proof. unfold rd. apply round_NE_opp. Qed.
Lemma dbl_opp x : dbl x -> dbl (- x). Proof. apply generic_format_opp. Qed.
Lemma rd_pos x : 0 <= x -> 0 <= rd x. Proof. intros H. rewrite <- rd_0. apply rd_mono. exact H. Qed.
Lemma rd_abs x : rd (Rabs x) = Rabs (rd x). Proof. unfold rd. apply round_NE_abs; typeclasses eauto. Qed.
Lemma dbl_bpow e : (-1074 <= e)%Z -> dbl (bpow radix2 e).
Proof. intros H. apply generic_format_bpow. unfold FLT_exp. lia. Qed.
Lemma dbl_IZR z : (Z.abs z <= 2 ^ 53)%Z -> dbl (IZR z).
Proof.
  intros H. destruct (Z.eq_dec (Z.abs z) (2 ^ 53)) as [E|E].
  - assert (E2 : IZR z = bpow radix2 53 \/ IZR z = - bpow radix2 53).
    { change (bpow radix2 53) with (IZR (2 ^ 53)). destruct (Z.abs_spec z) as [[_ A]|[_ A]]; [left|right; rewrite <- opp_IZR]; f_equal; lia. }
    destruct E2 as [-> | ->]; [|apply dbl_opp]; apply dbl_bpow; lia.
  - apply generic_format_FLT. exists (Float radix2 z 0); [unfold F2R; simpl; lra|simpl; change (Z.pow_pos 2 53) with (2 ^ 53)%Z; lia|simpl; lia].
Qed.
Lemma rd_IZR z : (Z.abs z <= 2 ^ 53)%Z -> rd (IZR z) = IZR z. Proof. intros H. apply rd_id, dbl_IZR, H. Qed.

Lemma u53_val : u53 = / 2 * bpow radix2 (-53 + 1). Proof. unfold u53. rewrite bpow_plus. simpl (bpow radix2 1). lra. Qed.
Lemma u53_small : 0 < u53 <= / 2 ^ 50.
Proof. split; [apply bpow_gt_0|]. unfold u53. simpl. apply Rinv_le_contravar; [lra|lra]. Qed.
(** the error of one operation *)
Lemma rd_err x : Rabs (rd x - x) <= u53 * Rabs x + bpow radix2 (-1075).
Proof.
  destruct (error_N_FLT radix2 (-1074) 53 ltac:(lia) (fun t => negb (Z.even t)) x) as (eps & eta & He & Ht & _ & E).
  change (round radix2 dexp (Znearest (fun t => negb (Z.even t))) x) with (rd x) in E. rewrite E.
  replace (x * (1 + eps) + eta - x) with (x * eps + eta) by ring. eapply Rle_trans; [apply Rabs_triang|]. apply Rplus_le_compat.
  - rewrite Rabs_mult, Rmult_comm. apply Rmult_le_compat_r; [apply Rabs_pos|]. rewrite u53_val. exact He.
  - eapply Rle_trans; [exact Ht|]. change (-1075)%Z with (-1 + -1074)%Z. rewrite bpow_plus. simpl (bpow radix2 (-1)). right. reflexivity.
Qed.
(** sums and differences of doubles have no underflow *)
Lemma rd_add_err x y : dbl x -> dbl y -> Rabs (rd (x + y) - (x + y)) <= u53 * Rabs (x + y).
Proof.
  intros Hx Hy. destruct (FLT_plus_error_N_ex radix2 (-1074) 53 (fun t => negb (Z.even t)) x y Hx Hy) as (eps & He & E).
  change (round radix2 dexp (Znearest (fun t => negb (Z.even t))) (x + y)) with (rd (x + y)) in E. rewrite E.
  replace ((x + y) * (1 + eps) - (x + y)) with (eps * (x + y)) by ring. rewrite Rabs_mult. apply Rmult_le_compat_r; [apply Rabs_pos|].
  eapply Rle_trans; [exact He|]. unfold u_ro. assert (E2 : / 2 * bpow radix2 (- (53) + 1) = u53) by (rewrite u53_val; reflexivity). rewrite E2.
  pose proof u53_small. apply (Rmult_le_reg_r (1 + u53)); [lra|]. unfold Rdiv. rewrite Rmult_assoc, Rinv_l by lra. nra.
Qed.
Lemma rd_sub_err x y : dbl x -> dbl y -> Rabs (rd (x - y) - (x - y)) <= u53 * Rabs (x - y).
Proof. intros Hx Hy. apply (rd_add_err x (- y)); [exact Hx|apply dbl_opp, Hy]. Qed.
(** the quotient of a difference *)
Definition eps51 : R := / 2 ^ 51.
Lemma tiny1075 : bpow radix2 (-1075) <= / 2 ^ 60.
Proof.
  replace (/ 2 ^ 60) with (bpow radix2 (-60)); [apply bpow_le; lia|]. simpl. f_equal. lra.
Qed.
Lemma quotient_err x b w : dbl x -> dbl b -> 0 < w -> Rabs (rd (rd (x - b) / w) - (x - b) / w) <= eps51 * Rabs ((x - b) / w) + / 2 ^ 60.
Proof.
  intros Hx Hb Hw. set (z := (x - b) / w). set (p := rd (x - b) / w).
  assert (H1 : Rabs (p - z) <= u53 * Rabs z).
  { unfold p, z. replace (rd (x - b) / w - (x - b) / w) with ((rd (x - b) - (x - b)) / w) by (field; lra). unfold Rdiv. rewrite !Rabs_mult, <- Rmult_assoc. apply Rmult_le_compat_r; [apply Rabs_pos|]. apply rd_sub_err; assumption. }
  pose proof (rd_err p) as H2. pose proof u53_small as [U0 _]. pose proof tiny1075 as Ht.
  assert (Hp : Rabs p <= Rabs z + u53 * Rabs z).
  { replace p with (z + (p - z)) by ring. eapply Rle_trans; [apply Rabs_triang|]. lra. }
  assert (E : rd p - z = (rd p - p) + (p - z)) by ring. rewrite E. eapply Rle_trans; [apply Rabs_triang|].
  assert (Hu : u53 = / 2 ^ 53) by (unfold u53; simpl; f_equal; lra). unfold eps51. rewrite Hu in *. pose proof (Rabs_pos z). nra.
Qed.
