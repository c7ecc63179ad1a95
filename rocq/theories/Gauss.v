(** The normal law itself: the laws the theorems ask of [scipy.stats.norm] hold of the density exp(-z^2/2)/sqrt(2 pi) and its
    distribution function. *)
From Coq Require Import Reals Lra Lia.
From Coquelicot Require Import Coquelicot.
From Verif Require Import MixmodTheorems.
Local Open Scope R_scope.

(** the density and the distribution function of the normal law with mean 0 and deviation 1 *)
Definition gauss (z : R) : R := exp (- (z * z) / 2) / sqrt (2 * PI).
Definition Gauss (z : R) : R := 1 / 2 + RInt gauss 0 z.

Ltac in_R := match goal with |- ?a = ?b => change (@eq R a b) end.
(** ** The integral of exp(-t^2/2) *)
Definition bell (t : R) : R := exp (- (t * t) / 2).
Definition area (x : R) : R := RInt bell 0 x.
Lemma bell_cont t : continuous bell t.
Proof. apply (ex_derive_continuous (V := R_NormedModule)). unfold bell. auto_derive. auto. Qed.
Lemma bell_int a b : ex_RInt bell a b.
Proof. apply (ex_RInt_continuous (V := R_CompleteNormedModule)). intros. apply bell_cont. Qed.
Lemma area_derive (x : R) : is_derive area x (bell x).
Proof.
  apply (is_derive_RInt (V := R_NormedModule) bell area 0 x); [|apply bell_cont].
  apply filter_forall. intros y. apply (RInt_correct (V := R_CompleteNormedModule)). apply bell_int.
Qed.
(** the square of the area, completed by an integral over [0,1] *)
Definition rest1 (x t : R) : R := exp (- (x * x * (1 + t * t)) / 2) / (1 + t * t).
Definition rest (x : R) : R := RInt (fun t => rest1 x t) 0 1.
Lemma one_sq t : 1 + t * t <> 0.
Proof. assert (0 <= t * t) by apply Rle_0_sqr. lra. Qed.
Lemma rest1_derive (x t : R) : is_derive (fun u => rest1 u t) x (- x * exp (- (x * x * (1 + t * t)) / 2)).
Proof. unfold rest1. auto_derive; [auto|]. unfold Rdiv. set (E := exp _). field. apply one_sq. Qed.
Lemma rest1_int x : ex_RInt (fun t => rest1 x t) 0 1.
Proof.
  apply (ex_RInt_continuous (V := R_CompleteNormedModule)). intros t _. apply (ex_derive_continuous (V := R_NormedModule)). unfold rest1. auto_derive.
  repeat split; auto. apply one_sq.
Qed.
Lemma rest_derive (x : R) : is_derive rest x (- area x * bell x).
Proof.
  assert (H : is_derive rest x (RInt (fun t => Derive (fun u => rest1 u t) x) 0 1)).
  { apply is_derive_RInt_param.
    - apply filter_forall. intros y t _. eexists. apply rest1_derive.
    - intros t _. apply (continuity_2d_pt_ext (fun u v => - u * exp (- (u * u * (1 + v * v)) / 2))).
      { intros u v. symmetry. apply is_derive_unique, rest1_derive. }
      apply continuity_2d_pt_mult; [apply continuity_2d_pt_opp, continuity_2d_pt_id1|].
      apply (continuity_1d_2d_pt_comp exp (fun u v => - (u * u * (1 + v * v)) / 2)).
      { apply derivable_continuous_pt. apply derivable_pt_exp. }
      apply continuity_2d_pt_mult; [|apply continuity_2d_pt_const]. apply continuity_2d_pt_opp.
      repeat first [apply continuity_2d_pt_mult | apply continuity_2d_pt_plus | apply continuity_2d_pt_id1 | apply continuity_2d_pt_id2 | apply continuity_2d_pt_const].
    - apply filter_forall. intros y. apply rest1_int. }
  replace (- area x * bell x) with (RInt (fun t => Derive (fun u => rest1 u t) x) 0 1); [exact H|].
  transitivity (RInt (fun t => - bell x * (x * bell (x * t + 0))) 0 1).
  - apply RInt_ext. intros t _. transitivity (- x * exp (- (x * x * (1 + t * t)) / 2)); [apply is_derive_unique, rest1_derive|]. unfold bell.
    replace (- (x * x * (1 + t * t)) / 2) with (- (x * x) / 2 + - ((x * t + 0) * (x * t + 0)) / 2) by field. rewrite exp_plus. in_R. ring.
  - apply is_RInt_unique. replace (- area x * bell x) with (- bell x * area x) by ring.
    apply (is_RInt_scal (V := R_NormedModule) (fun t => x * bell (x * t + 0)) 0 1 (- bell x) (area x)).
    apply (is_RInt_comp_lin (V := R_NormedModule) bell x 0 0 1 (area x)).
    replace (x * 0 + 0) with 0 by ring. replace (x * 1 + 0) with x by ring. apply (RInt_correct (V := R_CompleteNormedModule)). apply bell_int.
Qed.
Lemma rest_0 : rest 0 = PI / 4.
Proof.
  unfold rest. rewrite (RInt_ext _ (fun t => / (1 + t ^ 2))).
  - rewrite <- atan_1. apply is_RInt_unique. replace (atan 1) with (minus (atan 1) (atan 0)) by (unfold minus, plus, opp; simpl; rewrite atan_0; ring).
    apply (is_RInt_derive (V := R_CompleteNormedModule) atan).
    + intros t _. auto_derive; [auto|]. field. pose proof (one_sq t). simpl. lra.
    + intros t _. apply (ex_derive_continuous (V := R_NormedModule)). auto_derive. pose proof (one_sq t). simpl. lra.
  - intros t _. unfold rest1. replace (- (0 * 0 * (1 + t * t)) / 2) with 0 by field. rewrite exp_0. replace (t ^ 2) with (t * t) by ring. in_R. field. apply one_sq.
Qed.
Lemma area_square (x : R) : area x * area x + 2 * rest x = PI / 2.
Proof.
  set (F := fun x => area x * area x + 2 * rest x).
  assert (HF : forall y, is_derive F y 0).
  { intros y. unfold F. replace 0 with (plus (plus (mult (bell y) (area y)) (mult (area y) (bell y))) (scal 2 (- area y * bell y))) by (unfold plus, mult, scal; simpl; unfold mult; simpl; ring).
    apply (is_derive_plus (V := R_NormedModule)).
    - apply (is_derive_mult area area); [apply area_derive|apply area_derive|]. intros; apply Rmult_comm.
    - apply (is_derive_scal rest y 2). apply rest_derive. }
  change (F x = PI / 2). transitivity (F 0).
  - destruct (MVT_gen F 0 x (fun _ => 0)) as (c & _ & Hc).
    + intros; apply HF.
    + intros y _. apply (derivable_continuous_pt F y). exists 0. apply is_derive_Reals, HF.
    + lra.
  - unfold F. rewrite rest_0. unfold area. rewrite RInt_point. unfold zero; simpl. in_R. field.
Qed.
Lemma rest_bounds x : 0 <= rest x <= exp (- (x * x) / 2).
Proof.
  assert (Hb : forall t, 0 <= rest1 x t <= exp (- (x * x) / 2)).
  { intros t. assert (Ht : 0 <= t * t) by apply Rle_0_sqr. assert (Hx : 0 <= x * x) by apply Rle_0_sqr. unfold rest1. split.
    - apply Rmult_le_pos; [left; apply exp_pos|left; apply Rinv_0_lt_compat; lra].
    - apply Rle_trans with (exp (- (x * x * (1 + t * t)) / 2)).
      + rewrite <- (Rmult_1_r (exp _)) at 2. apply Rmult_le_compat_l; [left; apply exp_pos|]. rewrite <- Rinv_1. apply Rinv_le_contravar; lra.
      + destruct (Req_dec (x * x * (t * t)) 0) as [E|E].
        * right. f_equal. lra.
        * left. apply exp_increasing. assert (0 <= x * x * (t * t)) by (apply Rmult_le_pos; auto). lra. }
  split.
  - unfold rest. replace 0 with (RInt (fun _ => 0) 0 1) at 1 by (rewrite RInt_const; unfold scal; simpl; unfold mult; simpl; ring).
    apply RInt_le; [lra|apply ex_RInt_const|apply rest1_int|]. intros t _. apply Hb.
  - unfold rest. replace (exp (- (x * x) / 2)) with (RInt (fun _ => exp (- (x * x) / 2)) 0 1) by (rewrite RInt_const; unfold scal; simpl; unfold mult; simpl; ring).
    apply RInt_le; [lra|apply rest1_int|apply ex_RInt_const|]. intros t _. apply Hb.
Qed.

(** ** The laws *)
Lemma sqrt_2PI : 0 < sqrt (2 * PI).
Proof. apply sqrt_lt_R0. pose proof PI_RGT_0. lra. Qed.
Lemma gauss_area z : RInt gauss 0 z = area z / sqrt (2 * PI).
Proof.
  transitivity (RInt (fun t => / sqrt (2 * PI) * bell t) 0 z).
  - apply RInt_ext. intros t _. unfold gauss, bell, Rdiv. in_R. ring.
  - apply is_RInt_unique. replace (area z / sqrt (2 * PI)) with (/ sqrt (2 * PI) * area z) by (unfold Rdiv; ring).
    apply (is_RInt_scal (V := R_NormedModule) bell 0 z (/ sqrt (2 * PI)) (area z)). apply (RInt_correct (V := R_CompleteNormedModule)). apply bell_int.
Qed.
Lemma half_area : sqrt (2 * PI) * sqrt (2 * PI) = 2 * PI.
Proof. apply sqrt_sqrt. pose proof PI_RGT_0. lra. Qed.
(** the distance of the distribution function from one half *)
Lemma gauss_square z : let g := RInt gauss 0 z in g * g = 1 / 4 - rest z / PI.
Proof.
  cbv zeta. rewrite gauss_area. pose proof sqrt_2PI as Hs. pose proof PI_RGT_0 as HP. pose proof (area_square z) as Ha.
  replace (area z / sqrt (2 * PI) * (area z / sqrt (2 * PI))) with (area z * area z / (sqrt (2 * PI) * sqrt (2 * PI))) by (field; lra).
  rewrite half_area. replace (area z * area z) with (PI / 2 - 2 * rest z) by lra. field. lra.
Qed.
Lemma gauss_pos z : 0 < gauss z.
Proof. unfold gauss. apply Rmult_lt_0_compat; [apply exp_pos|apply Rinv_0_lt_compat, sqrt_2PI]. Qed.
Lemma gauss_cont z : continuous gauss z.
Proof. apply (ex_derive_continuous (V := R_NormedModule)). unfold gauss. auto_derive. auto. Qed.
Lemma gauss_int a b : ex_RInt gauss a b.
Proof. apply (ex_RInt_continuous (V := R_CompleteNormedModule)). intros. apply gauss_cont. Qed.
Lemma Gauss_derive (z : R) : is_derive Gauss z (gauss z).
Proof.
  unfold Gauss. replace (gauss z) with (plus 0 (gauss z)) by (unfold plus; simpl; ring).
  apply (is_derive_plus (V := R_NormedModule)); [apply (is_derive_const (V := R_NormedModule))|].
  apply (is_derive_RInt (V := R_NormedModule) gauss (fun z => RInt gauss 0 z) 0 z); [|apply gauss_cont].
  apply filter_forall. intros y. apply (RInt_correct (V := R_CompleteNormedModule)). apply gauss_int.
Qed.
Lemma Gauss_step a b : Gauss b - Gauss a = RInt gauss a b.
Proof.
  unfold Gauss. rewrite <- (RInt_Chasles gauss 0 a b) by apply gauss_int. unfold plus; simpl. ring.
Qed.
Lemma Gauss_lt a b : a < b -> Gauss a < Gauss b.
Proof.
  intros H. assert (0 < RInt gauss a b); [|rewrite <- Gauss_step in *; lra].
  apply RInt_gt_0; [auto|intros; apply gauss_pos|intros; apply gauss_cont].
Qed.
Lemma Gauss_0 : Gauss 0 = 1 / 2.
Proof. unfold Gauss. rewrite RInt_point. unfold zero; simpl. lra. Qed.
Lemma Gauss_range z : 0 < Gauss z < 1.
Proof.
  assert (Hw : forall z, 0 <= Gauss z <= 1).
  { clear z. intros z. pose proof (gauss_square z) as H. cbv zeta in H. pose proof (rest_bounds z) as [Hr _]. pose proof PI_RGT_0 as HP.
    assert (0 <= rest z / PI) by (apply Rmult_le_pos; [auto|left; apply Rinv_0_lt_compat; auto]). unfold Gauss. set (g := RInt gauss 0 z) in *. nra. }
  pose proof (Hw (z - 1)). pose proof (Hw (z + 1)). pose proof (Gauss_lt (z - 1) z ltac:(lra)). pose proof (Gauss_lt z (z + 1) ltac:(lra)). lra.
Qed.
Lemma gauss_laws : normal_laws gauss Gauss.
Proof.
  split; [intros; left; apply gauss_pos|]. split; [intros z; pose proof (Gauss_range z); lra|].
  split; [intros x y [H| ->]; [left; apply Gauss_lt; auto|right; reflexivity]|exact Gauss_derive].
Qed.
Lemma Gauss_tail z : (0 <= z -> 1 - Gauss z <= exp (- (z * z) / 2)) /\ (z <= 0 -> Gauss z <= exp (- (z * z) / 2)).
Proof.
  pose proof (gauss_square z) as H. cbv zeta in H. pose proof (rest_bounds z) as [Hr0 Hr]. pose proof PI_RGT_0 as HP. pose proof (Gauss_range z) as Hg.
  assert (HPi : 2 < PI) by (pose proof PI2_1; unfold PI2 in *; lra).
  assert (Hr' : rest z / PI <= exp (- (z * z) / 2) / 2).
  { apply Rmult_le_compat; [auto|left; apply Rinv_0_lt_compat; auto|auto|apply Rinv_le_contravar; lra]. }
  split; intros Hz.
  - assert (Hh : 1 / 2 <= Gauss z) by (rewrite <- Gauss_0; destruct Hz as [Hz| <-]; [left; apply Gauss_lt; auto|right; reflexivity]).
    unfold Gauss in *. set (g := RInt gauss 0 z) in *. set (E := exp _) in *. assert (0 <= g) by lra. assert ((1/2 - g) * (1/2 + g) <= E / 2) by nra. nra.
  - assert (Hh : Gauss z <= 1 / 2) by (rewrite <- Gauss_0; destruct Hz as [Hz| ->]; [left; apply Gauss_lt; auto|right; reflexivity]).
    unfold Gauss in *. set (g := RInt gauss 0 z) in *. set (E := exp _) in *. assert (g <= 0) by lra. assert ((1/2 - g) * (1/2 + g) <= E / 2) by nra. nra.
Qed.
(** [F] tends to 0 at minus infinity and to 1 at infinity *)
Definition total (F : R -> R) : Prop := is_lim F m_infty 0 /\ is_lim F p_infty 1.
Lemma exp_small (eps : posreal) : exists B, 0 < B /\ forall z, B < Rabs z -> exp (- (z * z) / 2) < eps.
Proof.
  exists (Rmax 1 (- 2 * ln eps)). split; [pose proof (Rmax_l 1 (- 2 * ln eps)); lra|]. intros z Hz.
  pose proof (Rmax_l 1 (- 2 * ln eps)). pose proof (Rmax_r 1 (- 2 * ln eps)). rewrite <- (exp_ln eps) by apply cond_pos. apply exp_increasing.
  assert (z * z = Rabs z * Rabs z) by (rewrite <- Rabs_mult; symmetry; apply Rabs_right; pose proof (Rle_0_sqr z); unfold Rsqr in *; lra).
  assert (Rabs z < Rabs z * Rabs z) by nra. lra.
Qed.
Lemma Gauss_total : total Gauss.
Proof.
  split; apply is_lim_spec; intros eps; destruct (exp_small eps) as (B & HB & HE).
  - exists (- B). intros z Hz. pose proof (Gauss_range z). destruct (Gauss_tail z) as [_ Ht]. specialize (Ht ltac:(lra)). specialize (HE z ltac:(rewrite Rabs_left; lra)).
    rewrite Rabs_right; lra.
  - exists B. intros z Hz. pose proof (Gauss_range z). destruct (Gauss_tail z) as [Ht _]. specialize (Ht ltac:(lra)). specialize (HE z ltac:(rewrite Rabs_right; lra)).
    rewrite Rabs_left; lra.
Qed.
