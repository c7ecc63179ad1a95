(** Products of integrable and Lipschitz functions; the risk of a point estimate as a function of the estimate. *)
From Coq Require Import Reals Lra Lia ZArith List.
From Coquelicot Require Import Coquelicot.
Local Open Scope R_scope.

Definition lipschitz (K : R) (g : R -> R) (a b : R) : Prop := forall x y, a <= x <= b -> a <= y <= b -> Rabs (g x - g y) <= K * Rabs (x - y).

Lemma Int_part_at r z : r - 1 < IZR z <= r -> z = Int_part r.
Proof. intros H. unfold Int_part. rewrite <- (tech_up r (z + 1)); [lia| |]; rewrite plus_IZR; lra. Qed.

Section Product.
  Variables (f g : R -> R) (a b K : R).
  Hypotheses (Hab : a < b) (Hf : ex_RInt f a b) (Hg : lipschitz K g a b).
  Definition cell (n : nat) : R := (b - a) / INR (S n).
  Definition left_end (n : nat) (x : R) : R := a + cell n * IZR (Int_part ((x - a) / cell n)).
  Definition inside (x : R) (v : R) : R := if Rle_dec a x then if Rlt_dec x b then v else 0 else 0.
  Definition step (n : nat) (x : R) : R := inside x (f x * g (left_end n x)).
  Lemma cell_pos n : 0 < cell n.
  Proof. unfold cell. apply Rdiv_lt_0_compat; [lra|]. apply lt_0_INR. lia. Qed.
  Lemma cell_end n : a + cell n * INR (S n) = b.
  Proof. unfold cell. field. apply not_0_INR. lia. Qed.
  Lemma step_piece n j x : (j < S n)%nat -> a + cell n * INR j < x < a + cell n * INR (S j) -> step n x = g (a + cell n * INR j) * f x.
  Proof.
    intros Hj Hx. pose proof (cell_pos n) as Hc. pose proof (cell_end n) as He.
    assert (Hjn : cell n * INR (S j) <= cell n * INR (S n)) by (apply Rmult_le_compat_l; [lra|apply le_INR; lia]).
    assert (H0 : 0 <= cell n * INR j) by (apply Rmult_le_pos; [lra|apply pos_INR]).
    unfold step, inside. destruct (Rle_dec a x) as [A|A]; [|lra]. destruct (Rlt_dec x b) as [B|B]; [|lra].
    unfold left_end. rewrite <- (Int_part_at ((x - a) / cell n) (Z.of_nat j)).
    - rewrite <- INR_IZR_INZ. ring.
    - rewrite <- INR_IZR_INZ. rewrite S_INR in Hx. split.
      + apply Rmult_lt_reg_r with (cell n); [lra|]. unfold Rminus at 1. rewrite Rmult_plus_distr_r. unfold Rdiv. rewrite Rmult_assoc, Rinv_l by lra. nra.
      + apply Rmult_le_reg_r with (cell n); [lra|]. unfold Rdiv. rewrite Rmult_assoc, Rinv_l by lra. nra.
  Qed.
  Lemma sub_ex c d : a <= c -> c <= d -> d <= b -> ex_RInt f c d.
  Proof.
    intros. apply (ex_RInt_Chasles_2 (V := R_CompleteNormedModule) f a c d); [lra|]. apply (ex_RInt_Chasles_1 (V := R_CompleteNormedModule) f a d b); [lra|exact Hf].
  Qed.
  Lemma step_ex n : ex_RInt (step n) a b.
  Proof.
    pose proof (cell_pos n) as Hc. pose proof (cell_end n) as He.
    assert (G : forall j, (j <= S n)%nat -> ex_RInt (step n) a (a + cell n * INR j)).
    { induction j as [|j IH]; intros Hj.
      - simpl. rewrite Rmult_0_r, Rplus_0_r. apply ex_RInt_point.
      - assert (Hle : cell n * INR j <= cell n * INR (S j)) by (apply Rmult_le_compat_l; [lra|apply le_INR; lia]).
        assert (Hjn : cell n * INR (S j) <= cell n * INR (S n)) by (apply Rmult_le_compat_l; [lra|apply le_INR; lia]).
        assert (H0 : 0 <= cell n * INR j) by (apply Rmult_le_pos; [lra|apply pos_INR]).
        apply (ex_RInt_Chasles (V := R_NormedModule) (step n) a (a + cell n * INR j)); [apply IH; lia|].
        apply (ex_RInt_ext (V := R_NormedModule) (fun x => scal (g (a + cell n * INR j)) (f x))).
        + intros x. rewrite Rmin_left, Rmax_right by lra. intros Hx. rewrite (step_piece n j x) by (lia || exact Hx). reflexivity.
        + apply (ex_RInt_scal (V := R_NormedModule)). apply sub_ex; lra. }
    specialize (G (S n) (le_n _)). rewrite He in G. exact G.
  Qed.
  Lemma left_end_near n x : a <= x < b -> a <= left_end n x <= x /\ x - left_end n x <= cell n.
  Proof.
    intros Hx. pose proof (cell_pos n) as Hc. unfold left_end. destruct (base_Int_part ((x - a) / cell n)) as [H1 H2].
    set (z := IZR (Int_part ((x - a) / cell n))) in *.
    assert (E : (x - a) / cell n * cell n = x - a) by (field; lra).
    assert (Hq : 0 <= (x - a) / cell n) by (apply Rdiv_le_0_compat; lra).
    assert (Hz : 0 <= z).
    { unfold z. apply IZR_le. assert (-1 < Int_part ((x - a) / cell n))%Z; [|lia]. apply lt_IZR. fold z. lra. }
    assert (cell n * z <= x - a) by nra. assert (0 <= cell n * z) by nra. assert (x - a - cell n * z <= cell n) by nra. lra.
  Qed.
  Lemma product_ex : ex_RInt (fun x => f x * g x) a b.
  Proof.
    destruct (ex_RInt_ub f a b Hf) as [M HM].
    assert (HK : 0 <= K).
    { assert (Ha : a <= a <= b) by lra. assert (Hb : a <= b <= b) by lra. pose proof (Hg b a Hb Ha) as H.
      pose proof (Rabs_pos (g b - g a)). rewrite (Rabs_right (b - a)) in H by lra. nra. }
    assert (HM' : forall t, a <= t <= b -> Rabs (f t) <= M).
    { intros t Ht. specialize (HM t). rewrite Rmin_left, Rmax_right in HM by lra. exact (HM Ht). }
    assert (HM0 : 0 <= M). { pose proof (HM' a (conj (Rle_refl a) (Rlt_le _ _ Hab))). pose proof (Rabs_pos (f a)). lra. }
    destruct (filterlim_RInt (V := R_CompleteNormedModule) step a b eventually eventually_filter (fun x => inside x (f x * g x)) (fun n => RInt (step n) a b)) as [v [_ Hv]].
    - intros n. apply (RInt_correct (V := R_CompleteNormedModule)). apply step_ex.
    - intros P [eps HP].
      assert (Hbig : 0 <= M * K * (b - a)) by (repeat apply Rmult_le_pos; lra).
      destruct (archimed_cor1 (eps / (M * K * (b - a) + 1))) as [m [Hm Hm0]].
      { apply Rdiv_lt_0_compat; [apply cond_pos|lra]. }
      exists m. intros n Hn. apply HP. intros x. unfold ball. simpl. unfold AbsRing_ball, abs, minus, plus, opp. simpl.
      unfold step, inside. destruct (Rle_dec a x) as [A|A]; [|rewrite Ropp_0, Rplus_0_r, Rabs_R0; apply cond_pos].
      destruct (Rlt_dec x b) as [B|B]; [|rewrite Ropp_0, Rplus_0_r, Rabs_R0; apply cond_pos].
      destruct (left_end_near n x (conj A B)) as [L1 L2].
      replace (f x * g (left_end n x) + - (f x * g x)) with (f x * (g (left_end n x) - g x)) by ring.
      rewrite Rabs_mult.
      assert (Hd : Rabs (g (left_end n x) - g x) <= K * cell n).
      { eapply Rle_trans; [apply Hg; lra|]. apply Rmult_le_compat_l; [lra|]. rewrite Rabs_minus_sym, Rabs_right; lra. }
      assert (Hcl : cell n <= (b - a) * / INR m).
      { unfold cell, Rdiv. apply Rmult_le_compat_l; [lra|]. apply Rinv_le_contravar; [apply lt_0_INR; lia|apply le_INR; lia]. }
      pose proof (cell_pos n) as Hc. pose proof (HM' x (conj A (Rlt_le _ _ B))) as Hfx. pose proof (Rabs_pos (f x)). pose proof (Rabs_pos (g (left_end n x) - g x)).
      apply Rle_lt_trans with (M * (K * cell n)); [apply Rmult_le_compat; auto|].
      apply Rle_lt_trans with (M * K * (b - a) * / INR m).
      { rewrite !Rmult_assoc. apply Rmult_le_compat_l; [lra|]. apply Rmult_le_compat_l; lra. }
      assert (Him : 0 < / INR m) by (apply Rinv_0_lt_compat, lt_0_INR; lia).
      apply Rle_lt_trans with ((M * K * (b - a) + 1) * / INR m); [nra|].
      apply Rlt_le_trans with ((M * K * (b - a) + 1) * (eps / (M * K * (b - a) + 1))); [apply Rmult_lt_compat_l; lra|].
      right. field. lra.
    - exists v. apply (is_RInt_ext (V := R_NormedModule) (fun x => inside x (f x * g x))); [|exact Hv].
      intros x. rewrite Rmin_left, Rmax_right by lra. intros Hx. unfold inside. destruct (Rle_dec a x); [|lra]. destruct (Rlt_dec x b); [reflexivity|lra].
  Qed.
End Product.

(** ** The loss and the risk *)
Definition loss (x : R) : R := x * x / (x * x + 9 / 400).
(** the expected loss of the estimate [zp] under the density [f] between [a] and [b] *)
Definition risk (f : R -> R) (a b zp : R) : R := RInt (fun z => f z * loss ((zp - z) / (1 + z))) a b.

Lemma loss_range x : 0 <= loss x < 1.
Proof.
  unfold loss. assert (0 <= x * x) by nra. split; [apply Rdiv_le_0_compat; lra|].
  apply Rmult_lt_reg_r with (x * x + 9 / 400); [lra|]. unfold Rdiv at 1. rewrite Rmult_assoc, Rinv_l by lra. lra.
Qed.
Lemma loss_le x y : x * x <= y * y -> loss x <= loss y.
Proof.
  intros H. unfold loss. assert (0 <= x * x) by nra. apply Rmult_le_reg_r with ((x * x + 9 / 400) * (y * y + 9 / 400)); [nra|].
  replace (x * x / (x * x + 9 / 400) * ((x * x + 9 / 400) * (y * y + 9 / 400))) with (x * x * (y * y + 9 / 400)) by (field; nra).
  replace (y * y / (y * y + 9 / 400) * ((x * x + 9 / 400) * (y * y + 9 / 400))) with (y * y * (x * x + 9 / 400)) by (field; nra). nra.
Qed.
Lemma loss_diff x y : loss x - loss y = 9 / 400 * (x - y) * (x / ((x * x + 9 / 400) * (y * y + 9 / 400)) + y / ((x * x + 9 / 400) * (y * y + 9 / 400))).
Proof. unfold loss. field. split; nra. Qed.
Lemma half_bound x : Rabs x / (x * x + 9 / 400) <= 10 / 3.
Proof.
  assert (0 <= x * x) by nra. apply Rmult_le_reg_r with (x * x + 9 / 400); [lra|]. unfold Rdiv at 1. rewrite Rmult_assoc, Rinv_l by lra.
  assert (Hx : x * x = Rabs x * Rabs x) by (rewrite <- Rabs_mult, Rabs_right; nra). rewrite Hx. pose proof (Rle_0_sqr (Rabs x - 3 / 20)) as H2. unfold Rsqr in H2. lra.
Qed.
Lemma loss_lip x y : Rabs (loss x - loss y) <= 20 / 3 * Rabs (x - y).
Proof.
  rewrite loss_diff, !Rabs_mult. rewrite (Rabs_right (9 / 400)) by lra.
  assert (Hx : 0 < x * x + 9 / 400) by nra. assert (Hy : 0 < y * y + 9 / 400) by nra.
  assert (B : forall u v, Rabs (u / ((u * u + 9 / 400) * (v * v + 9 / 400))) <= 10 / 3 * (400 / 9)).
  { intros u v. assert (Hu : 0 < u * u + 9 / 400) by nra. assert (Hv : 0 < v * v + 9 / 400) by nra.
    unfold Rdiv. rewrite Rinv_mult. rewrite <- Rmult_assoc. rewrite Rabs_mult, (Rabs_right (/ (v * v + _))) by (left; apply Rinv_0_lt_compat; lra).
    rewrite Rabs_mult, (Rabs_right (/ (u * u + _))) by (left; apply Rinv_0_lt_compat; lra). pose proof (half_bound u) as Hh. unfold Rdiv in Hh.
    apply Rmult_le_compat; [|left; apply Rinv_0_lt_compat; lra|lra|].
    - apply Rmult_le_pos; [apply Rabs_pos|left; apply Rinv_0_lt_compat; lra].
    - replace (400 * / 9) with (/ (9 * / 400)) by (field). apply Rinv_le_contravar; [lra|]. nra. }
  assert (S : Rabs (x / ((x * x + 9 / 400) * (y * y + 9 / 400)) + y / ((x * x + 9 / 400) * (y * y + 9 / 400))) <= 20 / 3 * (400 / 9)).
  { eapply Rle_trans; [apply Rabs_triang|]. pose proof (B x y). pose proof (B y x) as B2. rewrite (Rmult_comm (y * y + _)) in B2. lra. }
  pose proof (Rabs_pos (x - y)). nra.
Qed.

Section Risk.
  Variables (f : R -> R) (a b : R).
  Hypotheses (Ha : -1 < a) (Hab : a <= b) (Hf : ex_RInt f a b) (Hpos : forall x, a <= x <= b -> 0 <= f x).
  Lemma weight_lip zp : lipschitz (20 / 3 * (Rabs (zp + 1) * (/ (1 + a) * / (1 + a)))) (fun z => loss ((zp - z) / (1 + z))) a b.
  Proof using Ha.
    intros x y Hx Hy. eapply Rle_trans; [apply loss_lip|]. rewrite Rmult_assoc. apply Rmult_le_compat_l; [lra|].
    replace ((zp - x) / (1 + x) - (zp - y) / (1 + y)) with ((zp + 1) * (/ (1 + x) * / (1 + y)) * (y - x)) by (field; lra).
    rewrite !Rabs_mult, (Rabs_minus_sym y x). apply Rmult_le_compat_r; [apply Rabs_pos|]. apply Rmult_le_compat_l; [apply Rabs_pos|].
    rewrite (Rabs_right (/ (1 + x))), (Rabs_right (/ (1 + y))) by (left; apply Rinv_0_lt_compat; lra).
    apply Rmult_le_compat; try (left; apply Rinv_0_lt_compat; lra); apply Rinv_le_contravar; lra.
  Qed.
  Lemma risk_ex zp : ex_RInt (fun z => f z * loss ((zp - z) / (1 + z))) a b.
  Proof using Ha Hab Hf.
    destruct (Rle_lt_or_eq_dec a b Hab) as [H|H]; [|rewrite <- H; apply ex_RInt_point].
    exact (product_ex f (fun z => loss ((zp - z) / (1 + z))) a b _ H Hf (weight_lip zp)).
  Qed.
  Lemma risk_range zp : 0 <= risk f a b zp <= RInt f a b.
  Proof using Ha Hab Hf Hpos.
    unfold risk. split.
    - rewrite <- (Rmult_0_r (b - a)), <- (RInt_const (V := R_CompleteNormedModule) a b 0 : RInt (fun _ => 0) a b = (b - a) * 0). apply RInt_le; [exact Hab|apply ex_RInt_const|apply risk_ex|].
      intros x Hx. assert (Hx' : a <= x <= b) by lra. pose proof (Hpos x Hx'). pose proof (loss_range ((zp - x) / (1 + x))). nra.
    - apply RInt_le; [exact Hab|apply risk_ex|exact Hf|]. intros x Hx. assert (Hx' : a <= x <= b) by lra. pose proof (Hpos x Hx').
      pose proof (loss_range ((zp - x) / (1 + x))). nra.
  Qed.
  Lemma risk_le zp zq : (forall z, a < z < b -> (zp - z) * (zp - z) <= (zq - z) * (zq - z)) -> risk f a b zp <= risk f a b zq.
  Proof using Ha Hab Hf Hpos.
    intros H. unfold risk. apply RInt_le; [exact Hab|apply risk_ex|apply risk_ex|]. intros x Hx. assert (Hx' : a <= x <= b) by lra.
    apply Rmult_le_compat_l; [apply Hpos; exact Hx'|]. apply loss_le. specialize (H x Hx). unfold Rdiv.
    assert (0 < / (1 + x)) by (apply Rinv_0_lt_compat; lra).
    replace ((zp - x) * / (1 + x) * ((zp - x) * / (1 + x))) with ((zp - x) * (zp - x) * (/ (1 + x) * / (1 + x))) by ring.
    replace ((zq - x) * / (1 + x) * ((zq - x) * / (1 + x))) with ((zq - x) * (zq - x) * (/ (1 + x) * / (1 + x))) by ring.
    apply Rmult_le_compat_r; [nra|exact H].
  Qed.
  Lemma risk_right zp : b <= zp -> risk f a b b <= risk f a b zp.
  Proof using Ha Hab Hf Hpos. intros H. apply risk_le. intros z Hz. nra. Qed.
  Lemma risk_left zp : zp <= a -> risk f a b a <= risk f a b zp.
  Proof using Ha Hab Hf Hpos. intros H. apply risk_le. intros z Hz. nra. Qed.
  Lemma risk_lip zp zq : Rabs (risk f a b zp - risk f a b zq) <= 20 / 3 * / (1 + a) * RInt f a b * Rabs (zp - zq).
  Proof using Ha Hab Hf Hpos.
    unfold risk. pose proof (RInt_minus (V := R_CompleteNormedModule) _ _ a b (risk_ex zp) (risk_ex zq)) as E.
    change (RInt (fun x => f x * loss ((zp - x) / (1 + x)) - f x * loss ((zq - x) / (1 + x))) a b =
            RInt (fun z => f z * loss ((zp - z) / (1 + z))) a b - RInt (fun z => f z * loss ((zq - z) / (1 + z))) a b) in E.
    rewrite <- E. clear E. set (C := 20 / 3 * / (1 + a) * Rabs (zp - zq)).
    assert (Hd : ex_RInt (fun x => f x * loss ((zp - x) / (1 + x)) - f x * loss ((zq - x) / (1 + x))) a b) by (apply (ex_RInt_minus (V := R_NormedModule)); apply risk_ex).
    replace (20 / 3 * / (1 + a) * RInt f a b * Rabs (zp - zq)) with (C * RInt f a b) by (unfold C; ring).
    eapply Rle_trans; [apply abs_RInt_le; [exact Hab|exact Hd]|].
    change (C * RInt f a b) with (scal C (RInt f a b)). rewrite <- (RInt_scal (V := R_CompleteNormedModule) f a b C Hf).
    apply RInt_le; [exact Hab|apply (ex_RInt_norm _ a b Hd)|apply (ex_RInt_scal (V := R_NormedModule)); exact Hf|].
    intros x Hx. assert (Hx' : a <= x <= b) by lra. pose proof (Hpos x Hx') as Hfx.
    replace (f x * loss ((zp - x) / (1 + x)) - f x * loss ((zq - x) / (1 + x))) with (f x * (loss ((zp - x) / (1 + x)) - loss ((zq - x) / (1 + x)))) by ring.
    rewrite Rabs_mult, (Rabs_right (f x)) by lra. change (scal C (f x)) with (C * f x). rewrite (Rmult_comm C). apply Rmult_le_compat_l; [exact Hfx|].
    eapply Rle_trans; [apply loss_lip|]. unfold C. rewrite Rmult_assoc. apply Rmult_le_compat_l; [lra|].
    replace ((zp - x) / (1 + x) - (zq - x) / (1 + x)) with (/ (1 + x) * (zp - zq)) by (field; lra). rewrite Rabs_mult.
    apply Rmult_le_compat_r; [apply Rabs_pos|]. rewrite Rabs_right by (left; apply Rinv_0_lt_compat; lra). apply Rinv_le_contravar; lra.
  Qed.
  Lemma risk_continuous zp : continuity_pt (risk f a b) zp.
  Proof using Ha Hab Hf Hpos.
    intros eps He. set (C := 20 / 3 * / (1 + a) * RInt f a b).
    assert (Hm : 0 <= RInt f a b) by (pose proof (risk_range 0); lra).
    assert (HC : 0 <= C) by (unfold C; apply Rmult_le_pos; [apply Rmult_le_pos; [lra|left; apply Rinv_0_lt_compat; lra]|exact Hm]).
    exists (eps / (C + 1)). split; [apply Rdiv_lt_0_compat; lra|]. intros x [_ Hx]. simpl in *. unfold R_dist in *.
    eapply Rle_lt_trans; [apply risk_lip|]. fold C. pose proof (Rabs_pos (x - zp)).
    apply Rle_lt_trans with ((C + 1) * Rabs (x - zp)); [nra|]. apply Rlt_le_trans with ((C + 1) * (eps / (C + 1))); [apply Rmult_lt_compat_l; lra|].
    right. field. lra.
  Qed.
  (** the risk has a smallest value, at a place between the bounds of integration *)
  Lemma risk_attained : exists m, a <= m <= b /\ forall zp, risk f a b m <= risk f a b zp.
  Proof using Ha Hab Hf Hpos.
    destruct (continuity_ab_min (risk f a b) a b Hab (fun c _ => risk_continuous c)) as [m [Hm Hin]].
    exists m. split; [exact Hin|]. intros zp. destruct (Rle_dec a zp) as [H1|H1]; [destruct (Rle_dec zp b) as [H2|H2]|].
    - apply Hm. lra.
    - apply Rle_trans with (risk f a b b); [apply Hm; lra|apply risk_right; lra].
    - apply Rle_trans with (risk f a b a); [apply Hm; lra|apply risk_left; lra].
  Qed.
  Lemma risk_gap zp zq D X : 0 < D -> 0 < RInt f a b ->
    (forall z, a <= z <= b -> (zp - z) / (1 + z) * ((zp - z) / (1 + z)) + D <= (zq - z) / (1 + z) * ((zq - z) / (1 + z)) <= X) ->
    risk f a b zp < risk f a b zq.
  Proof using Ha Hab Hf Hpos.
    intros HD Hm H.
    assert (HX : 0 < X). { assert (Hin : a <= a <= b) by lra. specialize (H a Hin). assert (0 <= (zp - a) / (1 + a) * ((zp - a) / (1 + a))) by apply Rle_0_sqr. lra. }
    set (d := 9 / 400 * D / ((X + 9 / 400) * (X + 9 / 400))).
    assert (Hd : 0 < d) by (unfold d; apply Rdiv_lt_0_compat; nra).
    assert (G : risk f a b zp + d * RInt f a b <= risk f a b zq); [|nra].
    unfold risk. change (d * RInt f a b) with (scal d (RInt f a b)). rewrite <- (RInt_scal (V := R_CompleteNormedModule) f a b d Hf).
    assert (Hs : ex_RInt (fun x => scal d (f x)) a b) by (apply (ex_RInt_scal (V := R_NormedModule)); exact Hf).
    pose proof (RInt_plus (V := R_CompleteNormedModule) _ _ a b (risk_ex zp) Hs) as E.
    match type of E with _ = ?r => change (r <= RInt (fun z => f z * loss ((zq - z) / (1 + z))) a b) end. rewrite <- E. clear E.
    apply RInt_le; [exact Hab|apply (ex_RInt_plus (V := R_NormedModule)); [apply risk_ex|exact Hs]|apply risk_ex|].
    intros x Hx. assert (Hx' : a <= x <= b) by lra. pose proof (Hpos x Hx') as Hfx. specialize (H x Hx').
    change (f x * loss ((zp - x) / (1 + x)) + d * f x <= f x * loss ((zq - x) / (1 + x))).
    cut (loss ((zp - x) / (1 + x)) + d <= loss ((zq - x) / (1 + x))); [nra|].
    unfold loss. set (u := (zp - x) / (1 + x) * ((zp - x) / (1 + x))) in *. set (v := (zq - x) / (1 + x) * ((zq - x) / (1 + x))) in *.
    assert (Hu : 0 <= u) by (unfold u; apply Rle_0_sqr).
    cut (d <= v / (v + 9 / 400) - u / (u + 9 / 400)); [lra|].
    replace (v / (v + 9 / 400) - u / (u + 9 / 400)) with (9 / 400 * (v - u) / ((v + 9 / 400) * (u + 9 / 400))) by (field; lra).
    unfold d, Rdiv. rewrite !Rmult_assoc. apply Rmult_le_compat_l; [lra|]. apply Rmult_le_compat_l; [lra|].
    apply Rmult_le_compat; [lra|left; apply Rinv_0_lt_compat; nra|lra|]. apply Rinv_le_contravar; [nra|]. apply Rmult_le_compat; lra.
  Qed.
  Lemma risk_beyond zp : 0 < RInt f a b -> b < zp -> risk f a b b < risk f a b zp.
  Proof using Ha Hab Hf Hpos.
    intros Hm Hz. apply (risk_gap b zp ((zp - b) / (1 + b) * ((zp - b) / (1 + b))) ((zp - a) / (1 + a) * ((zp - a) / (1 + a)))); [|exact Hm|].
    - apply Rmult_lt_0_compat; apply Rdiv_lt_0_compat; lra.
    - intros z Hin. assert (H1 : 0 < / (1 + z)) by (apply Rinv_0_lt_compat; lra). assert (H2 : / (1 + b) <= / (1 + z)) by (apply Rinv_le_contravar; lra).
      assert (H3 : / (1 + z) <= / (1 + a)) by (apply Rinv_le_contravar; lra). assert (H4 : 0 < / (1 + b)) by (apply Rinv_0_lt_compat; lra). unfold Rdiv.
      assert (Hx : (zp - b) * / (1 + b) <= (zp - b) * / (1 + z)) by (apply Rmult_le_compat_l; lra).
      assert (Hx0 : 0 <= (zp - b) * / (1 + b)) by (apply Rmult_le_pos; lra).
      assert (Hy : 0 <= (b - z) * / (1 + z)) by (apply Rmult_le_pos; lra).
      assert (Hs : (zp - z) * / (1 + z) = (zp - b) * / (1 + z) + (b - z) * / (1 + z)) by ring.
      assert (Ht : (zp - z) * / (1 + z) <= (zp - a) * / (1 + a)) by (apply Rmult_le_compat; lra).
      split; [rewrite Hs|]; nra.
  Qed.
  Lemma risk_before zp : 0 < RInt f a b -> zp < a -> risk f a b a < risk f a b zp.
  Proof using Ha Hab Hf Hpos.
    intros Hm Hz. apply (risk_gap a zp ((a - zp) / (1 + b) * ((a - zp) / (1 + b))) ((b - zp) / (1 + a) * ((b - zp) / (1 + a)))); [|exact Hm|].
    - apply Rmult_lt_0_compat; apply Rdiv_lt_0_compat; lra.
    - intros z Hin. assert (H1 : 0 < / (1 + z)) by (apply Rinv_0_lt_compat; lra). assert (H2 : / (1 + b) <= / (1 + z)) by (apply Rinv_le_contravar; lra).
      assert (H3 : / (1 + z) <= / (1 + a)) by (apply Rinv_le_contravar; lra). assert (H4 : 0 < / (1 + b)) by (apply Rinv_0_lt_compat; lra). unfold Rdiv.
      assert (Hx : (a - zp) * / (1 + b) <= (a - zp) * / (1 + z)) by (apply Rmult_le_compat_l; lra).
      assert (Hx0 : 0 <= (a - zp) * / (1 + b)) by (apply Rmult_le_pos; lra).
      assert (Hy : 0 <= (z - a) * / (1 + z)) by (apply Rmult_le_pos; lra).
      replace ((a - z) * / (1 + z)) with (- ((z - a) * / (1 + z))) by ring.
      replace ((zp - z) * / (1 + z)) with (- ((z - zp) * / (1 + z))) by ring.
      assert (Hs : (z - zp) * / (1 + z) = (a - zp) * / (1 + z) + (z - a) * / (1 + z)) by ring.
      assert (Ht : (z - zp) * / (1 + z) <= (b - zp) * / (1 + a)) by (apply Rmult_le_compat; lra).
      split; [rewrite Hs|]; nra.
  Qed.
  (** the places of the smallest risk lie between the bounds of integration *)
  Lemma risk_minimum_inside m : 0 < RInt f a b -> (forall zp, risk f a b m <= risk f a b zp) -> a <= m <= b.
  Proof using Ha Hab Hf Hpos.
    intros Hm H. split.
    - destruct (Rle_dec a m) as [|G]; [assumption|]. pose proof (risk_before m Hm) as B. pose proof (H a). lra.
    - destruct (Rle_dec m b) as [|G]; [assumption|]. pose proof (risk_beyond m Hm) as B. pose proof (H b). lra.
  Qed.
End Risk.
