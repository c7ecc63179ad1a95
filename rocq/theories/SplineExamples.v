(** Examples for the splines. *)
From Coq Require Import String List Arith ZArith Bool Lia Reals Lra.
From Coquelicot Require Import Coquelicot.
From Verif Require Import Num NumProofs Py NdArray NumpyLib Utils ScipyWrap Spec Values Ensemble Classes SplinePdf SplineXy
  SortProofs BinProofs EvalProofs NdProofs InterpProofs IntegralProofs HistProofs PackedTheorems PackingTheorems MixmodTheorems SplineProofs SplineMath Kinds KindProofs EnsembleProofs KindInputs ReachProofs EnsembleTheorems RowProofs IntegrateTheorems SplineTheorems SplineXyTheorems.
Import ListNotations.
Local Open Scope string_scope.
Local Open Scope list_scope.
Local Open Scope R_scope.

(** ** Two knots, two coefficients: the straight line 2 (1 - x) on [0, 1] *)
Definition line_knots : list R := [0; 0; 1; 1].
Definition line_coefs : list R := [2; 0; 0; 0].
Lemma neqb_eq (a b : R) : a = b -> neqb a b = true.
Proof. intros H. destruct (neqb_reflect a b); [reflexivity|contradiction]. Qed.
Lemma neqb_ne (a b : R) : a <> b -> neqb a b = false.
Proof. intros H. destruct (neqb_reflect a b); [contradiction|reflexivity]. Qed.
Ltac ndec := repeat match goal with |- context [neqb ?a ?b] => first [rewrite (neqb_eq a b) by (numR; lra) | rewrite (neqb_ne a b) by (numR; lra)] end.
Lemma line_value x : splev line_knots line_coefs 1 x = 2 * (1 - x).
Proof.
  unfold splev, span, last_steps, line_knots, line_coefs. cbn [length Nat.sub find_span]. unfold piece. cbn [seq map Nat.sub Nat.add bspl Nat.eqb nth0 nth].
  unfold nth0. cbn [nth]. ndec. cbn [nsum fold_right]. numR. unfold Rdiv. field.
Qed.
Lemma line_ordered : ordered line_knots.
Proof. intros i j Hj. unfold line_knots in *. cbn [length] in Hj. unfold nth0. do 4 (destruct i as [|i]; [do 4 (destruct j as [|j]; [cbn [nth]; try lra; lia|]); lia|]). lia. Qed.

(** ** The cubic polynomial through four equally spaced points, as a spline without inner knots *)
Definition bezier (a b c0 c1 c2 c3 : R) : list R * list R * nat := ([a; a; a; a; b; b; b; b], [c0; c1; c2; c3; 0; 0; 0; 0], 3%nat).
Definition splrep4 (x y : list R) : res (list R * list R * nat) :=
  match x, y with
  | [a; _; _; b], [y0; y1; y2; y3] => Ok (bezier a b y0 ((-5 * y0 + 18 * y1 - 9 * y2 + 2 * y3) / 6) ((2 * y0 - 9 * y1 + 18 * y2 - 5 * y3) / 6) y3)
  | _, _ => Err TypeError
  end.
Definition quadR (f : R -> R) (a b : R) : R := RInt f a b.
Lemma quadR_exact : quad_exact quadR.
Proof. intros f a b _. reflexivity. Qed.
Lemma bezier_value a b c0 c1 c2 c3 x : a < b -> splev [a; a; a; a; b; b; b; b] [c0; c1; c2; c3; 0; 0; 0; 0] 3 x =
  (c0 * (b - x) ^ 3 + 3 * c1 * (x - a) * (b - x) ^ 2 + 3 * c2 * (x - a) ^ 2 * (b - x) + c3 * (x - a) ^ 3) / (b - a) ^ 3.
Proof.
  intros Hab. unfold splev, span, last_steps. cbn [length Nat.sub find_span]. unfold piece. cbn [seq map Nat.sub Nat.add bspl Nat.eqb]. unfold nth0. cbn [nth]. ndec. cbn [nsum fold_right]. numR. field. lra.
Qed.
Lemma bezier_ordered a b : a < b -> ordered [a; a; a; a; b; b; b; b].
Proof.
  intros Hab i j Hj. cbn [length] in Hj. unfold nth0.
  do 8 (destruct i as [|i]; [do 8 (destruct j as [|j]; [cbn [nth]; first [lra|lia]|]); lia|]). lia.
Qed.
Lemma bezier_integral a b c0 c1 c2 c3 : a < b -> is_RInt (splev [a; a; a; a; b; b; b; b] [c0; c1; c2; c3; 0; 0; 0; 0] 3) a b ((b - a) * (c0 + c1 + c2 + c3) / 4).
Proof.
  intros Hab. set (t := [a; a; a; a; b; b; b; b]). set (c := [c0; c1; c2; c3; 0; 0; 0; 0]).
  assert (Lo : forall y, In y t -> a <= y) by (intros y Hy; cbn [t In] in Hy; intuition subst; lra).
  pose proof (splint_integral t c 3 (bezier_ordered a b Hab) ltac:(cbn; lia) ltac:(lia) a b Lo) as H.
  replace (first_knot t 3) with a in H by reflexivity. replace (last_knot t 3) with b in H by reflexivity. replace (clamp a b b) with b in H by clamps.
  replace (splint t c 3 a b) with ((b - a) * (c0 + c1 + c2 + c3) / 4) in H; [exact H|]. symmetry.
  unfold splint. change (last_steps t 3) with 0%nat. cbn [seq map]. change (nth0 3 t) with a. change (nth0 4 t) with b.
  rewrite !clip_eq by lra. replace (clamp a b a) with a by clamps. replace (clamp a b b) with b by clamps.
  unfold boole. change (piece t c 3 3) with (fun z => splev t c 3 z). cbv beta. unfold t, c. rewrite !bezier_value by exact Hab. cbn [nsum fold_right]. numR. field. lra.
Qed.
Lemma splrep4_interpolant a b y0 y1 y2 y3 : a < b ->
  interpolant splrep4 [a; a + (b - a) / 3; a + 2 * (b - a) / 3; b] [y0; y1; y2; y3]
    [a; a; a; a; b; b; b; b] [y0; (-5 * y0 + 18 * y1 - 9 * y2 + 2 * y3) / 6; (2 * y0 - 9 * y1 + 18 * y2 - 5 * y3) / 6; y3; 0; 0; 0; 0] 3.
Proof.
  intros Hab. unfold interpolant. split; [reflexivity|]. split.
  { intros s Hs. cbn [map splrep4]. unfold bezier. apply f_equal, (f_equal (fun l => (_, l, _))). repeat (apply f_equal2; [field; exact Hs|]). reflexivity. }
  split; [apply bezier_ordered; exact Hab|]. split; [reflexivity|]. split; [lia|]. split; [cbn; lia|].
  intros i Hi. cbn [length] in Hi. do 4 (destruct i as [|i]; [unfold nth0; cbn [nth]; rewrite bezier_value by exact Hab; field; lra|]). lia.
Qed.

(** ** The examples *)
(** C114, C115: a reachable ensemble with one spline *)
Lemma c114_example : exists e M f F, made scipy1 M e /\ g_name (e_obj e) = "spline" /\ e_npdf e = 1%nat /\ spline_table e 4 [line_knots] [line_coefs] [1%nat] /\
  ordered line_knots /\ (forall i, (i < 2)%nat -> 0 <= nth0 i line_coefs) /\
  computes (ens_pdf e) 1 f /\ computes (ens_cdf e) 1 F /\ is_spline line_knots line_coefs 1 (f 0%nat) /\ is_base_integral line_knots 1 (f 0%nat) (F 0%nat) /\
  (forall x, f 0%nat x = 2 * (1 - x)) /\ F 0%nat 2 = 1.
Proof.
  destruct (spline_rows 4 1 (fun _ => line_knots) (fun _ => line_coefs) (fun _ => 1%nat)) as (g & _ & Gn & Gname & Gd & (e & M & Hm & <-) & G); [lia|intros r _; cbn; lia|].
  destruct (G (e_func e) (e_ancil e) (e_gridded e)) as [Gf GF].
  exists e, M, (fun _ => splev line_knots line_coefs 1), (fun _ => splint line_knots line_coefs 1 (nminimum (nhead line_knots) (tl line_knots))).
  split; [exact Hm|]. split; [exact Gname|]. split; [exact Gn|].
  split. { unfold spline_table, objdata. rewrite Gd. unfold e_npdf. rewrite Gn. cbn [vget dget String.eqb Ascii.eqb Bool.eqb seq map]. repeat split; intros l [<-|[]]; reflexivity. }
  split; [apply line_ordered|]. split. { intros i Hi. do 2 (destruct i as [|i]; [unfold nth0, line_coefs; cbn [nth]; lra|]). lia. }
  split; [exact Gf|]. split; [exact GF|]. split; [apply row_is_spline; [apply line_ordered|cbn; lia]|].
  split. { intros x. apply splint_integral; [apply line_ordered|cbn; lia|lia|]. intros y Hy. apply min_in_list. exact Hy. }
  split; [apply line_value|].
  set (t := line_knots). set (c := line_coefs). replace (nminimum (nhead t) (tl t)) with 0 by (symmetry; apply least_eq; cbn; [auto|intros v Hv; intuition lra]).
  unfold splint. change (last_steps t 1) with 0%nat. cbn [seq map]. change (nth0 1 t) with 0. change (nth0 2 t) with 1. rewrite !clip_eq by lra. replace (clamp 0 1 0) with 0 by clamps. replace (clamp 0 1 2) with 1 by clamps.
  unfold boole. change (piece t c 1 1) with (fun z => splev t c 1 z). cbv beta. unfold t, c. rewrite !line_value. cbn [nsum fold_right]. numR. field.
Qed.
(** C116: two PDFs on the same points *)
Definition points4 : list (list R) := [[0; 1; 2; 3]; [0; 1; 2; 3]].
Definition values4 : list (list R) := [[0; 1; 1; 0]; [1; 1; 1; 1]].
Definition knots4 : list R := [0; 0; 0; 0; 3; 3; 3; 3].
Lemma points_interpolant a b x1 x2 y0 y1 y2 y3 c1 c2 : a < b -> x1 = a + (b - a) / 3 -> x2 = a + 2 * (b - a) / 3 ->
  c1 = (-5 * y0 + 18 * y1 - 9 * y2 + 2 * y3) / 6 -> c2 = (2 * y0 - 9 * y1 + 18 * y2 - 5 * y3) / 6 ->
  interpolant splrep4 [a; x1; x2; b] [y0; y1; y2; y3] [a; a; a; a; b; b; b; b] [y0; c1; c2; y3; 0; 0; 0; 0] 3.
Proof. intros H -> -> -> ->. apply splrep4_interpolant. exact H. Qed.
Lemma c116_example : exists e f F, ens_new (spline_from_xy splrep4 quadR) [("xvals", VArr (nd2 4 points4)); ("yvals", VArr (nd2 4 values4))] None = Ok e /\
  e_npdf e = 2%nat /\ computes (ens_pdf e) 2 f /\ computes (ens_cdf e) 2 F /\ f 0%nat 1 = 4 / 9 /\ f 1%nat 1 = 1 / 3 /\ F 0%nat 3 = 1 /\ F 1%nat 4 = 1.
Proof.
  set (Cs := fun r : nat => match r with O => [0; 3 / 2; 3 / 2; 0; 0; 0; 0; 0] | _ => [1; 1; 1; 1; 0; 0; 0; 0] end).
  assert (J0 : is_RInt (splev knots4 (Cs 0%nat) 3) 0 3 (9 / 4)) by (replace (9 / 4) with ((3 - 0) * (0 + 3 / 2 + 3 / 2 + 0) / 4) by field; apply bezier_integral; lra).
  assert (J1 : is_RInt (splev knots4 (Cs 1%nat) 3) 0 3 3) by (pose proof (bezier_integral 0 3 1 1 1 1 ltac:(lra)) as J; replace ((3 - 0) * (1 + 1 + 1 + 1) / 4) with 3 in J by field; exact J).
  destruct (c116_xy splrep4 quadR 4 8 points4 values4 (fun _ => knots4) Cs (fun _ => 3%nat) 0 3) as (e & f & F & E & En & _ & Ef & EF & Er).
  - lia.
  - discriminate.
  - reflexivity.
  - intros l Hl. cbn in Hl. intuition subst; reflexivity.
  - intros l Hl. cbn in Hl. intuition subst; reflexivity.
  - intros r Hr. cbn [points4 length] in Hr. do 2 (destruct r as [|r]; [apply points_interpolant; lra|]). lia.
  - reflexivity.
  - apply quadR_exact.
  - split; [cbn; auto|]. intros v Hv. cbn in Hv. intuition lra.
  - split; [cbn; auto 10|]. intros v Hv. cbn in Hv. intuition lra.
  - intros r Hr. cbn [points4 length] in Hr. destruct r as [|[|r]]; [| |lia]; [rewrite (is_RInt_unique (V := R_CompleteNormedModule) _ _ _ _ J0)|rewrite (is_RInt_unique (V := R_CompleteNormedModule) _ _ _ _ J1)]; lra.
  - exists e, f, F. split; [exact E|]. split; [exact En|]. split; [exact Ef|]. split; [exact EF|].
    destruct (Er 0%nat ltac:(cbn; lia)) as ((I0 & _ & I1 & I2) & _ & _ & _ & I3). destruct (Er 1%nat ltac:(cbn; lia)) as ((I4 & _ & I5 & I6) & _ & _ & _ & I7).
    apply (is_RInt_unique (V := R_CompleteNormedModule)) in J0, J1, I1, I5. assert (I0 = 9 / 4) as -> by congruence. assert (I4 = 3) as -> by congruence.
    split; [rewrite (I2 1%nat ltac:(lia) : f 0%nat 1 = _); unfold nth0; cbn [nth values4]; lra|]. split; [rewrite (I6 1%nat ltac:(lia) : f 1%nat 1 = _); unfold nth0; cbn [nth values4]; lra|].
    split; [apply I3|apply I7]; try reflexivity; lra.
Qed.

(** C116: values that are not negative can still give a negative density between the points *)
Lemma c116_negative : exists e f, ens_new (spline_from_xy splrep4 quadR) [("xvals", VArr (nd2 4 [[0; 1; 2; 3]])); ("yvals", VArr (nd2 4 [[1; 0; 0; 1]]))] None = Ok e /\
  computes (ens_pdf e) 1 f /\ f 0%nat (3 / 2) = - 1 / 6.
Proof.
  set (c := [1; - 1 / 2; - 1 / 2; 1; 0; 0; 0; 0]).
  assert (J : is_RInt (splev knots4 c 3) 0 3 (3 / 4)) by (replace (3 / 4) with ((3 - 0) * (1 + - 1 / 2 + - 1 / 2 + 1) / 4) by field; apply bezier_integral; lra).
  apply (is_RInt_unique (V := R_CompleteNormedModule)) in J.
  destruct (c116_xy splrep4 quadR 4 8 [[0; 1; 2; 3]] [[1; 0; 0; 1]] (fun _ => knots4) (fun _ => c) (fun _ => 3%nat) 0 3) as (e & f & F & E & En & _ & Ef & EF & Er).
  - lia.
  - discriminate.
  - reflexivity.
  - intros l Hl. cbn in Hl. intuition subst; reflexivity.
  - intros l Hl. cbn in Hl. intuition subst; reflexivity.
  - intros r Hr. cbn [length] in Hr. destruct r as [|r]; [apply points_interpolant; lra|lia].
  - reflexivity.
  - apply quadR_exact.
  - split; [cbn; auto|]. intros v Hv. cbn in Hv. intuition lra.
  - split; [cbn; auto 10|]. intros v Hv. cbn in Hv. intuition lra.
  - intros r _. rewrite J. lra.
  - exists e, f. split; [exact E|]. split; [exact Ef|]. destruct (Er 0%nat ltac:(cbn; lia)) as (_ & (Hs & _) & _). rewrite Hs by (unfold first_knot, last_knot, nth0; cbn [knots4 length nth Nat.sub]; lra).
    etransitivity; [symmetry; apply (splev_B knots4 _ 3 (bezier_ordered 0 3 ltac:(lra)) ltac:(cbn; lia)); unfold first_knot, last_knot, nth0; cbn [knots4 length nth Nat.sub]; lra|].
    rewrite splev_scaled, J. unfold knots4, c. rewrite bezier_value by lra. lra.
Qed.
(** C116: the second PDF reaches further than the first one, which is normalised over the range of both: its cdf ends at 1/2 *)
Lemma c116_ranges : exists e f F, ens_new (spline_from_xy splrep4 quadR) [("xvals", VArr (nd2 4 [[0; 1; 2; 3]; [0; 2; 4; 6]])); ("yvals", VArr (nd2 4 [[1; 1; 1; 1]; [1; 1; 1; 1]]))] None = Ok e /\
  computes (ens_pdf e) 2 f /\ computes (ens_cdf e) 2 F /\ (forall x, 0 <= x < 3 -> f 0%nat x = 1 / 6) /\ (forall x, 3 <= x -> F 0%nat x = 1 / 2) /\ (forall x, 6 <= x -> F 1%nat x = 1).
Proof.
  set (c := [1; 1; 1; 1; 0; 0; 0; 0]). set (Ts := fun r : nat => match r with O => knots4 | _ => [0; 0; 0; 0; 6; 6; 6; 6] end).
  assert (V : forall r x, splev (Ts r) c 3 x = 1) by (intros [|r] x; unfold Ts, knots4, c; rewrite bezier_value by lra; field).
  assert (J : forall r, RInt (splev (Ts r) c 3) 0 6 = 6).
  { intros r. rewrite (RInt_ext _ (fun _ => 1)) by (intros; apply V). rewrite RInt_const. unfold scal. cbn. unfold mult. cbn. lra. }
  destruct (c116_xy splrep4 quadR 4 8 [[0; 1; 2; 3]; [0; 2; 4; 6]] [[1; 1; 1; 1]; [1; 1; 1; 1]] Ts (fun _ => c) (fun _ => 3%nat) 0 6) as (e & f & F & E & En & _ & Ef & EF & Er).
  - lia.
  - discriminate.
  - reflexivity.
  - intros l Hl. cbn in Hl. intuition subst; reflexivity.
  - intros l Hl. cbn in Hl. intuition subst; reflexivity.
  - intros r Hr. cbn [length] in Hr. do 2 (destruct r as [|r]; [apply points_interpolant; lra|]). lia.
  - intros [|r] _; reflexivity.
  - apply quadR_exact.
  - split; [cbn; auto|]. intros v Hv. cbn in Hv. intuition lra.
  - split; [cbn; auto 10|]. intros v Hv. cbn in Hv. intuition lra.
  - intros r _. rewrite J. lra.
  - exists e, f, F. split; [exact E|]. split; [exact Ef|]. split; [exact EF|].
    destruct (Er 0%nat ltac:(cbn; lia)) as (_ & (Hs & _) & _ & Hb & _). destruct (Er 1%nat ltac:(cbn; lia)) as (_ & _ & _ & _ & H1).
    assert (Hf : forall x, 0 <= x < 3 -> f 0%nat x = 1 / 6).
    { intros x Hx. rewrite Hs by (unfold first_knot, last_knot, nth0; cbn [Ts knots4 length nth Nat.sub]; lra).
      etransitivity; [symmetry; apply (splev_B knots4 _ 3 (bezier_ordered 0 3 ltac:(lra)) ltac:(cbn; lia)); unfold first_knot, last_knot, nth0; cbn [knots4 length nth Nat.sub]; lra|].
      change knots4 with (Ts 0%nat). rewrite splev_scaled, J. rewrite (V 0%nat x). lra. }
    split; [exact Hf|]. split; [|intros x Hx; apply H1; try reflexivity; exact Hx].
    intros x Hx. pose proof (Hb x) as B0. change (first_knot (Ts 0%nat) 3) with 0 in B0. change (last_knot (Ts 0%nat) 3) with 3 in B0. replace (clamp 0 3 x) with 3 in B0 by clamps.
    apply (is_RInt_unique (V := R_CompleteNormedModule)) in B0. rewrite <- B0. rewrite (RInt_ext _ (fun _ => 1 / 6)).
    + rewrite RInt_const. unfold scal. cbn. unfold mult. cbn. lra.
    + intros y Hy. rewrite Rmin_left, Rmax_right in Hy by lra. apply Hf. lra.
Qed.
(** C117: a density estimate x (3 - x) at four points *)
Definition kde4 (l : list R) : res (R -> R) := match l with [] => Err ValueError | _ => Ok (fun x => x * (3 - x)) end.
Lemma c117_example : exists e f F, ens_new (spline_from_samples splrep4 quadR kde4) [("xvals", VArr (nd1 [0; 1; 2; 3])); ("samples", VArr (nd2 2 [[1; 2]; [0; 3]]))] None = Ok e /\
  e_npdf e = 2%nat /\ computes (ens_pdf e) 2 f /\ computes (ens_cdf e) 2 F /\ f 1%nat 1 = 4 / 9 /\ F 1%nat 3 = 1.
Proof.
  set (c := [0; 3; 3; 0; 0; 0; 0; 0]). set (D := fun (_ : nat) (x : R) => x * (3 - x)).
  assert (J : is_RInt (splev knots4 c 3) 0 3 (9 / 2)) by (replace (9 / 2) with ((3 - 0) * (0 + 3 + 3 + 0) / 4) by field; apply bezier_integral; lra).
  pose proof (is_RInt_unique (V := R_CompleteNormedModule) _ _ _ _ J) as J'.
  destruct (c117_samples splrep4 quadR kde4 2 8 [0; 1; 2; 3] [[1; 2]; [0; 3]] D (fun _ => knots4) (fun _ => c) (fun _ => 3%nat) 0 3) as (e & f & F & E & En & _ & Ef & EF & Er).
  - discriminate.
  - discriminate.
  - intros l Hl. cbn in Hl. intuition subst; reflexivity.
  - intros r Hr. cbn [length] in Hr. do 2 (destruct r as [|r]; [reflexivity|]). lia.
  - intros r _. cbn [map]. unfold D. replace (0 * (3 - 0)) with 0 by ring. replace (3 * (3 - 3)) with 0 by ring. apply points_interpolant; lra.
  - reflexivity.
  - apply quadR_exact.
  - split; [cbn; auto|]. intros v Hv. cbn in Hv. intuition lra.
  - split; [cbn; auto 10|]. intros v Hv. cbn in Hv. intuition lra.
  - intros r _. rewrite J'. lra.
  - exists e, f, F. split; [exact E|]. split; [exact En|]. split; [exact Ef|]. split; [exact EF|].
    destruct (Er 1%nat ltac:(cbn; lia)) as ((I0 & _ & I1 & I2) & _ & _ & _ & I3). apply (is_RInt_unique (V := R_CompleteNormedModule)) in I1. assert (I0 = 9 / 2) as -> by congruence.
    split; [rewrite (I2 1%nat ltac:(cbn; lia) : f 1%nat 1 = _); unfold D, nth0; cbn [nth]; lra|]. apply I3; try reflexivity; lra.
Qed.
