(** Facts about the numbers: reflection of the boolean tests on [R], rounding,
    finite sums. *)
From Coq Require Import ZArith QArith Reals Bool List Lra Lia Psatz.
From Verif Require Import Num.
Import ListNotations.
Local Open Scope R_scope.

(** Turn the class projections at [RNum] into the real operations. *)
Ltac numR := cbn [n0 n1 nadd nsub nmul ndiv nopp nleb nofZ nfloor RNum] in *.

Lemma Rleb_reflect a b : reflect (a <= b) (Rleb a b).
Proof. unfold Rleb. destruct (Rle_dec a b); constructor; auto. Qed.

Lemma Rleb_true a b : Rleb a b = true <-> a <= b.
Proof. destruct (Rleb_reflect a b); split; intros; try congruence; auto; contradiction. Qed.
Lemma Rleb_false a b : Rleb a b = false <-> b < a.
Proof. destruct (Rleb_reflect a b); split; intros; try congruence; lra. Qed.

Lemma nleb_reflect (a b : R) : reflect (a <= b) (nleb a b).
Proof. apply Rleb_reflect. Qed.
Lemma nltb_reflect (a b : R) : reflect (a < b) (nltb a b).
Proof. unfold nltb. numR. destruct (Rleb_reflect b a); constructor; lra. Qed.
Lemma neqb_reflect (a b : R) : reflect (a = b) (neqb a b).
Proof. unfold neqb. numR.
  destruct (Rleb_reflect a b), (Rleb_reflect b a); simpl; constructor; lra. Qed.

(** Destruct the first numeric test found in the goal. *)
Ltac ncase :=
  match goal with
  | |- context [@nleb R RNum ?a ?b] => destruct (nleb_reflect a b)
  | |- context [@nltb R RNum ?a ?b] => destruct (nltb_reflect a b)
  | |- context [@neqb R RNum ?a ?b] => destruct (neqb_reflect a b)
  | |- context [Rleb ?a ?b] => destruct (Rleb_reflect a b)
  end.
Ltac ncase_in H :=
  match type of H with
  | context [@nleb R RNum ?a ?b] => destruct (nleb_reflect a b)
  | context [@nltb R RNum ?a ?b] => destruct (nltb_reflect a b)
  | context [@neqb R RNum ?a ?b] => destruct (neqb_reflect a b)
  | context [Rleb ?a ?b] => destruct (Rleb_reflect a b)
  end.

Lemma nabs_R (a : R) : nabs a = Rabs a.
Proof. unfold nabs. ncase; numR; [rewrite Rabs_pos_eq|rewrite Rabs_left]; lra. Qed.
Lemma nmin_R (a b : R) : nmin a b = Rmin a b.
Proof. unfold nmin, Rmin. ncase; destruct (Rle_dec a b); lra. Qed.
Lemma nmax_R (a b : R) : nmax a b = Rmax a b.
Proof. unfold nmax, Rmax. ncase; destruct (Rle_dec a b); lra. Qed.
Lemma nhalf_R : (nhalf : R) = 1/2.
Proof. unfold nhalf, nfrac. numR. reflexivity. Qed.
Lemma npow_R (x : R) n : npow x n = x ^ n.
Proof. induction n; simpl; numR; auto. rewrite IHn; auto. Qed.

(** Floor. *)
Lemma nfloor_spec (x : R) : IZR (nfloor x) <= x < IZR (nfloor x) + 1.
Proof. numR. pose proof (base_Int_part x). lra. Qed.

Lemma nfloor_unique (x : R) (z : Z) : IZR z <= x < IZR z + 1 -> nfloor x = z.
Proof.
  intros H. pose proof (nfloor_spec x) as F.
  assert (IZR (nfloor x) < IZR z + 1) by lra.
  assert (IZR z < IZR (nfloor x) + 1) by lra.
  rewrite <- plus_IZR in *. apply lt_IZR in H0, H1. lia.
Qed.

Lemma nfloor_ge (x : R) z : IZR z <= x -> (z <= nfloor x)%Z.
Proof. intros. pose proof (nfloor_spec x).
  assert (IZR z < IZR (nfloor x + 1)) by (rewrite plus_IZR; lra).
  apply lt_IZR in H1. lia. Qed.
Lemma nfloor_lt (x : R) z : x < IZR z -> (nfloor x < z)%Z.
Proof. intros. pose proof (nfloor_spec x).
  apply lt_IZR. lra. Qed.

(** Rounding to nearest. *)
Lemma nround_error (x : R) : Rabs (IZR (nround x) - x) <= 1/2.
Proof.
  pose proof (nfloor_spec x) as F. unfold nround. rewrite nhalf_R.
  repeat ncase; numR; try destruct (Z.even _); rewrite ?plus_IZR;
    apply Rabs_le; lra.
Qed.

Lemma nround_IZR (z : Z) : nround (IZR z : R) = z.
Proof.
  assert (nfloor (IZR z) = z) by (apply nfloor_unique; lra).
  unfold nround. rewrite H, nhalf_R. numR. ncase; auto. lra.
Qed.

Lemma nround_unique (x : R) z : Rabs (IZR z - x) < 1/2 -> nround x = z.
Proof.
  intros H. pose proof (nround_error x) as E.
  apply Rabs_def2 in H. apply Rabs_le_inv in E || idtac.
  assert (E' : -(1/2) <= IZR (nround x) - x <= 1/2).
  { unfold Rabs in E. destruct (Rcase_abs _); lra. }
  assert (IZR (nround x) < IZR (z + 1)) by (rewrite plus_IZR; lra).
  assert (IZR z < IZR (nround x + 1)) by (rewrite plus_IZR; lra).
  apply lt_IZR in H0, H1. lia.
Qed.

Lemma nround_mono (x y : R) : x <= y -> (nround x <= nround y)%Z.
Proof.
  intros H.
  destruct (Z_le_gt_dec (nround x) (nround y)) as [|G]; auto. exfalso.
  pose proof (nround_error x) as Ex. pose proof (nround_error y) as Ey.
  assert (IZR (nround y) + 1 <= IZR (nround x)).
  { rewrite <- plus_IZR. apply IZR_le. lia. }
  assert (-(1/2) <= IZR (nround x) - x <= 1/2) by (unfold Rabs in Ex; destruct (Rcase_abs _); lra).
  assert (-(1/2) <= IZR (nround y) - y <= 1/2) by (unfold Rabs in Ey; destruct (Rcase_abs _); lra).
  assert (x = y) by lra. subst. lia.
Qed.

(** Finite sums over R. *)
Lemma nsum_nil : nsum ([] : list R) = 0.
Proof. reflexivity. Qed.
Lemma nsum_cons (a : R) l : nsum (a :: l) = a + nsum l.
Proof. reflexivity. Qed.
Lemma nsum_app (l1 l2 : list R) : nsum (l1 ++ l2) = nsum l1 + nsum l2.
Proof. induction l1; simpl; rewrite ?nsum_cons, ?nsum_nil; [lra|]. rewrite IHl1. lra. Qed.
Lemma nsum_map_scale (c : R) l : nsum (map (fun x => x * c) l) = nsum l * c.
Proof. induction l; simpl; rewrite ?nsum_cons, ?nsum_nil; [lra|]. rewrite IHl. lra. Qed.
Lemma nsum_map_div (c : R) l : nsum (map (fun x => x / c) l) = nsum l / c.
Proof. apply nsum_map_scale. Qed.
Lemma nsum_nonneg (l : list R) : Forall (fun x => 0 <= x) l -> 0 <= nsum l.
Proof. induction 1; rewrite ?nsum_cons, ?nsum_nil; lra. Qed.
Lemma nsum_map_plus {A} (f g : A -> R) l :
  nsum (map (fun x => f x + g x) l) = nsum (map f l) + nsum (map g l).
Proof. induction l; simpl; rewrite ?nsum_cons, ?nsum_nil; lra. Qed.
Lemma nsum_le {A} (f g : A -> R) l : (forall x, In x l -> f x <= g x) ->
  nsum (map f l) <= nsum (map g l).
Proof. induction l; simpl; intros; rewrite ?nsum_cons, ?nsum_nil; [lra|].
  assert (f a <= g a) by auto. assert (nsum (map f l) <= nsum (map g l)) by auto. lra. Qed.
