(** Riemann integrals of piecewise functions, running sums. *)
From Coq Require Import List Arith ZArith Bool Sorted Lia Reals Lra Psatz.
From Coquelicot Require Import Coquelicot.
From Verif Require Import Num NumProofs NumpyLib SortProofs InterpProofs.
Import ListNotations.
Local Open Scope R_scope.

(** ** Running sums *)
Lemma cum_step (acc : R) l j : (j < length l)%nat ->
  nth0 (S j) (acc :: ncumsum_from acc l) = nth0 j (acc :: ncumsum_from acc l) + nth0 j l.
Proof.
  revert acc j. induction l as [|a l IH]; intros acc j Hj; [simpl in Hj; lia|].
  destruct j; [reflexivity|].
  change (nth0 (S j) ((acc + a) :: ncumsum_from (acc + a) l) =
          nth0 j ((acc + a) :: ncumsum_from (acc + a) l) + nth0 j l).
  apply IH. simpl in Hj. lia.
Qed.
Lemma cumsum_length (acc : R) l : length (ncumsum_from acc l) = length l.
Proof. revert acc. induction l; simpl; auto. Qed.
Lemma cum_last (acc : R) l : nlast (acc :: ncumsum_from acc l) = acc + nsum l.
Proof.
  revert acc. induction l as [|a l IH]; intros acc.
  - unfold nlast; simpl. lra.
  - change (nlast (acc :: ncumsum_from acc (a :: l))) with (nlast ((acc + a) :: ncumsum_from (acc + a) l)).
    rewrite IH, nsum_cons. lra.
Qed.
Lemma cum_nth (acc : R) l j : (j <= length l)%nat ->
  nth0 j (acc :: ncumsum_from acc l) = acc + nsum (firstn j l).
Proof.
  revert acc l. induction j; intros acc l Hj.
  - unfold nth0; simpl. lra.
  - destruct l as [|a l]; [simpl in Hj; lia|].
    change (nth0 (S j) (acc :: ncumsum_from acc (a :: l))) with (nth0 j ((acc + a) :: ncumsum_from (acc + a) l)).
    rewrite IHj by (simpl in Hj; lia). cbn [firstn]. rewrite nsum_cons. lra.
Qed.
Lemma step_nondecreasing (l : list R) :
  (forall j, (S j < length l)%nat -> nth0 j l <= nth0 (S j) l) -> nondecreasing l.
Proof.
  intros H. apply nth_ss. intros i j [Hij Hj]. induction j; [lia|].
  destruct (Nat.eq_dec i j); [subst; apply H; lia|].
  apply Rle_trans with (nth0 j l); [apply IHj; lia|apply H; lia].
Qed.
Lemma step_increasing (l : list R) :
  (forall j, (S j < length l)%nat -> nth0 j l < nth0 (S j) l) -> increasing l.
Proof.
  intros H. apply nth_ss. intros i j [Hij Hj]. induction j; [lia|].
  destruct (Nat.eq_dec i j); [subst; apply H; lia|].
  apply Rlt_trans with (nth0 j l); [apply IHj; lia|apply H; lia].
Qed.
Lemma cum_nondecreasing (acc : R) l : List.Forall (fun x => 0 <= x) l -> nondecreasing (acc :: ncumsum_from acc l).
Proof.
  intros H. apply step_nondecreasing. intros j Hj. cbn [length] in Hj. rewrite cumsum_length in Hj.
  rewrite cum_step by lia. rewrite Forall_forall in H.
  assert (0 <= nth0 j l) by (apply H; apply nth_In; lia). lra.
Qed.

(** ** Integrals *)
Lemma is_RInt_open_ext (f g : R -> R) a b l : a <= b -> (forall x, a < x < b -> f x = g x) ->
  is_RInt f a b l -> is_RInt g a b l.
Proof.
  intros Hab H. apply is_RInt_ext. intros x. rewrite Rmin_left, Rmax_right by lra. auto.
Qed.

Lemma is_RInt_constant (f : R -> R) a b c : a <= b -> (forall x, a < x < b -> f x = c) ->
  is_RInt f a b ((b - a) * c).
Proof.
  intros Hab H. apply (is_RInt_open_ext (fun _ => c)); auto. { intros; symmetry; auto. }
  apply (@is_RInt_const R_CompleteNormedModule).
Qed.

Lemma is_RInt_affine (f : R -> R) a b m c : a <= b -> (forall x, a < x < b -> f x = m * (x - a) + c) ->
  is_RInt f a b (m * (b - a) * (b - a) / 2 + c * (b - a)).
Proof.
  intros Hab H. apply (is_RInt_open_ext (fun x => m * (x - a) + c)); auto. { intros; symmetry; auto. }
  replace (m * (b - a) * (b - a) / 2 + c * (b - a)) with
    (minus (m * (b - a) * (b - a) / 2 + c * (b - a)) (m * (a - a) * (a - a) / 2 + c * (a - a)))
    by (unfold minus, plus, opp; simpl; lra).
  apply (is_RInt_derive (fun x => m * (x - a) * (x - a) / 2 + c * (x - a)) (fun x => m * (x - a) + c)).
  - intros x _. auto_derive; auto. lra.
  - intros x _. apply (ex_derive_continuous (fun x => m * (x - a) + c)). auto_derive; auto.
Qed.

Lemma is_RInt_join (f : R -> R) a b c l1 l2 : is_RInt f a b l1 -> is_RInt f b c l2 -> is_RInt f a c (l1 + l2).
Proof. intros. apply (is_RInt_Chasles f a b c l1 l2); auto. Qed.

(** Glue the integrals over consecutive segments. *)
Lemma piecewise_integral (f : R -> R) (bins c : list R) (I : nat -> R -> R) :
  increasing bins -> nth0 0 c = 0 ->
  (forall j x, (S j < length bins)%nat -> nth0 j bins <= x <= nth0 (S j) bins -> is_RInt f (nth0 j bins) x (I j x)) ->
  (forall j, (S j < length bins)%nat -> nth0 (S j) c = nth0 j c + I j (nth0 (S j) bins)) ->
  forall j x, (S j < length bins)%nat -> nth0 j bins <= x <= nth0 (S j) bins ->
  is_RInt f (nth0 0 bins) x (nth0 j c + I j x).
Proof.
  intros Hs H0 Hi Hc.
  assert (K : forall j, (j < length bins)%nat -> is_RInt f (nth0 0 bins) (nth0 j bins) (nth0 j c)).
  { induction j; intros Hj.
    - rewrite H0. apply (@is_RInt_point R_CompleteNormedModule).
    - rewrite Hc by auto. apply is_RInt_join with (nth0 j bins); [apply IHj; lia|].
      apply Hi; auto. split; [apply inc_le; auto; lia|lra]. }
  intros j x Hj Hx. apply is_RInt_join with (nth0 j bins); [apply K; lia|apply Hi; auto].
Qed.
