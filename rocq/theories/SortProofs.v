(** Sorting and unique: correctness of [sort_by], [unique_by]. *)
From Coq Require Import List Arith Bool Sorted Permutation Lia Reals Lra.
From Verif Require Import Num NumProofs NumpyLib.
Import ListNotations.

Section SortBy.
  Context {A : Type} (leb : A -> A -> bool).
  Hypothesis leb_total : forall a b, leb a b = true \/ leb b a = true.
  Hypothesis leb_trans : forall a b c, leb a b = true -> leb b c = true -> leb a c = true.
  Hypothesis leb_antisym : forall a b, leb a b = true -> leb b a = true -> a = b.

  Let le a b := leb a b = true.
  Definition lt_by a b := leb a b = true /\ a <> b.

  Lemma leb_refl a : leb a a = true.
  Proof. destruct (leb_total a a); auto. Qed.

  Lemma insert_by_perm x l : Permutation (x :: l) (insert_by leb x l).
  Proof.
    induction l; simpl; auto. destruct (leb x a); auto.
    eapply perm_trans; [apply perm_swap|]. auto.
  Qed.
  Lemma sort_by_perm l : Permutation l (sort_by leb l).
  Proof. induction l; simpl; auto. eapply perm_trans; [|apply insert_by_perm]. auto. Qed.

  Lemma insert_by_sorted x l : StronglySorted le l -> StronglySorted le (insert_by leb x l).
  Proof.
    induction 1 as [|y l Hs IH Hf]; simpl.
    - repeat constructor.
    - destruct (leb x y) eqn:E.
      + constructor; [constructor; auto|]. constructor; auto.
        eapply Forall_impl; [|exact Hf]. intros z Hz. eapply leb_trans; eauto.
      + constructor; auto. apply Forall_forall. intros z Hz.
        apply (Permutation_in z (Permutation_sym (insert_by_perm x l))) in Hz.
        destruct Hz as [->|Hz].
        * destruct (leb_total z y); auto. congruence.
        * rewrite Forall_forall in Hf. auto.
  Qed.
  Lemma sort_by_sorted l : StronglySorted le (sort_by leb l).
  Proof. induction l; simpl; [constructor|]. apply insert_by_sorted; auto. Qed.

  Lemma dedup_by_in x l : In x (dedup_by leb l) <-> In x l.
  Proof.
    induction l as [|a l IH]; [reflexivity|].
    destruct l as [|b l]; [reflexivity|].
    change (dedup_by leb (a :: b :: l)) with
      (if leb a b && leb b a then dedup_by leb (b :: l) else a :: dedup_by leb (b :: l)).
    destruct (leb a b && leb b a) eqn:E.
    - apply andb_prop in E. destruct E as [E1 E2].
      assert (a = b) by (apply leb_antisym; auto). subst.
      rewrite IH. simpl. tauto.
    - simpl in *. rewrite IH. tauto.
  Qed.

  Lemma dedup_by_sorted l : StronglySorted le l -> StronglySorted lt_by (dedup_by leb l).
  Proof.
    induction 1 as [|a l Hs IH Hf]; [constructor|].
    destruct l as [|b l]; [repeat constructor|].
    change (dedup_by leb (a :: b :: l)) with
      (if leb a b && leb b a then dedup_by leb (b :: l) else a :: dedup_by leb (b :: l)).
    destruct (leb a b && leb b a) eqn:E; auto.
    constructor; auto. apply Forall_forall. intros z Hz.
    rewrite dedup_by_in in Hz. rewrite Forall_forall in Hf. split; [apply Hf; auto|].
    intros Hcon. subst a.
    assert (leb z b = true) by (apply Hf; left; auto).
    assert (leb b z = true).
    { destruct Hz as [->|Hz]; [apply leb_refl|]. inversion Hs as [|? ? ? Hf2]; subst. rewrite Forall_forall in Hf2. apply Hf2; auto. }
    rewrite H, H0 in E. discriminate.
  Qed.

  Lemma unique_by_in x l : In x (unique_by leb l) <-> In x l.
  Proof.
    unfold unique_by. rewrite dedup_by_in. split; apply Permutation_in;
      [symmetry|]; apply sort_by_perm.
  Qed.
  Lemma unique_by_sorted l : StronglySorted lt_by (unique_by leb l).
  Proof. apply dedup_by_sorted, sort_by_sorted. Qed.

  Lemma strict_sorted_nodup l : StronglySorted lt_by l -> NoDup l.
  Proof.
    induction 1; constructor; auto. intro. rewrite Forall_forall in H0.
    destruct (H0 _ H1); auto.
  Qed.
  Lemma unique_by_nodup l : NoDup (unique_by leb l).
  Proof. apply strict_sorted_nodup, unique_by_sorted. Qed.

  (** A strictly sorted list is determined by its elements. *)
  Lemma strict_sorted_unique l1 l2 :
    StronglySorted lt_by l1 -> StronglySorted lt_by l2 ->
    (forall x, In x l1 <-> In x l2) -> l1 = l2.
  Proof.
    intros H1. revert l2. induction H1 as [|a l1 Hs IH Hf]; intros l2 H2 E.
    - destruct l2; auto. exfalso. apply (E a). left; auto.
    - destruct l2 as [|b l2]; [exfalso; apply (E a); left; auto|].
      inversion H2 as [|? ? Hs2 Hf2]; subst. rewrite Forall_forall in Hf. rewrite Forall_forall in Hf2.
      assert (a = b).
      { destruct (proj1 (E a) (or_introl eq_refl)) as [->|Ha]; auto.
        destruct (proj2 (E b) (or_introl eq_refl)) as [->|Hb]; auto.
        destruct (Hf _ Hb), (Hf2 _ Ha). apply leb_antisym; auto. }
      subst b. f_equal. apply IH; auto. intros x. split; intros Hx.
      + destruct (proj1 (E x) (or_intror Hx)); auto. subst. exfalso. destruct (Hf _ Hx); auto.
      + destruct (proj2 (E x) (or_intror Hx)); auto. subst. exfalso. destruct (Hf2 _ Hx); auto.
  Qed.

  Lemma unique_by_ext l1 l2 : (forall x, In x l1 <-> In x l2) -> unique_by leb l1 = unique_by leb l2.
  Proof.
    intros E. apply strict_sorted_unique; try apply unique_by_sorted.
    intros. rewrite !unique_by_in. auto.
  Qed.
  Lemma unique_by_id l : StronglySorted lt_by l -> unique_by leb l = l.
  Proof. intros. apply strict_sorted_unique; auto. apply unique_by_sorted. intros; apply unique_by_in. Qed.

  Lemma nodup_sorted_strict l : NoDup l -> StronglySorted le l -> StronglySorted lt_by l.
  Proof.
    intros Hn. induction 1; [constructor|]. inversion Hn; subst. constructor; auto.
    rewrite Forall_forall in *. intros z Hz. split; [apply H0; auto|]. intros ->. auto.
  Qed.
  Lemma unique_by_sort l : NoDup l -> unique_by leb l = sort_by leb l.
  Proof.
    intros. apply strict_sorted_unique; [apply unique_by_sorted| |].
    - apply nodup_sorted_strict; [|apply sort_by_sorted].
      eapply Permutation_NoDup; [apply sort_by_perm|auto].
    - intros. rewrite unique_by_in. split; apply Permutation_in;
      [|symmetry]; apply sort_by_perm.
  Qed.
  Lemma unique_by_length_nodup l : length (unique_by leb l) = length l <-> NoDup l.
  Proof.
    split; intros.
    - eapply NoDup_incl_NoDup with (l := unique_by leb l).
      + apply unique_by_nodup.
      + lia.
      + intros x. apply unique_by_in.
    - rewrite unique_by_sort by auto. symmetry. apply Permutation_length, sort_by_perm.
  Qed.
  Lemma unique_by_length_le l : length (unique_by leb l) <= length l.
  Proof. apply NoDup_incl_length. apply unique_by_nodup. intros x. apply unique_by_in. Qed.

  Lemma sorted_unique_perm l1 l2 : StronglySorted le l1 -> StronglySorted le l2 ->
    Permutation l1 l2 -> l1 = l2.
  Proof.
    intros H1. revert l2. induction H1 as [|a l1 Hs IH Hf]; intros l2 H2 P.
    - apply Permutation_nil in P. auto.
    - destruct l2 as [|b l2]; [symmetry in P; apply Permutation_nil in P; discriminate|].
      inversion H2 as [|? ? Hs2 Hf2]; subst. rewrite Forall_forall in Hf. rewrite Forall_forall in Hf2.
      assert (a = b).
      { assert (In a (b :: l2)) by (eapply Permutation_in; [exact P|left; auto]).
        assert (In b (a :: l1)) by (eapply Permutation_in; [symmetry; exact P|left; auto]).
        destruct H as [->|Ha]; auto. destruct H0 as [->|Hb]; auto.
        apply leb_antisym; [apply (Hf _ Hb)|apply (Hf2 _ Ha)]. }
      subst b. f_equal. apply IH; auto. eapply Permutation_cons_inv; eauto.
  Qed.
  Lemma sort_by_perm_eq l1 l2 : Permutation l1 l2 -> sort_by leb l1 = sort_by leb l2.
  Proof.
    intros. apply sorted_unique_perm; try apply sort_by_sorted.
    eapply perm_trans; [symmetry; apply sort_by_perm|].
    eapply perm_trans; [exact H|apply sort_by_perm].
  Qed.
  Lemma sort_by_id l : StronglySorted le l -> sort_by leb l = l.
  Proof. intros. apply sorted_unique_perm; auto. apply sort_by_sorted.
    symmetry. apply sort_by_perm. Qed.
End SortBy.

(** Instances: reals and naturals. *)
Section RInst.
  Local Open Scope R_scope.
  Lemma Rnleb_total (a b : R) : nleb a b = true \/ nleb b a = true.
  Proof. destruct (nleb_reflect a b), (nleb_reflect b a); auto. lra. Qed.
  Lemma Rnleb_trans (a b c : R) : nleb a b = true -> nleb b c = true -> nleb a c = true.
  Proof. destruct (nleb_reflect a b), (nleb_reflect b c), (nleb_reflect a c); auto; lra. Qed.
  Lemma Rnleb_antisym (a b : R) : nleb a b = true -> nleb b a = true -> a = b.
  Proof. destruct (nleb_reflect a b), (nleb_reflect b a); intros; try discriminate; lra. Qed.

  Lemma np_unique_in (x : R) l : In x (np_unique l) <-> In x l.
  Proof. apply unique_by_in. apply Rnleb_antisym. Qed.
  Lemma np_unique_nodup (l : list R) : NoDup (np_unique l).
  Proof. apply unique_by_nodup; [apply Rnleb_total|apply Rnleb_trans|apply Rnleb_antisym]. Qed.
  Lemma np_unique_ext (l1 l2 : list R) : (forall x, In x l1 <-> In x l2) -> np_unique l1 = np_unique l2.
  Proof. apply unique_by_ext; [apply Rnleb_total|apply Rnleb_trans|apply Rnleb_antisym]. Qed.
  Lemma np_unique_sort (l : list R) : NoDup l -> np_unique l = np_sort l.
  Proof. apply unique_by_sort; [apply Rnleb_total|apply Rnleb_trans|apply Rnleb_antisym]. Qed.
  Lemma np_unique_length_nodup (l : list R) : length (np_unique l) = length l <-> NoDup l.
  Proof. apply unique_by_length_nodup; [apply Rnleb_total|apply Rnleb_trans|apply Rnleb_antisym]. Qed.
  Lemma np_unique_length_le (l : list R) : (length (np_unique l) <= length l)%nat.
  Proof. apply unique_by_length_le; [apply Rnleb_total|apply Rnleb_trans|apply Rnleb_antisym]. Qed.
  Lemma np_sort_perm (l : list R) : Permutation l (np_sort l).
  Proof. apply sort_by_perm. Qed.
  Lemma np_sort_perm_eq (l1 l2 : list R) : Permutation l1 l2 -> np_sort l1 = np_sort l2.
  Proof. apply sort_by_perm_eq; [apply Rnleb_total|apply Rnleb_trans|apply Rnleb_antisym]. Qed.

  Lemma ss_weaken {A} (P Q : A -> A -> Prop) l :
    (forall a b, P a b -> Q a b) -> StronglySorted P l -> StronglySorted Q l.
  Proof. intros HPQ. induction 1 as [|a l Hs IH Hf]; constructor; auto.
    eapply Forall_impl; [|exact Hf]. intros; apply HPQ; auto. Qed.

  Lemma np_sort_sorted (l : list R) : StronglySorted Rle (np_sort l).
  Proof.
    eapply ss_weaken; [|apply sort_by_sorted; [apply Rnleb_total|apply Rnleb_trans]].
    intros a b. cbv beta. destruct (nleb_reflect a b); intros; auto; discriminate.
  Qed.
  Lemma np_sort_id (l : list R) : StronglySorted Rle l -> np_sort l = l.
  Proof.
    intros. apply sort_by_id; [apply Rnleb_total|apply Rnleb_trans|apply Rnleb_antisym|].
    eapply ss_weaken; [|exact H]. intros a b. cbv beta. destruct (nleb_reflect a b); auto.
  Qed.
  Lemma Rlt_sorted_le (l : list R) : StronglySorted Rlt l -> StronglySorted Rle l.
  Proof. apply ss_weaken. intros; lra. Qed.
  Lemma Rlt_sorted_nodup (l : list R) : StronglySorted Rlt l -> NoDup l.
  Proof. induction 1; constructor; auto. intro. rewrite Forall_forall in H0.
    pose proof (H0 _ H1). lra. Qed.
End RInst.

Lemma np_unique_nat_in x l : In x (np_unique_nat l) <-> In x l.
Proof. apply unique_by_in. intros a b Ha Hb. apply Nat.leb_le in Ha, Hb. lia. Qed.
Lemma np_unique_nat_sorted_id l : StronglySorted Nat.lt l -> np_unique_nat l = l.
Proof.
  intros. apply unique_by_id; auto.
  - intros a b. destruct (Nat.leb_spec a b), (Nat.leb_spec b a); auto; lia.
  - intros a b c Ha Hb. apply Nat.leb_le in Ha, Hb. apply Nat.leb_le. lia.
  - intros a b Ha Hb. apply Nat.leb_le in Ha, Hb. lia.
  - eapply ss_weaken; [|exact H]. intros a b Hab. split; [apply Nat.leb_le|]; lia.
Qed.
Lemma np_unique_nat_ext l1 l2 : (forall x, In x l1 <-> In x l2) -> np_unique_nat l1 = np_unique_nat l2.
Proof.
  intros. apply unique_by_ext; auto.
  - intros a b. destruct (Nat.leb_spec a b), (Nat.leb_spec b a); auto; lia.
  - intros a b c Ha Hb. apply Nat.leb_le in Ha, Hb. apply Nat.leb_le. lia.
  - intros a b Ha Hb. apply Nat.leb_le in Ha, Hb. lia.
Qed.
Lemma seq_sorted s n : StronglySorted Nat.lt (seq s n).
Proof.
  revert s. induction n; intros; simpl; constructor; auto.
  apply Forall_forall. intros x Hx. apply in_seq in Hx. unfold Nat.lt. lia.
Qed.
