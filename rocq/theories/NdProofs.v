(** Facts about n-d arrays: rows, reshaping. *)
From Coq Require Import List Arith ZArith Bool Lia.
From Verif Require Import Num Py NdArray Utils EvalProofs.
Import ListNotations.

Lemma prod_cons n s : prod (n :: s) = n * prod s.
Proof. reflexivity. Qed.
Lemma prod_app s1 s2 : prod (s1 ++ s2) = prod s1 * prod s2.
Proof. induction s1; cbn [app]; rewrite ?prod_cons; [unfold prod at 2; simpl; lia|]. rewrite IHs1. lia. Qed.
Lemma prod_removelast s : s <> [] -> prod (removelast s) * last s 0 = prod s.
Proof.
  intros. rewrite (app_removelast_last 0 H) at 3. rewrite prod_app. unfold prod at 3. simpl. lia.
Qed.

Lemma chunks_rows {A} n k (l : list A) r : length l = n * k -> In r (chunks n k l) -> length r = k.
Proof.
  revert l. induction n; simpl; intros l Hl Hr; [destruct Hr|].
  destruct Hr as [<-|Hr].
  - rewrite firstn_length. lia.
  - apply IHn with (skipn k l); auto. rewrite skipn_length. lia.
Qed.
Lemma chunks_in {A} n k (l r : list A) : In r (chunks n k l) -> forall x, In x r -> In x l.
Proof.
  revert l. induction n; simpl; intros l H x Hx; [destruct H|].
  destruct H as [<-|H].
  - rewrite <- (firstn_skipn k l). apply in_app_iff. auto.
  - rewrite <- (firstn_skipn k l). apply in_app_iff. right. eapply IHn; eauto.
Qed.
Lemma concat_chunks {A} n k (l : list A) : length l = n * k -> concat (chunks n k l) = l.
Proof.
  revert l. induction n; simpl; intros l H.
  - destruct l; simpl in H; [auto|lia].
  - rewrite IHn by (rewrite skipn_length; lia). apply firstn_skipn.
Qed.

(** [reshape_to_pdf_size(vals, -1)] gives the rows along the last axis. *)
Lemma reshape_rows_of {A} (a b : nd A) : shp a <> [] -> reshape_to_pdf_size a = Ok b ->
  rows_of b = chunks (prod (removelast (shp a))) (last (shp a) 0) (dat a) /\
  length (dat a) = prod (removelast (shp a)) * last (shp a) 0.
Proof.
  intros Hn E. unfold reshape_to_pdf_size in E. destruct (shp a) as [|s0 s] eqn:Es; [congruence|].
  unfold np_reshape in E.
  destruct (prod (prod (removelast (s0 :: s)) :: [last (s0 :: s) 0]) =? length (dat a)) eqn:L; [|discriminate E].
  apply Nat.eqb_eq in L. injection E as <-. rewrite prod_cons in L.
  assert (P1 : forall n, prod [n] = n) by (intros; unfold prod; simpl; lia). rewrite P1 in L.
  split; [|lia]. unfold rows_of. cbn [shp dat]. rewrite P1. reflexivity.
Qed.
Lemma reshape_ok {A} (a : nd A) : nd_wf a -> shp a <> [] -> exists b, reshape_to_pdf_size a = Ok b.
Proof.
  intros Hw Hn. unfold reshape_to_pdf_size. destruct (shp a) as [|s0 s] eqn:Es; [congruence|].
  unfold np_reshape. rewrite prod_cons.
  replace (prod [last (s0 :: s) 0]) with (last (s0 :: s) 0) by (unfold prod; simpl; lia).
  unfold nd_wf in Hw. rewrite Hw, Es. rewrite prod_removelast by congruence. rewrite Nat.eqb_refl. eauto.
Qed.
Lemma reshape_rows {A} (a b : nd A) : shp a <> [] -> reshape_to_pdf_size a = Ok b ->
  forall r, In r (rows_of b) -> length r = last (shp a) 0.
Proof.
  intros Hn E r Hr. destruct (reshape_rows_of a b Hn E) as [E2 L]. rewrite E2 in Hr. eapply chunks_rows; eauto.
Qed.
