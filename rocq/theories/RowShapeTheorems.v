(** Evaluation at arrays of the wrong shape (C134), and the checks of the goodness-of-fit metrics (C135). *)
From Coq Require Import String List Arith ZArith Bool Lia Reals Lra.
From Verif Require Import Num NumProofs Py NdArray NumpyLib Utils ScipyWrap Spec HistPdf InterpPdf QuantPdf MixmodPdf Packing PackedPdf SplinePdf
  Values Ensemble Classes Kinds EnsembleProofs KindInputs ReachProofs EnsembleTheorems RowProofs EvalProofs MatrixTheorems LogTheorems.
Import ListNotations.
Local Open Scope string_scope.
Local Open Scope list_scope.
Local Open Scope R_scope.

Definition fits (Y : list (list R)) (n : nat) : Prop := length Y = n \/ length Y = 1%nat \/ n = 1%nat.
Definition refuses (g : gobj R) : Prop := forall m, exists n,
  (forall t rows, g_eval m g (PScalar t) = Ok rows -> length rows = n) /\ (forall Y, ~ fits Y n -> g_eval m g (PMat Y) = Err ValueError) /\
  forall x y, broadcast_points n x = broadcast_points n y -> g_eval m g x = g_eval m g y.

Lemma points_refused (Y : list (list R)) n : ~ fits Y n -> broadcast_points n (PMat Y) = Err ValueError.
Proof.
  unfold fits. intros H. cbn [broadcast_points]. destruct (Nat.eqb_spec (length Y) n); [tauto|]. destruct (Nat.eqb_spec (length Y) 1); [tauto|].
  destruct (Nat.eqb_spec n 1); [tauto|]. reflexivity.
Qed.
Lemma chunks_len {A} k w (l : list A) : length (chunks k w l) = k.
Proof. revert l. induction k as [|k IH]; intros l; [reflexivity|]. cbn [chunks length]. rewrite IH. reflexivity. Qed.
Lemma rv_refuses n c o (f : nd R -> nd nat -> res (list R)) : 
  (forall t rows, rv_eval n c o f (PScalar t) = Ok rows -> length rows = n) /\ (forall Y, ~ fits Y n -> rv_eval n c o f (PMat Y) = Err ValueError) /\
  forall x y, broadcast_points n x = broadcast_points n y -> rv_eval n c o f x = rv_eval n c o f y.
Proof.
  split; [|split].
  - intros t rows. unfold rv_eval. cbn [broadcast_points bind]. match goal with |- bind ?a _ = _ -> _ => destruct a; [|discriminate] end.
    cbn [bind]. intros H. injection H as <-. rewrite chunks_len, repeat_length. reflexivity.
  - intros Y HY. unfold rv_eval. rewrite points_refused by exact HY. reflexivity.
  - intros x y E. unfold rv_eval. rewrite E. reflexivity.
Qed.
Ltac rv H := injection H as <-; intros []; eexists; apply rv_refuses.
Lemma hist_refuses d g : hist_create d = Ok g -> refuses g.
Proof. unfold hist_create. intros H. peel H. rv H. Qed.
Lemma interp_refuses d g : interp_create d = Ok g -> refuses g.
Proof. unfold interp_create. intros H. peel H. rv H. Qed.
Lemma irr_refuses d g : irr_create d = Ok g -> refuses g.
Proof. unfold irr_create. intros H. peel H. rv H. Qed.
Lemma mixmod_refuses phi Phi d g : mixmod_create phi Phi d = Ok g -> refuses g.
Proof. unfold mixmod_create. intros H. peel H. rv H. Qed.
Lemma quant_refuses quad cubic dspline d g : quant_create quad cubic dspline d = Ok g -> refuses g.
Proof. unfold quant_create. intros H. peel H. rv H. Qed.
Lemma packed_refuses pow10 d g : packed_create pow10 d = Ok g -> refuses g.
Proof. unfold packed_create. intros H. peel H. rv H. Qed.
Lemma spline_refuses d g : spline_create d = Ok g -> refuses g.
Proof. unfold spline_create. intros H. peel H. rv H. Qed.
Lemma sparse_refuses voigt sq d g : sparse_create voigt sq d = Ok g -> refuses g.
Proof.
  unfold sparse_create. intros H.
  repeat match type of H with
         | (let* _ := ?a in _) = _ => destruct a eqn:?; [cbn [bind] in H|discriminate]
         | match ?l with _ => _ end = _ => destruct l; try discriminate
         end.
  rv H.
Qed.
Lemma class_refuses X name c d g : qp X name = Some c -> c d = Ok g -> refuses g.
Proof.
  unfold qp, Kinds.classes, qp_classes. intros E Hg.
  repeat match type of E with (if ?b then _ else _) = _ => destruct b end; try discriminate; injection E as <-;
    [eapply hist_refuses|eapply interp_refuses|eapply irr_refuses|eapply mixmod_refuses|eapply quant_refuses|eapply packed_refuses|eapply spline_refuses|eapply sparse_refuses|]; try exact Hg.
  unfold wrap_create in Hg. peel Hg. injection Hg as <-. intros []; eexists; (split; [intros t rows; cbn -[broadcast_points]; unfold wrap_eval; cbn [broadcast_points bind];
    intros [= <-]|split; [intros Y HY; cbn -[broadcast_points]; unfold wrap_eval; rewrite points_refused by exact HY; reflexivity|
      intros x y E; cbn -[broadcast_points]; unfold wrap_eval; rewrite E; reflexivity]]).
  all: rewrite map2_length, repeat_length, seq_length; apply Nat.min_id.
Qed.
Lemma c134_rows : forall X M e m Y, fill_outside X -> made X M e -> In m M -> ~ fits Y (e_npdf e) -> evaluate m e (PMat Y) = Err ValueError.
Proof.
  intros X M e m Y HX Hm Hi HY. pose proof (made_kept X refuses (class_refuses X) M e Hm) as [_ H]. destruct (H m) as (n & A & B & _).
  destruct (c98_numbers X M e m HX Hm Hi) as (v & Hv). specialize (Hv 0). 
  assert (E : n = e_npdf e). { symmetry. rewrite <- (A 0 (map (fun r => [v r 0]) (seq 0 (e_npdf e)))); [rewrite map_length, seq_length; reflexivity|]. destruct m; exact Hv. }
  subst n. specialize (B Y HY). destruct m; exact B.
Qed.
Lemma c134_one_row : forall X M e m l, made X M e -> evaluate m e (PMat [l]) = evaluate m e (PGrid l).
Proof.
  intros X M e m l Hm. pose proof (made_kept X refuses (class_refuses X) M e Hm) as [_ H]. destruct (H m) as (n & _ & _ & C).
  assert (E : broadcast_points n (PMat [l]) = broadcast_points n (PGrid l)).
  { cbn [broadcast_points length]. destruct n as [|[|n]]; reflexivity. }
  specialize (C _ _ E). destruct m; exact C.
Qed.
Lemma c134_number : forall X M e m t, made X M e -> evaluate m e (PScalar t) = evaluate m e (PGrid [t]).
Proof.
  intros X M e m t Hm. pose proof (made_kept X refuses (class_refuses X) M e Hm) as [_ H]. destruct (H m) as (n & _ & _ & C).
  specialize (C (PScalar t) (PGrid [t]) eq_refl). destruct m; exact C.
Qed.
