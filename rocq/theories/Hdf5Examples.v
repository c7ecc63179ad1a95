(** Inputs that meet the hypotheses of the theorems on HDF5 files. *)
From Coq Require Import String List Arith ZArith Bool Lia Permutation Reals.
From Verif Require Import Num NumProofs Py NdArray NumpyLib Utils ScipyWrap Spec Values Ensemble Classes Hdf5
  NdProofs InterpProofs Kinds KindProofs EnsembleProofs KindInputs ReachProofs EnsembleTheorems Hdf5Proofs WriteProofs RangeProofs Hdf5Theorems IterProofs ChunkProofs.
Import ListNotations.
Local Open Scope string_scope.
Local Open Scope list_scope.

Lemma part_exists X M e s a b : fill_outside X -> made X M e -> has_ancil e s -> (a < b)%nat -> (b <= e_npdf e)%nat -> exists c, part_of X e (a, b, c).
Proof.
  intros HX Hm (Hs & Hg) Hab Hb. destruct (made_rep X M e HX Hm) as (k & D & Hr & _ & _). pose proof (rep_npdf' X k D e Hr) as Hn. rewrite Hn in Hb, Hg.
  pose proof (slice_positions (length D) a b ltac:(lia) Hb) as Ek.
  destruct (getitem_rep (s_phi X) (s_Phi X) (s_quad X) (s_cubic X) (s_dspline X) (s_Phinv X) HX k D e _ _ s Hr Ek) as (c & Ec & _).
  { intros E. apply (f_equal (@length nat)) in E. rewrite seq_length in E. cbn in E. lia. } { exact Hs. } { exact Hg. } { discriminate. }
  exists c. split; [exact Hab|]. split; [rewrite Hn; exact Hb|exact Ec].
Qed.
(** three histograms with two ancillary columns, in chunks of two: two ranges *)
Lemma c25_example : exists X M e s f, fill_outside X /\ made X M e /\ has_ancil e s /\ s <> None /\ same_dict f (store (build_tables e)) /\
  ranges_of (e_npdf e) 2 1 0 = [(0, 2); (2, 3)]%nat /\ proper (e_ancil e) /\
  exists p, nth_error (ranges_of (e_npdf e) 2 1 0) 1 = Some (2, 3)%nat /\ part_of X e (2, 3, p)%nat.
Proof.
  destruct (made_new scipy0 hist0 table0 scipy0_fill hist0_ok (proj1 table0_ok)) as (e & _ & _ & Hm & Hn & Hs & _).
  exists scipy0, (input_methods hist0), e, table0, (store (build_tables e)). split; [apply scipy0_fill|]. split; [exact Hm|]. split; [exact Hs|]. split; [discriminate|].
  split; [intros g; reflexivity|]. rewrite Hn. split; [reflexivity|]. split.
  - destruct Hs as (-> & Hg). apply columns_nodup. apply Hg.
  - destruct (part_exists scipy0 _ e table0 2 3 scipy0_fill Hm Hs) as (p & Hp); [lia|rewrite Hn; cbn; lia|]. exists p. split; [reflexivity|exact Hp].
Qed.
(** the same, written in two chunks, the second first; the single writes in reverse order *)
Lemma c27_example : exists X M e s c c', fill_outside X /\ made X M e /\ has_ancil e s /\ s <> None /\ tiles X e [(1, 3, c); (0, 1, c')]%nat /\
  forall st, In st (rev (chunk_steps (0, 1, c')%nat ++ chunk_steps (1, 3, c)%nat)) <-> exists x, In x [(1, 3, c); (0, 1, c')]%nat /\ In st (chunk_steps x).
Proof.
  destruct (made_new scipy0 hist0 table0 scipy0_fill hist0_ok (proj1 table0_ok)) as (e & _ & _ & Hm & Hn & Hs & _).
  destruct (part_exists scipy0 _ e table0 1 3 scipy0_fill Hm Hs) as (c & Hc); [lia|rewrite Hn; cbn; lia|].
  destruct (part_exists scipy0 _ e table0 0 1 scipy0_fill Hm Hs) as (c' & Hc'); [lia|rewrite Hn; cbn; lia|].
  exists scipy0, (input_methods hist0), e, table0, c, c'. split; [apply scipy0_fill|]. split; [exact Hm|]. split; [exact Hs|]. split; [discriminate|]. split.
  - split; [intros x [<-|[<-|[]]]; assumption|]. rewrite Hn. cbn. intros r Hr. destruct r as [|r]; [exists (0, 1, c')%nat|exists (1, 3, c)%nat]; cbn; split; auto; lia.
  - intros st. rewrite <- in_rev, in_app_iff. split.
    + intros [H|H]; [exists (0, 1, c')%nat|exists (1, 3, c)%nat]; split; cbn; auto.
    + intros (x & [<-|[<-|[]]] & H); auto.
Qed.
(** a file of five rows initialised by one part, with a part of one and a part of two PDFs *)
Lemma c93_example : exists X M e s f c c', fill_outside X /\ made X M e /\ has_ancil e s /\ writing X e 5 f /\ part_of X e (2, 3, c)%nat /\ part_of X e (0, 2, c')%nat.
Proof.
  destruct (made_new scipy0 hist0 table0 scipy0_fill hist0_ok (proj1 table0_ok)) as (e & _ & _ & Hm & Hn & Hs & _).
  destruct (part_exists scipy0 _ e table0 2 3 scipy0_fill Hm Hs) as (c & Hc); [lia|rewrite Hn; cbn; lia|].
  destruct (part_exists scipy0 _ e table0 0 2 scipy0_fill Hm Hs) as (c' & Hc'); [lia|rewrite Hn; cbn; lia|].
  destruct (made_rep scipy0 _ e scipy0_fill Hm) as (k & D & Hr & _ & _).
  destruct (part_rows _ _ _ _ _ _ _ _ scipy0_fill Hr Hs Hc) as (Hrc & Hac & _). destruct (rep_meta _ _ _ _ Hrc) as (_ & Oc & _).
  assert (E0 : exists f0, initialize c 5 = Ok f0).
  { unfold initialize. rewrite Oc, Hac. unfold cols. rewrite allocate_columns by apply layout_nodup. cbn [bind anc_dict table0]. rewrite allocate_columns by apply (proj1 table0_ok). eexists. reflexivity. }
  destruct E0 as (f0 & E0). exists scipy0, (input_methods hist0), e, table0, f0, c, c'. split; [apply scipy0_fill|]. split; [exact Hm|]. split; [exact Hs|]. split; [|split; assumption].
  exists 2%nat, 3%nat, c, f0, []. split; [exact Hc|]. split; [exact E0|reflexivity].
Qed.
