(** HDF5 files: C25-C28, C90-C93. *)
From Coq Require Import String List Arith ZArith Bool Permutation Reals.
From Verif Require Import Num Py NdArray NumpyLib ScipyWrap Spec Values Ensemble Classes Hdf5
  NdProofs Kinds KindProofs EnsembleProofs KindInputs EnsembleTheorems Hdf5Proofs WriteProofs RangeProofs Hdf5Theorems IterProofs ChunkProofs Hdf5Examples.
Import ListNotations.
Local Open Scope string_scope.
Local Open Scope list_scope.

(** C25, the ranges: for any number of rows, chunk size and number of ranks, the rows of all ranges of all ranks are the rows of the
    file, each once. *)
Theorem C25_partition : forall n chunk size, (0 < chunk)%nat -> (0 < size)%nat ->
  (forall rank, data_ranges n chunk size rank = Ok (ranges_of n chunk size rank)) /\
  Permutation (flat_map (fun rank => flat_map rows_in (ranges_of n chunk size rank)) (seq 0 size)) (seq 0 n).
Proof. exact c25_partition. Qed.

(** C25, the ensembles: on a file that holds the tables of an ensemble obtained by valid calls, the iterator of one rank visits
    the ranges of that rank and then ends; each time it yields the slice of the ensemble, with its ancillary columns. *)
Theorem C25_iterate : forall X M e s f chunk rank size, fill_outside X -> made X M e -> has_ancil e s -> same_dict f (store (build_tables e)) -> (0 < chunk)%nat -> (0 < size)%nat ->
  exists it ys it', iter_open (qp X) f chunk rank size = Ok it /\ iter_take (length (it_ranges it)) it = Ok (ys, it') /\ iter_next it' = None /\
    map (fun y => (y_start y, y_stop y)) ys = ranges_of (e_npdf e) chunk size rank /\ forall y, In y ys -> yield_of X e y.
Proof. exact c25_iterate. Qed.

(** Three histograms with two ancillary columns, in chunks of two *)
Example C25_example : exists X M e s f, fill_outside X /\ made X M e /\ has_ancil e s /\ s <> None /\ same_dict f (store (build_tables e)) /\
  ranges_of (e_npdf e) 2 1 0 = [(0, 2); (2, 3)]%nat /\ proper (e_ancil e) /\
  exists p, nth_error (ranges_of (e_npdf e) 2 1 0) 1 = Some (2, 3)%nat /\ part_of X e (2, 3, p)%nat.
Proof. exact c25_example. Qed.

(** C26 at the moment of the yield only (missing: after the iteration moved on, which is false, see C26_refuted). *)
Theorem C26_ancil_partial : forall X M e s f chunk rank size j a b p, fill_outside X -> made X M e -> has_ancil e s -> same_dict f (store (build_tables e)) -> (0 < chunk)%nat -> (0 < size)%nat ->
  nth_error (ranges_of (e_npdf e) chunk size rank) j = Some (a, b) -> part_of X e (a, b, p) ->
  exists it ys it', iter_open (qp X) f chunk rank size = Ok it /\ iter_take (S j) it = Ok (ys, it') /\ length ys = S j /\
    forall y, In y ys -> e_ancil (seen it' y) = Some (listing p) /\ exists q, part_of X e (y_start y, y_stop y, q) /\ e_ancil (y_ens y) = Some (listing q).
Proof. exact c90_shared. Qed.

(** C90: after any number of steps every ensemble yielded so far shows the ancillary rows of the range visited last; at the moment
    of its own yield it showed its own. *)
Theorem C90_shared : forall X M e s f chunk rank size j a b p, fill_outside X -> made X M e -> has_ancil e s -> same_dict f (store (build_tables e)) -> (0 < chunk)%nat -> (0 < size)%nat ->
  nth_error (ranges_of (e_npdf e) chunk size rank) j = Some (a, b) -> part_of X e (a, b, p) ->
  exists it ys it', iter_open (qp X) f chunk rank size = Ok it /\ iter_take (S j) it = Ok (ys, it') /\ length ys = S j /\
    forall y, In y ys -> e_ancil (seen it' y) = Some (listing p) /\ exists q, part_of X e (y_start y, y_stop y, q) /\ e_ancil (y_ens y) = Some (listing q).
Proof. exact c90_shared. Qed.

(** (the second step on the same file) *)
Example C90_example : exists X M e s f, fill_outside X /\ made X M e /\ has_ancil e s /\ s <> None /\ same_dict f (store (build_tables e)) /\
  ranges_of (e_npdf e) 2 1 0 = [(0, 2); (2, 3)]%nat /\ proper (e_ancil e) /\
  exists p, nth_error (ranges_of (e_npdf e) 2 1 0) 1 = Some (2, 3)%nat /\ part_of X e (2, 3, p)%nat.
Proof. exact c25_example. Qed.

(** C27, any interleaving of the single dataset writes of all ranks (each at least once, in any order), overlapping chunks allowed. *)
Theorem C27_interleaving : forall X M e s cs a b c l, fill_outside X -> made X M e -> has_ancil e s -> tiles X e cs -> In (a, b, c) cs ->
  (forall st, In st l <-> exists x, In x cs /\ In st (chunk_steps x)) ->
  exists f0 f, initialize c (e_npdf e) = Ok f0 /\ write_steps f0 l = (Ok tt, f) /\ has_columns_of f e.
Proof. exact c27_interleaving. Qed.

(** C27, the calls of writeHdf5Chunk in any order. *)
Theorem C27_any_order : forall X M e s cs a b c, fill_outside X -> made X M e -> has_ancil e s -> tiles X e cs -> In (a, b, c) cs ->
  exists f0 f, initialize c (e_npdf e) = Ok f0 /\ write_chunks f0 cs = (Ok tt, f) /\ has_columns_of f e.
Proof. exact c27_any_order. Qed.

(** Three histograms written in two chunks, the second first, or all single writes backwards *)
Example C27_example : exists X M e s c c', fill_outside X /\ made X M e /\ has_ancil e s /\ s <> None /\ tiles X e [(1, 3, c); (0, 1, c')]%nat /\
  forall st, In st (rev (chunk_steps (0, 1, c')%nat ++ chunk_steps (1, 3, c)%nat)) <-> exists x, In x [(1, 3, c); (0, 1, c')]%nat /\ In st (chunk_steps x).
Proof. exact c27_example. Qed.

(** C28: no sequence of writes after initialize, complete or not, failing or not, makes a file that counts as complete. *)
Theorem C28_unfinished : forall e n f0 cs l, initialize e n = Ok f0 ->
  is_qp_file (snd (write_chunks f0 cs)) = false /\ is_qp_file (snd (write_steps (T := R) f0 l)) = false.
Proof. exact c28_unfinished. Qed.

(** C28: after all chunks and finalize the file counts as complete and is read as the ensemble. *)
Theorem C28_finished : forall X M e s cs a b c a' b' c', fill_outside X -> made X M e -> has_ancil e s -> tiles X e cs -> In (a, b, c) cs -> In (a', b', c') cs ->
  exists f0 f f' e', initialize c (e_npdf e) = Ok f0 /\ write_chunks f0 cs = (Ok tt, f) /\ finalize f c' = (Ok tt, f') /\
    same_dict f' (store (build_tables e)) /\ is_qp_file f' = true /\ read_file (qp X) f' = Ok e' /\ made X M e' /\ same_ensemble M e e'.
Proof. exact c28_finished. Qed.

(** (the same two chunks) *)
Example C28_example : exists X M e s c c', fill_outside X /\ made X M e /\ has_ancil e s /\ s <> None /\ tiles X e [(1, 3, c); (0, 1, c')]%nat /\
  forall st, In st (rev (chunk_steps (0, 1, c')%nat ++ chunk_steps (1, 3, c)%nat)) <-> exists x, In x [(1, 3, c); (0, 1, c')]%nat /\ In st (chunk_steps x).
Proof. exact c27_example. Qed.

(** C91: while finalize writes the metadata, the file counts as complete as soon as the first dataset is there. *)
Theorem C91_first_dataset : forall X M e f i, fill_outside X -> made X M e -> vget f "meta" = None ->
  is_qp_file (finalizing f (metadata e) i) = (0 <? i)%nat.
Proof. exact c91_first. Qed.

(** C91: a file that was finalised, or whose finalisation was cut short, is not finalised again: ValueError, and it stays as it is. *)
Theorem C91_again : forall X M e f i e2, fill_outside X -> made X M e -> vget f "meta" = None ->
  finalize f e = (Ok tt, finalizing f (metadata e) (length (metadata e))) /\
  finalize (finalizing f (metadata e) i) e2 = (Err ValueError, finalizing f (metadata e) i).
Proof. exact c91_again. Qed.

Example C91_example : exists X M e, fill_outside X /\ made X M e /\ vget (V := vdict R) [] "meta" = None.
Proof. destruct c25_example as (X & M & e & s & f & H1 & H2 & _). exists X, M, e. auto. Qed.

(** C92: every ensemble obtained by valid calls is read back from its HDF5 file. *)
Theorem C92_roundtrip : forall X M e, fill_outside X -> made X M e -> proper (e_ancil e) ->
  is_qp_file (store (build_tables e)) = true /\ data_length (store (build_tables e)) = Ok (e_npdf e) /\
  exists e', read_file (qp X) (store (build_tables e)) = Ok e' /\ made X M e' /\ same_ensemble M e e'.
Proof. exact c92_roundtrip. Qed.

(** and so from any file with the same datasets, in whatever order. *)
Theorem C92_equal_files : forall X M e f, fill_outside X -> made X M e -> proper (e_ancil e) -> same_dict f (store (build_tables e)) ->
  exists e', read_file (qp X) f = Ok e' /\ made X M e' /\ same_ensemble M e e'.
Proof. exact c92_file. Qed.

(** (three histograms with a table) *)
Example C92_example : exists X M e s f, fill_outside X /\ made X M e /\ has_ancil e s /\ s <> None /\ same_dict f (store (build_tables e)) /\
  ranges_of (e_npdf e) 2 1 0 = [(0, 2); (2, 3)]%nat /\ proper (e_ancil e) /\
  exists p, nth_error (ranges_of (e_npdf e) 2 1 0) 1 = Some (2, 3)%nat /\ part_of X e (2, 3, p)%nat.
Proof. exact c25_example. Qed.

(** C93: a chunk of the width of the range, or of one PDF, is accepted, whatever was written before; *)
Theorem C93_accepted : forall X M e s n f i j c a b, fill_outside X -> made X M e -> has_ancil e s -> writing X e n f -> part_of X e (i, j, c) -> (a < b)%nat -> (b <= n)%nat ->
  (j - i = b - a \/ j - i = 1)%nat -> fst (write_chunk f c a b) = Ok tt.
Proof. exact c93_accepted. Qed.

(** any other width is a TypeError and the file does not change; *)
Theorem C93_mismatch : forall X M e s n f i j c a b, fill_outside X -> made X M e -> has_ancil e s -> writing X e n f -> part_of X e (i, j, c) -> (a < b)%nat -> (b <= n)%nat ->
  (j - i <> b - a)%nat -> (j - i <> 1)%nat -> write_chunk f c a b = (Err TypeError, f).
Proof. exact c93_mismatch. Qed.

(** and one PDF is written to every row of the range. *)
Theorem C93_one : forall X M e s n f i c a b, fill_outside X -> made X M e -> has_ancil e s -> writing X e n f -> part_of X e (i, S i, c) -> (a < b)%nat -> (b <= n)%nat ->
  exists c', getitem (qp X) e (KList (repeat (Z.of_nat i) (b - a))) = Ok c' /\ write_chunk f c a b = write_chunk f c' a b /\ fst (write_chunk f c a b) = Ok tt.
Proof. exact c93_one. Qed.

(** A file of five rows with a part of one PDF and a part of two PDFs *)
Example C93_example : exists X M e s f c c', fill_outside X /\ made X M e /\ has_ancil e s /\ writing X e 5 f /\ part_of X e (2, 3, c)%nat /\ part_of X e (0, 2, c')%nat.
Proof. exact c93_example. Qed.

Print Assumptions C25_partition.
Print Assumptions C25_iterate.
Print Assumptions C26_ancil_partial.
Print Assumptions C90_shared.
Print Assumptions C27_interleaving.
Print Assumptions C27_any_order.
Print Assumptions C28_unfinished.
Print Assumptions C28_finished.
Print Assumptions C91_first_dataset.
Print Assumptions C91_again.
Print Assumptions C92_roundtrip.
Print Assumptions C92_equal_files.
Print Assumptions C93_accepted.
Print Assumptions C93_mismatch.
Print Assumptions C93_one.
