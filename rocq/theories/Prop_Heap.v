(** Which ensembles share ancillary data: C121 and C122. *)
From Coq Require Import String ZArith Bool List Arith Lia Relations.
From Verif Require Import EnsembleTheorems.
From Verif Require Import Py NdArray Heap HeapProofs HeapTheorems HeapSharing.
Import ListNotations.
Local Open Scope string_scope.
Local Open Scope list_scope.
Local Open Scope nat_scope.

(** C121: for a careful user, no operation on one ensemble changes what an ensemble not related to it by slices shows.
    Missing: ensembles that were given the same dictionary, copies by way of the tables, and slices; there the claim is false. *)
Theorem C121_independent_partial : forall V F L (h : heap V) a o, clean F L h -> o < length (ensembles h) -> ~ acts_on a o -> (forall o', acts_on a o' -> ~ linked L o' o) ->
  shown (fst (step h a)) o = shown h o.
Proof. exact c121_independent. Qed.

(** C121: two ensembles created with the same dictionary: columns added to one appear in the other. *)
Theorem C121_shared_refuted : exists l a o, all_ok (l ++ [a]) /\ o < length (ensembles (run l)) /\ ~ acts_on a o /\ shown (fst (step (run l) a)) o <> shown (run l) o.
Proof. exact c121_shared_refuted. Qed.

(** C121: writing into a column of a slice changes the ensemble it was taken from. *)
Theorem C121_view_refuted : exists l a o, all_ok (l ++ [a]) /\ o < length (ensembles (run l)) /\ ~ acts_on a o /\ shown (fst (step (run l) a)) o <> shown (run l) o /\
  (forall d, ~ In (ACopy d) l) /\ (forall o, ~ In (ATables o) l) /\ a = AWrite 1 "w" 0 9 /\ l = [ADict [("w", [1; 2; 3])]; ANew 3 (Some 0); AGet 0 (KSlice 0 2)].
Proof. exact c121_view_refuted. Qed.

(** C121: an ensemble rebuilt from the tables of another one shares its dictionary. *)
Theorem C121_tables_refuted : exists l a o, all_ok (l ++ [a]) /\ o < length (ensembles (run l)) /\ ~ acts_on a o /\ shown (fst (step (run l) a)) o <> shown (run l) o /\
  l = [ADict [("w", [1; 2])]; ANew 2 (Some 0); ATables 0; ADict [("z", [5; 6])]].
Proof. exact c121_tables_refuted. Qed.

(** C121 (and C30): two ensembles of different size created with the same empty dictionary: a column gets the wrong length. *)
Theorem C121_lengths_refuted : exists l o n d k a, all_ok l /\ nth_error (ensembles (run l)) o = Some (n, Some d) /\ In (k, CArr a) (dict_at (run l) d) /\ length (read (run l) a) <> n.
Proof. exact c121_lengths_refuted. Qed.

(** C122: an operation changes what an ensemble shows only if it is made on that ensemble, adds columns to its dictionary through another holder, or writes into its memory. *)
Theorem C122_frame : forall V,
  forall (h : heap V) (a : act V) o, reached h -> o < length (ensembles h) ->
    shown (fst (step h a)) o = shown h o \/
    acts_on a o \/
    (exists o' d, a = AAdd o' d /\ same_dict h o' o) \/
    (exists o' k j v, a = AWrite o' k j v /\ same_place h o' k j o).
Proof. exact @c122_frame. Qed.

(** C122: for a careful user every ensemble has its own dictionary. *)
Theorem C122_own_dict : forall V,
  forall F L (h : heap V) o o', clean F L h -> same_dict h o o' -> o = o'.
Proof. exact @c122_own_dict. Qed.

(** C122: ... and memory is shared only between ensembles related by slices. *)
Theorem C122_memory : forall V,
  forall F L (h : heap V) o o', clean F L h -> same_memory h o o' -> linked L o o'.
Proof. exact @c122_memory. Qed.

(** C122: ... so only writing into arrays changes another ensemble, and only one related by slices. *)
Theorem C122_careful : forall V,
  forall F L (h : heap V) (a : act V) o, clean F L h -> o < length (ensembles h) -> ~ acts_on a o -> shown (fst (step h a)) o = shown h o \/
    exists o' k j v, a = AWrite o' k j v /\ o' <> o /\ linked L o' o.
Proof. exact @c122_careful. Qed.

(** C122: ... and every column has one entry per PDF. *)
Theorem C122_lengths : forall V,
  forall F L (h : heap V) o n d k c, clean F L h -> nth_error (ensembles h) o = Some (n, Some d) -> In (k, c) (dict_at h d) ->
    match c with CArr a => length (read h a) = n | CScal _ => n = 1 end.
Proof. exact @c122_lengths. Qed.

(** C122: a column of a slice is a window on the original: what is written into it appears in the original at the selected position. *)
Theorem C122_window : forall V,
  forall (h : heap V) o n d k a i j ps h', reached h -> nth_error (ensembles h) o = Some (n, Some d) -> dget String.eqb (dict_at h d) k = Some (CArr a) -> length (a_pos a) = n ->
    step h (AGet o (KSlice i j)) = (h', Ok tt) -> picks n (KSlice i j) ps ->
    forall m p v, nth_error ps m = Some p ->
      let new := length (ensembles h) in
      exists h2, step h' (AWrite new k m v) = (h2, Ok tt) /\ entry_of h2 new k m = Some v /\ entry_of h2 o k p = Some v.
Proof. exact @c122_window. Qed.

(** C122: integers, masks and lists of positions copy, and so does concatenation. *)
Theorem C122_copies : forall V,
  forall (h : heap V) (a : act V) h', reached h -> step h a = (h', Ok tt) -> (exists os, a = AConcat os) \/ (exists o key, a = AGet o key /\ forall i j, key <> KSlice i j) ->
    forall o, o < length (ensembles h) -> ~ same_memory h' o (length (ensembles h)).
Proof. exact @c122_copies. Qed.

(** C122: an ensemble made from the tables of another one holds the same dictionary. *)
Theorem C122_tables : forall V,
  forall (h : heap V) o n d h', nth_error (ensembles h) o = Some (n, Some d) -> step h (ATables o) = (h', Ok tt) -> same_dict h' o (length (ensembles h)).
Proof. exact @c122_tables. Qed.

(** C122: ensembles with the same dictionary show the same columns after a change to either. *)
Theorem C122_both : forall V,
  forall (h : heap V) o o' (a : act V), same_dict h o o' -> (exists d, a = AAdd o d) \/ (exists k j v, a = AWrite o k j v) ->
    shown (fst (step h a)) o' = shown (fst (step h a)) o.
Proof. exact @c122_both. Qed.

(** (a careful history: columns added, a slice, a list of positions, an appended and a concatenated ensemble, a write through the slice) *)
Example C122_example : exists F L (h : heap nat), clean F L h /\ L = [(0, 1)] /\ all_ok careful_acts /\ h = run careful_acts /\
  shown h 0 = Some [("w", SArr [Some 5; Some 2; Some 3]); ("z", SArr [Some 7; Some 8; Some 9])] /\
  shown h 1 = Some [("w", SArr [Some 5; Some 2]); ("z", SArr [Some 7; Some 8])] /\
  shown h 2 = Some [("w", SArr [Some 3; Some 1; Some 1; Some 2; Some 3]); ("z", SArr [Some 9; Some 7; Some 7; Some 8; Some 9])] /\
  shown h 3 = Some [("w", SArr [Some 1; Some 2; Some 3; Some 1]); ("z", SArr [Some 7; Some 8; Some 9; Some 7])].
Proof. exact c122_example. Qed.

Print Assumptions C121_independent_partial.
Print Assumptions C121_shared_refuted.
Print Assumptions C121_view_refuted.
Print Assumptions C121_tables_refuted.
Print Assumptions C121_lengths_refuted.
Print Assumptions C122_frame.
Print Assumptions C122_own_dict.
Print Assumptions C122_memory.
Print Assumptions C122_careful.
Print Assumptions C122_lengths.
Print Assumptions C122_window.
Print Assumptions C122_copies.
Print Assumptions C122_tables.
Print Assumptions C122_both.
