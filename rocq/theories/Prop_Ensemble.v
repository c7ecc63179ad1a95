(** Ensembles: C21-C24, C29-C31, C50, C77-C80. *)
From Coq Require Import String List Arith ZArith Bool Lia Reals Lra Sorted.
From Verif Require Import Num NumProofs Py NdArray NumpyLib Utils ScipyWrap Spec Values Ensemble Classes
  HistPdf InterpPdf QuantPdf MixmodPdf Packing PackedPdf
  InterpProofs Kinds EnsembleProofs KindInputs ReachProofs AppendProofs EnsembleTheorems.
Import ListNotations.
Local Open Scope string_scope.
Local Open Scope list_scope.
Local Open Scope R_scope.

(** C21 for every ensemble obtained by valid calls (seven classes, the methods [M] listed for each), every
    kind of key with a non-empty selection. *)
Theorem C21_slice_partial : forall X M e key ps s, fill_outside X -> made X M e -> picks (e_npdf e) key ps -> ps <> [] ->
  has_ancil e s -> (is_int key = true -> anc_plain s) ->
  exists e', getitem (qp X) e key = Ok e' /\ made X M e' /\ e_npdf e' = length ps /\ metadata e' = metadata e /\
    (forall m x, In m M -> on_points x -> exists t, evaluate m e x = Ok t /\ length t = e_npdf e /\
       evaluate m e' x = Ok (select [] t ps)) /\
    e_ancil e' = match s with
                 | None => None
                 | Some (A, B) => match key with
                                  | KInt i => Some (entries A (nth (hd 0%nat ps) B []))
                                  | _ => Some (columns A (select [] B ps))
                                  end
                 end.
Proof. exact c21_slice. Qed.

(** A key that selects nothing valid raises IndexError. *)
Theorem C21_out_of_range : forall X M e key, fill_outside X -> made X M e ->
  (forall ps, ~ picks (e_npdf e) key ps) -> getitem (qp X) e key = Err IndexError.
Proof. exact c21_out_of_range. Qed.

(** An integer key raises IndexError exactly when it is out of range. *)
Theorem C21_integer : forall X M e (i : Z), fill_outside X -> made X M e ->
  (i < - Z.of_nat (e_npdf e) \/ Z.of_nat (e_npdf e) <= i)%Z -> getitem (qp X) e (KInt i) = Err IndexError.
Proof. exact c21_integer. Qed.

(** Three histograms with two ancillary columns, and a key with a negative index that reorders *)
Example C21_example : exists X M e key ps s,
  fill_outside X /\ made X M e /\ M = [MPdf; MCdf; MPpf] /\ e_npdf e = 3%nat /\
  picks (e_npdf e) key ps /\ ps = [2; 0]%nat /\ key = KList [-1; 0]%Z /\ has_ancil e s /\ anc_plain s /\ s <> None.
Proof. exact c21_example. Qed.

(** C77: the positions a key stands for. *)
Theorem C77_key_positions : forall n key ps, key_positions n key = Some ps <-> picks n key ps.
Proof. exact picks_iff. Qed.

Example C77_keys_example : picks 5 (KSlice (-3) 10) [2; 3; 4]%nat /\ picks 5 (KInt (-1)) [4]%nat /\ picks 3 (KMask [true; false; true]) [0; 2]%nat.
Proof. exact picks_example. Qed.

(** C77: slicing twice selects the composed positions. *)
Theorem C77_slice_of_slice : forall X M e key ps key' qs s, fill_outside X -> made X M e ->
  picks (e_npdf e) key ps -> ps <> [] -> is_int key = false -> picks (length ps) key' qs -> qs <> [] ->
  has_ancil e s -> (is_int key' = true -> anc_plain s) ->
  exists e1 e2, getitem (qp X) e key = Ok e1 /\ getitem (qp X) e1 key' = Ok e2 /\ e_npdf e2 = length qs /\
    (forall m x, In m M -> on_points x -> exists t, evaluate m e x = Ok t /\ length t = e_npdf e /\
       evaluate m e2 x = Ok (select [] t (select 0%nat ps qs))) /\
    (is_int key' = false -> e_ancil e2 = match s with None => None | Some (A, B) => Some (columns A (select [] B (select 0%nat ps qs))) end).
Proof. exact c77_slice_of_slice. Qed.

(** C22 when all ensembles have the same ancillary columns and the same metadata. *)
Theorem C22_concatenate_partial : forall X M es A Bs, fill_outside X -> joinable X M es -> es <> [] ->
  Forall2 (fun e B => has_ancil e (Some (A, B))) es Bs ->
  exists e', concatenate es = Ok (Some e') /\ joined X M es e' /\ has_ancil e' (Some (A, concat Bs)).
Proof. exact c22_concatenate_ancil. Qed.

(** C22 when some ensemble has no ancillary data: the result has none. *)
Theorem C22_concatenate_none_partial : forall X M es, fill_outside X -> joinable X M es -> (exists e, In e es /\ e_ancil e = None) ->
  exists e', concatenate es = Ok (Some e') /\ joined X M es e' /\ e_ancil e' = None.
Proof. exact c22_concatenate_none. Qed.

(** Three histograms and one histogram, with ancillary columns *)
Example C22_example : exists X M a b A Ba Bb,
  fill_outside X /\ joinable X M [a; b] /\ e_npdf a = 3%nat /\ e_npdf b = 1%nat /\
  has_ancil a (Some (A, Ba)) /\ has_ancil b (Some (A, Bb)).
Proof. exact c22_example. Qed.

(** C78: the slice of the concatenation at the place of one ensemble answers as that ensemble, and has its
    ancillary rows. *)
Theorem C78_parts : forall X M pre e post A Bpre B Bpost, fill_outside X -> joinable X M (pre ++ e :: post) ->
  Forall2 (fun e B => has_ancil e (Some (A, B))) (pre ++ e :: post) (Bpre ++ B :: Bpost) -> length Bpre = length pre ->
  exists e' p, concatenate (pre ++ e :: post) = Ok (Some e') /\
    getitem (qp X) e' (KSlice (Z.of_nat (total pre)) (Z.of_nat (total pre + e_npdf e))) = Ok p /\
    objdata p = objdata e /\ metadata p = metadata e /\ e_ancil p = e_ancil e /\
    (forall m x, In m M -> on_points x -> evaluate m p x = evaluate m e x).
Proof. exact c22_parts. Qed.

Theorem C78_parts_without_ancil : forall X M pre e post, fill_outside X -> joinable X M (pre ++ e :: post) ->
  (exists x, In x (pre ++ e :: post) /\ e_ancil x = None) ->
  exists e' p, concatenate (pre ++ e :: post) = Ok (Some e') /\
    getitem (qp X) e' (KSlice (Z.of_nat (total pre)) (Z.of_nat (total pre + e_npdf e))) = Ok p /\
    objdata p = objdata e /\ metadata p = metadata e /\ e_ancil p = None /\
    (forall m x, In m M -> on_points x -> evaluate m p x = evaluate m e x).
Proof. exact c22_parts_none. Qed.

(** C78: what concatenate accepts: equal class, equal columns, metadata equal up to the tolerance, equal
    ancillary columns. *)
Theorem C78_accepted : forall X M0 e0 es e', fill_outside X -> made X M0 e0 -> (forall e, In e es -> exists M, made X M e) ->
  concatenate (e0 :: es) = Ok (Some e') -> forall e, In e es ->
  g_name (e_obj e) = g_name (e_obj e0) /\ widths e = widths e0 /\
  (forall key a b, vget (metadata e0) key = Some (VArr a) -> vget (metadata e) key = Some (VArr b) -> close_to (dat a) (dat b)) /\
  ((forall x, In x (e0 :: es) -> e_ancil x <> None) -> forall a0 a, e_ancil e0 = Some a0 -> e_ancil e = Some a ->
     forall key, In key (keys a) <-> In key (keys a0)).
Proof. exact c22_accepted. Qed.

(** C23, for any two ensembles obtained by valid calls, also when the metadata differ by less than the
    tolerance, and also when they do not fit together. *)
Theorem C23_append : forall X M M' a b, fill_outside X -> made X M a -> made X M' b ->
  match concatenate [a; b] with
  | Ok (Some c) => append a b = (Ok tt, c)
  | Ok None => False
  | Err _ => exists x, append a b = (Err x, a)
  end.
Proof. exact c23_append. Qed.

(** (the hypotheses are met by) *)
Example C23_example : exists X M a b A Ba Bb,
  fill_outside X /\ joinable X M [a; b] /\ e_npdf a = 3%nat /\ e_npdf b = 1%nat /\
  has_ancil a (Some (A, Ba)) /\ has_ancil b (Some (A, Bb)).
Proof. exact c22_example. Qed.

(** C24 for ensembles obtained by valid calls. *)
Theorem C24_tables_partial : forall X M e, fill_outside X -> made X M e ->
  exists e', from_tables (qp X) (build_tables e) = Ok e' /\ made X M e' /\
    build_tables e' = build_tables e /\ e_npdf e' = e_npdf e /\ g_name (e_obj e') = g_name (e_obj e) /\
    (forall m x, (m = MPpf -> g_name (e_obj e) <> "quant") -> evaluate m e' x = evaluate m e x) /\
    (forall m x, In m M -> on_points x -> evaluate m e' x = evaluate m e x).
Proof. exact c24_tables. Qed.

(** (the hypotheses are met by) *)
Example C24_example : exists X M e key ps s,
  fill_outside X /\ made X M e /\ M = [MPdf; MCdf; MPpf] /\ e_npdf e = 3%nat /\
  picks (e_npdf e) key ps /\ ps = [2; 0]%nat /\ key = KList [-1; 0]%Z /\ has_ancil e s /\ anc_plain s /\ s <> None.
Proof. exact c21_example. Qed.

(** C50 for ensembles obtained by valid calls whose ancillary columns have one number, text or byte string
    per PDF. *)
Theorem C50_iterate_partial : forall X M e s, fill_outside X -> made X M e -> has_ancil e s -> anc_plain s ->
  exists l, (forall fuel, (e_npdf e < fuel)%nat -> iterate_from (qp X) e 0 fuel = Some (Ok l)) /\
    length l = e_npdf e /\ forall i p, nth_error l i = Some p -> getitem (qp X) e (KInt (Z.of_nat i)) = Ok p.
Proof. exact c50_iterate. Qed.

(** (the hypotheses are met by) *)
Example C50_example : exists X M e key ps s,
  fill_outside X /\ made X M e /\ M = [MPdf; MCdf; MPpf] /\ e_npdf e = 3%nat /\
  picks (e_npdf e) key ps /\ ps = [2; 0]%nat /\ key = KList [-1; 0]%Z /\ has_ancil e s /\ anc_plain s /\ s <> None.
Proof. exact c21_example. Qed.

(** C29: after any calls of which none that replaces the PDFs failed, gridded answers for the current PDFs. *)
Theorem C29_gridded_partial : forall f d anc e cs e' grid, ens_new f d anc = Ok e -> history e cs e' ->
  fst (gridded e' grid) = match ens_pdf e' (PGrid grid) with Ok v => Ok (grid, v) | Err x => Err x end.
Proof. exact c29_gridded. Qed.

(** and so does mode. *)
Theorem C29_mode_partial : forall f d anc e cs e' grid v, ens_new f d anc = Ok e -> history e cs e' -> ens_pdf e' (PGrid grid) = Ok v -> grid <> [] ->
  fst (mode e' grid) = Ok (map (fun line => nth0 (np_argmax (map xval line)) grid) v).
Proof. exact c29_mode. Qed.

(** An ensemble whose PDFs change between two calls of gridded *)
Example C29_example : exists f d anc e cs e' g, ens_new f d anc = Ok e /\ history e cs e' /\ (3 <= length cs)%nat /\ ens_pdf e' (PGrid g) <> ens_pdf e (PGrid g).
Proof. exact c29_example. Qed.

(** C30: after any calls of which none that replaces the PDFs failed, the ancillary table fits. *)
Theorem C30_ancil_partial : forall f d anc e cs e', ens_new f d anc = Ok e -> history e cs e' ->
  match e_ancil e' with None => True | Some t => forall k v, In (k, v) t -> one_per_pdf (e_npdf e') v end.
Proof. exact c30_ancil. Qed.

(** A table that does not fit is rejected and nothing changes. *)
Theorem C30_rejected : forall (e : ens R) (d : vdict R),
  (~ (forall k v, In (k, v) d -> one_per_pdf (e_npdf e) v)) ->
  (exists x, set_ancil e (Some d) = (Err x, e)) /\ (exists x, add_to_ancil e d = (Err x, e)).
Proof. exact c30_rejected. Qed.

(** A table that fits is stored. *)
Theorem C30_accepted : forall (e : ens R) (d : vdict R),
  (forall k v, In (k, v) d -> one_per_pdf (e_npdf e) v) ->
  (exists e', set_ancil e (Some d) = (Ok tt, e') /\ e_ancil e' = Some d /\ e_obj e' = e_obj e) /\
  (forall a, e_ancil e = Some a -> exists e', add_to_ancil e d = (Ok tt, e') /\ e_ancil e' = Some (vupdate a d) /\ e_obj e' = e_obj e).
Proof. exact c30_accepted. Qed.

(** (a history) *)
Example C30_example : exists f d anc e cs e' g, ens_new f d anc = Ok e /\ history e cs e' /\ (3 <= length cs)%nat /\ ens_pdf e' (PGrid g) <> ens_pdf e (PGrid g).
Proof. exact c29_example. Qed.

(** C31 when the constructor is what fails. *)
Theorem C31_atomic_partial : forall (e : ens R) d anc x e', update e d anc = (Err x, e') ->
  (forall g, e_func e d = Ok g -> check_array_shapes anc (g_npdf g) = Ok tt) -> e' = e.
Proof. exact c31_atomic. Qed.

(** C79: the exact effect of update in all cases. *)
Theorem C79_update : forall (e : ens R) d anc,
  match e_func e d with
  | Err x => update e d anc = (Err x, e)
  | Ok g => match check_array_shapes anc (g_npdf g) with
            | Ok _ => exists e', ens_new (e_func e) d anc = Ok e' /\ update e d anc = (Ok tt, e')
            | Err x => exists e', update e d anc = (Err x, e') /\ e_obj e' = g /\ e_ancil e' = e_ancil e /\ e_gridded e' = e_gridded e
            end
  end.
Proof. exact c31_update. Qed.

(** C80: every valid call of a constructor succeeds, with the right number of PDFs, ancillary data and class. *)
Theorem C80_constructors : forall X i s, fill_outside X -> input_ok i -> anc_good (input_npdf i) s ->
  exists e, qp_create (qp X) (input_name i) (input_dict i) = Ok (mkens (e_func e) (e_obj e) None None) /\
    ens_new (create_of (qp X) (input_name i)) (input_dict i) (anc_dict s) = Ok e /\
    made X (input_methods i) e /\ e_npdf e = input_npdf i /\ has_ancil e s /\ g_name (e_obj e) = input_name i.
Proof. exact made_new. Qed.

Example C80_example : input_ok hist0 /\ anc_good (input_npdf hist0) table0 /\ fill_outside scipy0.
Proof. exact (conj hist0_ok (conj (proj1 table0_ok) scipy0_fill)). Qed.

Print Assumptions C77_key_positions.

Print Assumptions C21_slice_partial.
Print Assumptions C21_out_of_range.
Print Assumptions C21_integer.
Print Assumptions C77_slice_of_slice.
Print Assumptions C22_concatenate_partial.
Print Assumptions C22_concatenate_none_partial.
Print Assumptions C78_parts.
Print Assumptions C78_parts_without_ancil.
Print Assumptions C78_accepted.
Print Assumptions C23_append.
Print Assumptions C24_tables_partial.
Print Assumptions C50_iterate_partial.
Print Assumptions C29_gridded_partial.
Print Assumptions C29_mode_partial.
Print Assumptions C30_ancil_partial.
Print Assumptions C30_rejected.
Print Assumptions C30_accepted.
Print Assumptions C31_atomic_partial.
Print Assumptions C79_update.
Print Assumptions C80_constructors.
