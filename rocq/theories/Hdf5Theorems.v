(** HDF5 files: round trip (C92), chunked writing (C27, C28, C91), the iterator (C25, C26, C90). *)
From Coq Require Import String List Arith ZArith Bool Lia Reals Permutation.
From Verif Require Import Num NumProofs Py NdArray NumpyLib Utils ScipyWrap Spec Values Ensemble Classes Hdf5
  NdProofs InterpProofs Kinds KindProofs EnsembleProofs KindInputs ReachProofs EnsembleTheorems Hdf5Proofs WriteProofs RangeProofs.
Import ListNotations.
Local Open Scope string_scope.
Local Open Scope list_scope.

(** ** Vocabulary *)
(** The same ensemble, up to the order of the ancillary columns: metadata, data, ancillary data, and all answers (the ppf
    of a quantile ensemble at a number or an increasing grid, any method of another class anywhere) *)
Definition same_ancil (a b : option (vdict R)) : Prop :=
  match a, b with None, None => True | Some x, Some y => same_dict x y | _, _ => False end.
Definition same_ensemble (M : list method) (e e' : ens R) : Prop :=
  metadata e' = metadata e /\ objdata e' = objdata e /\ e_npdf e' = e_npdf e /\ g_name (e_obj e') = g_name (e_obj e) /\ same_ancil (e_ancil e') (e_ancil e) /\
  (forall m x, (m = MPpf -> g_name (e_obj e) <> "quant") -> evaluate m e' x = evaluate m e x) /\
  (forall m x, In m M -> on_points x -> evaluate m e' x = evaluate m e x).
(** A Python dictionary has every key once *)
Definition proper (a : option (vdict R)) : Prop := match a with None => True | Some d => NoDup (keys d) end.

Lemma check_perm (d d' : vdict R) n : Permutation d d' -> check_columns d n = Ok tt -> check_columns d' n = Ok tt.
Proof. rewrite !check_columns_iff. intros Hp H k v Hk. apply (H k v). apply (Permutation_in _ (Permutation_sym Hp)). exact Hk. Qed.
Definition named_ancil (a : option (vdict R)) : option (vdict R) := match a with None => None | Some d => Some (by_name d) end.
Lemma check_named a n : check_array_shapes a n = Ok tt -> check_array_shapes (named_ancil a) n = Ok tt.
Proof. destruct a as [d|]; [|reflexivity]. apply check_perm, Permutation_sym, by_name_perm. Qed.

(** ** C92: what is written is read back *)
Lemma store_groups (e : ens R) : vget (store (build_tables e)) "meta" = Some (by_name (metadata e)) /\ vget (store (build_tables e)) "data" = Some (by_name (objdata e)) /\
  vget (store (build_tables e)) "ancil" = named_ancil (e_ancil e).
Proof. unfold store, build_tables. cbn [t_meta t_data t_ancil]. destruct (e_ancil e); repeat split; reflexivity. Qed.
Lemma read_groups X k D e f : represents_in X k D e -> vget f "meta" = Some (by_name (metadata e)) -> vget f "data" = Some (by_name (objdata e)) ->
  read_file (qp X) f = ens_new (qcreate X k) (kind_args k ++ cols k D) (vget f "ancil").
Proof.
  intros Hr Em Ed. unfold read_file. rewrite Em, Ed. destruct (rep_meta X k D e Hr) as (M1 & O1 & _). rewrite M1, O1. apply read_named. apply Hr.
Qed.
Lemma c92_file : forall X M e f, fill_outside X -> made X M e -> proper (e_ancil e) -> same_dict f (store (build_tables e)) ->
  exists e', read_file (qp X) f = Ok e' /\ made X M e' /\ same_ensemble M e e'.
Proof.
  intros X M e f HX Hm Hp Hf. destruct (made_rep X M e HX Hm) as (k & D & Hr & Hk & Hc).
  pose proof (rep_npdf' X k D e Hr) as Hn. destruct (store_groups e) as (S1 & S2 & S3).
  set (e1 := mkens (e_func e) (e_obj e) (named_ancil (e_ancil e)) (e_gridded e)).
  assert (H1 : made X M e1).
  { apply (reach_set_ancil _ _ _ _ _ _ M e (named_ancil (e_ancil e))); [exact Hm|]. unfold set_ancil. rewrite (check_named _ _ Hc). reflexivity. }
  assert (Hr1 : represents_in X k D e1) by exact Hr.
  destruct (c24_tables X M e1 HX H1) as (e' & E' & Hm' & T' & N' & G' & A1 & A2).
  exists e'. split.
  - rewrite (read_groups X k D e f Hr) by (rewrite Hf; assumption). rewrite Hf, S3.
    unfold qp in E'. rewrite (from_tables_eq _ _ _ _ _ _ k D e1 Hr1) in E'. exact E'.
  - split; [exact Hm'|]. unfold build_tables in T'. injection T' as T1 T2 T3.
    split; [exact T1|]. split; [exact T2|]. split; [exact N'|]. split; [exact G'|]. split; [|split; assumption].
    rewrite T3. unfold e1. cbn [e_ancil]. destruct (e_ancil e) as [d|]; [|exact I]. intros key. apply by_name_get. exact Hp.
Qed.
Lemma store_proper e : same_dict (store (build_tables e)) (store (build_tables (T := R) e)).
Proof. intros k. reflexivity. Qed.
Lemma c92_roundtrip : forall X M e, fill_outside X -> made X M e -> proper (e_ancil e) ->
  is_qp_file (store (build_tables e)) = true /\ data_length (store (build_tables e)) = Ok (e_npdf e) /\
  exists e', read_file (qp X) (store (build_tables e)) = Ok e' /\ made X M e' /\ same_ensemble M e e'.
Proof.
  intros X M e HX Hm Hp. split; [|split; [|apply c92_file; [exact HX|exact Hm|exact Hp|intros key; reflexivity]]].
  - destruct (made_rep X M e HX Hm) as (k & D & Hr & _). destruct (rep_meta X k D e Hr) as (M1 & _). unfold is_qp_file. rewrite (proj1 (store_groups e)), M1.
    rewrite by_name_get by apply meta_nodup. unfold kind_meta, class_meta, vget. cbn [app dget]. reflexivity.
  - destruct (made_rep X M e HX Hm) as (k & D & Hr & _). destruct (rep_meta X k D e Hr) as (_ & O1 & _). rewrite (rep_npdf' X k D e Hr).
    unfold data_length. rewrite (proj1 (proj2 (store_groups e))), O1.
    assert (G : forall kv, In kv (by_name (cols k D)) -> v_len (snd kv) = Ok (length D)).
    { intros kv Hkv. apply (Permutation_in _ (by_name_perm _)) in Hkv. destruct kv as [key v]. apply vget_in in Hkv; [|apply cols_nodup].
      assert (Hin : In key (map fst (kind_layout k))). { destruct (in_dec string_dec key (map fst (kind_layout k))) as [?|Hno]; [assumption|]. exfalso. unfold cols, columns in Hkv. rewrite <- (columns_keys 0 (kind_layout k) D) in Hno. apply vget_none in Hno. congruence. }
      apply In_nth_error in Hin. destruct Hin as (j & Hj). rewrite nth_error_map in Hj. destruct (nth_error (kind_layout k) j) as [[key' c]|] eqn:Ej; [|discriminate]. cbn in Hj. injection Hj as ->.
      unfold cols, columns in Hkv. rewrite (columns_get _ (layout_nodup k) 0 D j key c Ej) in Hkv. injection Hkv as <-. cbn [snd]. destruct c; cbn [col_value v_len v_shape rows_nd shp]; unfold v_len; cbn [v_shape rows_nd shp]; rewrite !map_length; reflexivity. }
    unfold group_length. destruct (by_name (cols k D)) as [|[k0 v0] t] eqn:E.
    { exfalso. pose proof (by_name_perm (cols k D)) as Hp'. rewrite E in Hp'. apply Permutation_nil in Hp'. destruct k; discriminate Hp'. }
    pose proof (G (k0, v0) (or_introl eq_refl)) as G0. cbn [snd] in G0. rewrite G0. cbn [bind].
    rewrite (mapM_ok (fun kv => v_len (snd kv)) (fun _ => length D)) by exact G. cbn [bind].
    assert (F : forallb (Nat.eqb (length D)) (map (fun _ => length D) ((k0, v0) :: t)) = true) by (apply forallb_forall; intros x Hx; apply in_map_iff in Hx; destruct Hx as (? & <- & _); apply Nat.eqb_refl).
    rewrite F. reflexivity.
Qed.

(** ** Chunked writing *)
(** The calls of [writeHdf5Chunk] one after the other; it ends with the first exception *)
Fixpoint write_chunks (f : h5file R) (cs : list (nat * nat * ens R)) : res unit * h5file R :=
  match cs with
  | [] => (Ok tt, f)
  | (a, b, c) :: t => match write_chunk f c a b with (Err x, f') => (Err x, f') | (Ok _, f') => write_chunks f' t end
  end.
(** The single writes of one call *)
Definition chunk_steps (x : nat * nat * ens R) : list (step R) :=
  let '(a, b, c) := x in
  group_steps "data" (objdata c) a b ++ match e_ancil c with None => [] | Some t => group_steps "ancil" t a b end.
(** [c] is the part [a .. b-1] of the ensemble [e] *)
Definition part_of (X : scipy) (e : ens R) (x : nat * nat * ens R) : Prop :=
  let '(a, b, c) := x in (a < b)%nat /\ (b <= e_npdf e)%nat /\ getitem (qp X) e (KSlice (Z.of_nat a) (Z.of_nat b)) = Ok c.
Definition holds_row (r : nat) (x : nat * nat * ens R) : Prop := let '(a, b, _) := x in (a <= r < b)%nat.
(** The chunks are parts of [e], and every PDF is in one of them *)
Definition tiles (X : scipy) (e : ens R) (cs : list (nat * nat * ens R)) : Prop :=
  (forall x, In x cs -> part_of X e x) /\ (forall r, (r < e_npdf e)%nat -> exists x, In x cs /\ holds_row r x).
(** The file has the columns of [e] and no metadata *)
Definition has_columns_of (f : h5file R) (e : ens R) : Prop :=
  vget f "meta" = None /\ forall g, g <> "meta" -> vget f g = vget (store (build_tables e)) g.

Definition ens_plan (k : kind) (D : list row) (s : atable) : plan :=
  ("data", (kind_layout k, D)) :: match s with None => [] | Some (A, B) => [("ancil", (A, B))] end.
Lemma ens_plan_ok k D s : List.Forall (good_row k) D -> anc_good (length D) s -> plan_ok (length D) (ens_plan k D s).
Proof.
  intros HD Hs. split.
  - unfold ens_plan. destruct s as [[A B]|]; cbn; repeat constructor; simpl; intros H; repeat (destruct H as [H|H]; [discriminate H|]); destruct H.
  - intros g L D' [E|H]; [injection E as <- <- <-; split; [apply layout_nodup|]; split; [reflexivity|]; apply good_fits; exact HD|].
    destruct s as [[A B]|]; [|destruct H]. destruct H as [E|[]]. injection E as <- <- <-. destruct Hs as (H1 & H2 & H3). auto.
Qed.
Lemma seq_select {A} (dflt : A) l a b : (a <= b)%nat -> (b <= length l)%nat -> select dflt l (seq a (b - a)) = firstn (b - a) (skipn a l).
Proof.
  intros Hab Hb. apply nth_ext with (d := dflt) (d' := dflt); [rewrite select_length, seq_length, firstn_length, skipn_length; lia|].
  intros i Hi. rewrite select_length, seq_length in Hi. unfold select.
  rewrite (nth_indep _ dflt (nth 0 l dflt)) by (rewrite map_length, seq_length; exact Hi).
  rewrite (map_nth (fun p => nth p l dflt) (seq a (b - a)) 0%nat), seq_nth by exact Hi. replace i with (a + i - a)%nat at 2 by lia. rewrite firstn_skipn_nth by lia. reflexivity.
Qed.
Lemma slice_positions n a b : (a <= b)%nat -> (b <= n)%nat -> key_positions n (KSlice (Z.of_nat a) (Z.of_nat b)) = Some (seq a (b - a)).
Proof. intros Hab Hb. rewrite <- (slice_range n a (b - a)) by lia. do 3 f_equal. lia. Qed.
(** what a part consists of *)
Lemma part_rows X k D e s a b c : fill_outside X -> represents_in X k D e -> has_ancil e s -> part_of X e (a, b, c) ->
  represents_in X k (firstn (b - a) (skipn a D)) c /\ e_ancil c = anc_dict (match s with None => None | Some (A, B) => Some (A, firstn (b - a) (skipn a B)) end) /\ (b <= length D)%nat.
Proof.
  intros HX Hr (Hs & Hg) (Hab & Hb & Hc). pose proof (rep_npdf' X k D e Hr) as Hn. rewrite Hn in Hb, Hg.
  pose proof (slice_positions (length D) a b ltac:(lia) Hb) as Ek.
  destruct (getitem_rep (s_phi X) (s_Phi X) (s_quad X) (s_cubic X) (s_dspline X) (s_Phinv X) HX k D e _ _ s Hr Ek) as (c' & Ec & Hrep & Hanc & _).
  - intros E. apply (f_equal (@length nat)) in E. rewrite seq_length in E. cbn in E. lia.
  - exact Hs.
  - exact Hg.
  - discriminate.
  - unfold qp in Hc. rewrite Ec in Hc. injection Hc as <-. split; [rewrite seq_select in Hrep by first [exact Hb|lia]; exact Hrep|]. split; [|exact Hb].
    rewrite Hanc. destruct s as [[A B]|]; [|reflexivity]. unfold anc_sliced. rewrite sliced_columns by reflexivity. destruct Hg as (HB & _). rewrite <- HB in Hb; rewrite seq_select by first [exact Hb|lia]. reflexivity.
Qed.
Lemma columns_step n g L D a b s : plan_ok n [(g, (L, D))] -> (a < b)%nat -> (b <= n)%nat ->
  In s (group_steps g (columns L (firstn (b - a) (skipn a D))) a b) ->
  exists j key c, nth_error L j = Some (key, c) /\ s = mkstep g key a b (col_value c (map (cell_at j) (firstn (b - a) (skipn a D)))).
Proof.
  intros (_ & HG) Hab Hb Hs. destruct (HG g L D (or_introl eq_refl)) as (HL & _ & _). unfold group_steps in Hs. apply in_map_iff in Hs. destruct Hs as ([key v] & <- & Hin).
  cbn [fst snd]. assert (Hk : In key (map fst L)) by (rewrite <- (columns_keys 0 L (firstn (b - a) (skipn a D))); apply (in_map fst) in Hin; exact Hin).
  apply In_nth_error in Hk. destruct Hk as (j & Hj). rewrite nth_error_map in Hj. destruct (nth_error L j) as [[key' c]|] eqn:Ej; [|discriminate]. cbn in Hj. injection Hj as ->.
  exists j, key, c. split; [exact Ej|]. apply vget_in in Hin; [|unfold columns; rewrite columns_keys; exact HL]. unfold columns in Hin. rewrite (columns_get L HL 0 _ j key c Ej) in Hin.
  injection Hin as <-. reflexivity.
Qed.
Lemma step_of_column n g L D a b j key c : plan_ok n [(g, (L, D))] -> nth_error L j = Some (key, c) ->
  In (mkstep g key a b (col_value c (map (cell_at j) (firstn (b - a) (skipn a D))))) (group_steps g (columns L (firstn (b - a) (skipn a D))) a b).
Proof.
  intros (_ & HG) Ej. destruct (HG g L D (or_introl eq_refl)) as (HL & _ & _). unfold group_steps. apply in_map_iff. exists (key, col_value c (map (cell_at j) (firstn (b - a) (skipn a D)))).
  split; [reflexivity|]. apply vget_in; [unfold columns; rewrite columns_keys; exact HL|]. unfold columns. rewrite (columns_get L HL 0 _ j key c Ej). reflexivity.
Qed.
Lemma plan_single n G g L D : plan_ok n G -> In (g, (L, D)) G -> plan_ok n [(g, (L, D))].
Proof. intros (_ & H) Hin. split; [cbn; repeat constructor; intros []|]. intros g' L' D' [E|[]]. injection E as <- <- <-. apply (H g L D Hin). Qed.
Lemma part_steps X k D e s x : fill_outside X -> represents_in X k D e -> has_ancil e s -> part_of X e x ->
  (forall st, In st (chunk_steps x) -> planned (ens_plan k D s) (length D) st) /\
  (forall g L D' j key c r, In (g, (L, D')) (ens_plan k D s) -> nth_error L j = Some (key, c) -> holds_row r x -> exists st, In st (chunk_steps x) /\ covers st g key r).
Proof.
  destruct x as [[a b] c]. intros HX Hr Hs Hp. pose proof Hs as (_ & Hg). rewrite (rep_npdf' X k D e Hr) in Hg.
  assert (HP : plan_ok (length D) (ens_plan k D s)) by (apply ens_plan_ok; [apply Hr|exact Hg]).
  destruct (part_rows X k D e s a b c HX Hr Hs Hp) as (Hrc & Hac & Hb). destruct (rep_meta X _ _ _ Hrc) as (_ & Oc & _). destruct Hp as (Hab & _ & _).
  unfold chunk_steps. rewrite Oc, Hac. split.
  - intros st Hst. apply in_app_iff in Hst. destruct Hst as [Hst|Hst].
    + pose proof (plan_single _ _ _ _ _ HP (or_introl eq_refl)) as HP1. destruct (columns_step _ _ _ _ _ _ _ HP1 Hab Hb Hst) as (j & key & c0 & Ej & ->).
      exists "data", (kind_layout k), D, j, key, c0, a, b. repeat split; auto. left. reflexivity.
    + destruct s as [[A B]|]; [|destruct Hst]. cbn [anc_dict] in Hst. pose proof (plan_single _ _ _ _ _ HP (or_intror (or_introl eq_refl))) as HP1.
      destruct (columns_step _ _ _ _ _ _ _ HP1 Hab Hb Hst) as (j & key & c0 & Ej & ->). exists "ancil", A, B, j, key, c0, a, b. repeat split; auto. right. left. reflexivity.
  - intros g L D' j key c0 r Hin Ej Hrow. cbn [holds_row] in Hrow. pose proof (plan_single _ _ _ _ _ HP Hin) as HP1. pose proof (step_of_column _ _ _ _ a b _ _ _ HP1 Ej) as Hst.
    exists (mkstep g key a b (col_value c0 (map (cell_at j) (firstn (b - a) (skipn a D'))))). split; [|exact (conj eq_refl (conj eq_refl Hrow))]. apply in_app_iff. destruct Hin as [E|Hin].
    + left. injection E as <- <- <-. exact Hst.
    + right. destruct s as [[A B]|]; [|destruct Hin]. destruct Hin as [E|[]]. injection E as <- <- <-. exact Hst.
Qed.

(** *** The allocated file *)
Definition blank_cell (c : coltype) : cell :=
  match c with NumCol s => Nums (repeat n0 (prod s)) | ByteCol s => Bytes (repeat 0%Z (prod s)) | TextCol s => Texts (repeat "" (prod s)) end.
Definition blank_rows (L : layout) (n : nat) : list row := repeat (map (fun kc => blank_cell (snd kc)) L) n.
Lemma concat_repeat {A} (x : A) p n : concat (repeat (repeat x p) n) = repeat x (n * p).
Proof. induction n as [|n IH]; [reflexivity|]. cbn [repeat concat]. rewrite IH, <- repeat_app. reflexivity. Qed.
Lemma map_repeat {A B} (f : A -> B) x n : map f (repeat x n) = repeat (f x) n.
Proof. induction n as [|n IH]; [reflexivity|]. simpl. rewrite IH. reflexivity. Qed.
Lemma blank_col c l n : blank n (col_value c l) = Ok (col_value c (repeat (blank_cell c) n)).
Proof. destruct c as [s|s|s]; cbn [col_value blank rows_nd shp]; do 2 f_equal; unfold rows_nd; rewrite map_repeat, repeat_length; cbn [nums bytes texts blank_cell]; rewrite concat_repeat; reflexivity. Qed.
Lemma blank_fits L n : List.Forall (row_fits L) (blank_rows L n).
Proof.
  apply Forall_forall. intros d Hd. apply repeat_spec in Hd. subst d. unfold row_fits. induction L as [|[k c] L IH]; [constructor|]. cbn [map snd]. constructor; [|exact IH].
  cbn [snd]. destruct c; cbn [cell_ok blank_cell]; apply repeat_length.
Qed.
Lemma allocate_columns L D n : NoDup (map fst L) -> allocate n (columns L D) = Ok (by_name (columns L (blank_rows L n))).
Proof.
  intros HL. unfold allocate.
  assert (G : forall j pre L', length pre = j -> L = pre ++ L' -> mapM (fun kv => let* v := blank n (snd kv) in Ok (fst kv, v)) (columns_from j L' D) = Ok (columns_from j L' (blank_rows L n))).
  { intros j pre L'. revert j pre. induction L' as [|[k c] L' IH]; intros j pre Hj E; [reflexivity|]. cbn [columns_from mapM fst snd]. rewrite blank_col. cbn [bind].
    rewrite (IH (S j) (pre ++ [(k, c)])); [|rewrite app_length; cbn; lia|rewrite <- app_assoc; exact E]. cbn [bind]. do 4 f_equal.
    unfold blank_rows. rewrite map_repeat. do 2 f_equal. unfold cell_at. rewrite E, map_app. rewrite app_nth2 by (rewrite map_length; lia). rewrite map_length, Hj, Nat.sub_diag. reflexivity. }
  unfold columns. rewrite (G 0%nat [] L eq_refl eq_refl). reflexivity.
Qed.
(** same tables and columns *)
Definition same_layouts (G G' : plan) : Prop := map (fun x => (fst x, fst (snd x))) G = map (fun x => (fst x, fst (snd x))) G'.
Lemma full_partly n G G' : plan_ok n G -> plan_ok n G' -> same_layouts G G' -> partly G n (full G') (fun _ _ _ => False).
Proof.
  intros HG HG' E. split.
  { rewrite !full_keys. apply (f_equal (map fst)) in E. rewrite !map_map in E. cbn [fst] in E. symmetry. exact E. }
  intros g L D Hin. assert (Hx : exists D', In (g, (L, D')) G').
  { apply (in_map (fun x => (fst x, fst (snd x)))) in Hin. unfold same_layouts in E. rewrite E in Hin. apply in_map_iff in Hin. destruct Hin as ([g' [L' D']] & Eq & Hin'). cbn in Eq. injection Eq as -> ->. eauto. }
  destruct Hx as (D' & Hin'). pose proof (proj2 HG' g L D' Hin') as (HL & HD & Hf). exists (by_name (columns L D')). split.
  { apply vget_in; [rewrite full_keys; apply HG'|]. unfold full. apply in_map_iff. exists (g, (L, D')). auto. }
  split; [apply by_name_keys; unfold columns; rewrite !columns_keys; reflexivity|]. intros j key c Ej. exists (map (cell_at j) D'). split.
  { rewrite by_name_get by (unfold columns; rewrite columns_keys; exact HL). unfold columns. rewrite (columns_get L HL 0 D' j key c Ej). reflexivity. }
  split; [rewrite map_length; exact HD|]. split; [|intros r _ []]. intros x Hx. apply in_map_iff in Hx. destruct Hx as (d & <- & Hd). apply (row_fits_col L j key c d); [|exact Ej].
  rewrite Forall_forall in Hf. apply Hf. exact Hd.
Qed.
Definition blank_table (n : nat) (s : atable) : atable := match s with None => None | Some (A, B) => Some (A, blank_rows A n) end.
Lemma init_file X k D e s c a b : fill_outside X -> represents_in X k D e -> has_ancil e s -> part_of X e (a, b, c) ->
  exists f0, initialize c (e_npdf e) = Ok f0 /\ partly (ens_plan k D s) (length D) f0 (fun _ _ _ => False).
Proof.
  intros HX Hr Hs Hp. pose proof Hs as (_ & Hg). rewrite (rep_npdf' X k D e Hr) in *.
  destruct (part_rows X k D e s a b c HX Hr Hs Hp) as (Hrc & Hac & _). destruct (rep_meta X _ _ _ Hrc) as (_ & Oc & _).
  set (n := length D). set (G' := ("data", (kind_layout k, blank_rows (kind_layout k) n)) :: match s with None => [] | Some (A, B) => [("ancil", (A, blank_rows A n))] end).
  assert (HG' : plan_ok n G').
  { split; [unfold G'; destruct s as [[A B]|]; cbn; repeat constructor; simpl; intros H; repeat (destruct H as [H|H]; [discriminate H|]); destruct H|].
    intros g L D' [E|H]; [injection E as <- <- <-; split; [apply layout_nodup|]; split; [apply repeat_length|apply blank_fits]|].
    destruct s as [[A B]|]; [|destruct H]. destruct H as [E|[]]. injection E as <- <- <-. destruct Hg as (_ & _ & H3). split; [exact H3|]. split; [apply repeat_length|apply blank_fits]. }
  exists (full G'). split.
  - unfold initialize. rewrite Oc, Hac. unfold cols. rewrite allocate_columns by apply layout_nodup. cbn [bind]. destruct s as [[A B]|]; [|reflexivity]. cbn [anc_dict].
    rewrite allocate_columns by apply Hg. reflexivity.
  - apply full_partly; [apply ens_plan_ok; [apply Hr|exact Hg]|exact HG'|]. unfold same_layouts, ens_plan, G'. destruct s as [[A B]|]; reflexivity.
Qed.
Lemma full_columns X k D e s : represents_in X k D e -> has_ancil e s -> has_columns_of (full (ens_plan k D s)) e.
Proof.
  intros Hr (Hs & _). destruct (rep_meta X k D e Hr) as (_ & Oe & _). split; [destruct s as [[A B]|]; reflexivity|]. intros g Hg.
  unfold store, build_tables. cbn [t_meta t_data t_ancil]. rewrite Oe, Hs. unfold vget. cbn [app dget]. destruct (String.eqb_spec g "meta"); [congruence|].
  destruct s as [[A B]|]; cbn [full ens_plan map fst snd dget anc_dict app]; reflexivity.
Qed.

(** *** C27 *)
Lemma c27_interleaving : forall X M e s cs a b c l, fill_outside X -> made X M e -> has_ancil e s -> tiles X e cs -> In (a, b, c) cs ->
  (forall st, In st l <-> exists x, In x cs /\ In st (chunk_steps x)) ->
  exists f0 f, initialize c (e_npdf e) = Ok f0 /\ write_steps f0 l = (Ok tt, f) /\ has_columns_of f e.
Proof.
  intros X M e s cs a b c l HX Hm Hs (Hpart & Hcov) Hin Hl. destruct (made_rep X M e HX Hm) as (k & D & Hr & _ & _).
  destruct (init_file X k D e s c a b HX Hr Hs (Hpart _ Hin)) as (f0 & E0 & H0). exists f0.
  pose proof Hs as (_ & Hg). rewrite (rep_npdf' X k D e Hr) in Hg, Hcov. assert (HP : plan_ok (length D) (ens_plan k D s)) by (apply ens_plan_ok; [apply Hr|exact Hg]).
  destruct (write_all (ens_plan k D s) (length D) HP l f0 _ H0) as (f & Ef & Hf).
  { intros st Hst. apply Hl in Hst. destruct Hst as (x & Hx & Hst). apply (part_steps X k D e s x HX Hr Hs (Hpart x Hx)). exact Hst. }
  exists f. split; [exact E0|]. split; [exact Ef|]. rewrite (partly_full (ens_plan k D s) (length D) f HP); [apply (full_columns X); assumption|].
  destruct Hf as (K & Hf). split; [exact K|]. intros g L D' Hg'. destruct (Hf g L D' Hg') as (gd & E & Kg & H). exists gd. split; [exact E|]. split; [exact Kg|].
  intros j key c0 Ej. destruct (H j key c0 Ej) as (cells & A1 & A2 & A3 & A4). exists cells. split; [exact A1|]. split; [exact A2|]. split; [exact A3|]. intros r Hr' _. apply A4; [exact Hr'|].
  right. destruct (Hcov r Hr') as (x & Hx & Hrow). destruct (proj2 (part_steps X k D e s x HX Hr Hs (Hpart x Hx)) g L D' j key c0 r Hg' Ej Hrow) as (st & Hst & Hc).
  exists st. split; [apply Hl; exists x; auto|exact Hc].
Qed.
Lemma write_steps_app l1 l2 (f : h5file R) : write_steps f (l1 ++ l2) = match write_steps f l1 with (Err x, f') => (Err x, f') | (Ok _, f') => write_steps f' l2 end.
Proof. revert f. induction l1 as [|s l1 IH]; intros f; [reflexivity|]. cbn [app write_steps]. destruct (write_step f s); [apply IH|reflexivity]. Qed.
Lemma write_step_keys (f f' : h5file R) s : write_step f s = Ok f' -> keys f' = keys f.
Proof.
  unfold write_step. destruct (vget f (s_group s)) as [g|] eqn:Eg; [|discriminate]. destruct (vget g (s_key s)) as [d|]; [|discriminate]. destruct (write_value _ _ _ _); [|discriminate].
  cbn [bind]. intros E; injection E as <-. apply vset_keys. destruct (in_dec string_dec (s_group s) (keys f)) as [?|Hno]; [assumption|]. apply vget_none in Hno. congruence.
Qed.
Lemma write_steps_keys l (f : h5file R) : keys (snd (write_steps f l)) = keys f.
Proof. revert f. induction l as [|s l IH]; intros f; [reflexivity|]. cbn [write_steps]. destruct (write_step f s) as [f'|] eqn:E; [|reflexivity]. rewrite IH. eapply write_step_keys; eauto. Qed.
Lemma write_chunk_steps (f : h5file R) a b c : keys f = "data" :: match e_ancil c with None => [] | Some _ => ["ancil"] end ->
  write_chunk f c a b = write_steps f (chunk_steps (a, b, c)).
Proof.
  intros K. unfold write_chunk. rewrite K. cbn [chunk_steps write_groups]. unfold chunk_table at 1. cbn [String.eqb Ascii.eqb Bool.eqb]. rewrite write_steps_app.
  destruct (write_steps f (group_steps "data" (objdata c) a b)) as [[[]|x] f1]; [|reflexivity]. destruct (e_ancil c) as [t|] eqn:Ea; [|reflexivity].
  cbn [write_groups]. unfold chunk_table. cbn [String.eqb Ascii.eqb Bool.eqb]. rewrite Ea. destruct (write_steps f1 (group_steps "ancil" t a b)) as [[[]|x] f2]; reflexivity.
Qed.
Lemma write_chunks_steps cs : forall (f : h5file R), (forall a b c, In (a, b, c) cs -> keys f = "data" :: match e_ancil c with None => [] | Some _ => ["ancil"] end) ->
  write_chunks f cs = write_steps f (flat_map chunk_steps cs).
Proof.
  induction cs as [|[[a b] c] cs IH]; intros f Hk; [reflexivity|]. cbn [write_chunks flat_map]. rewrite write_steps_app, write_chunk_steps by (apply (Hk a b c); left; reflexivity).
  destruct (write_steps f (chunk_steps (a, b, c))) as [[u|x] f1] eqn:E; [|reflexivity]. apply IH. intros a' b' c' Hin. rewrite <- (Hk a' b' c' (or_intror Hin)).
  pose proof (write_steps_keys (chunk_steps (a, b, c)) f) as K. rewrite E in K. exact K.
Qed.
Lemma c27_any_order : forall X M e s cs a b c, fill_outside X -> made X M e -> has_ancil e s -> tiles X e cs -> In (a, b, c) cs ->
  exists f0 f, initialize c (e_npdf e) = Ok f0 /\ write_chunks f0 cs = (Ok tt, f) /\ has_columns_of f e.
Proof.
  intros X M e s cs a b c HX Hm Hs Ht Hin. destruct (c27_interleaving X M e s cs a b c (flat_map chunk_steps cs) HX Hm Hs Ht Hin) as (f0 & f & E0 & Ef & Hf).
  { intros st. apply in_flat_map. }
  exists f0, f. split; [exact E0|]. split; [|exact Hf]. rewrite write_chunks_steps; [exact Ef|]. intros a' b' c' Hin'.
  destruct (made_rep X M e HX Hm) as (k & D & Hr & _ & _). destruct (part_rows X k D e s a' b' c' HX Hr Hs (proj1 Ht _ Hin')) as (_ & Ac' & _).
  destruct (init_file X k D e s c a b HX Hr Hs (proj1 Ht _ Hin)) as (f0' & E0' & (K & _)). rewrite E0 in E0'. injection E0' as <-. rewrite K, full_keys, Ac'.
  destruct s as [[A B]|]; reflexivity.
Qed.

(** *** C28 *)
Lemma initialize_keys (e : ens R) n f : initialize e n = Ok f -> vget f "meta" = None.
Proof.
  unfold initialize. destruct (allocate n (objdata e)) as [d|]; [|discriminate]. cbn [bind]. destruct (e_ancil e) as [a|]; [|intros E; injection E as <-; reflexivity].
  destruct (allocate n a) as [d'|]; [|discriminate]. cbn [bind]. intros E; injection E as <-. reflexivity.
Qed.
Lemma write_chunk_keys (f : h5file R) c a b : keys (snd (write_chunk f c a b)) = keys f.
Proof.
  unfold write_chunk. generalize (keys f) at 1. intros names. revert f. induction names as [|g names IH]; intros f; [reflexivity|]. cbn [write_groups].
  destruct (chunk_table c g) as [d|]; [|reflexivity]. destruct (write_steps f (group_steps g d a b)) as [[u|x] f1] eqn:E.
  - rewrite IH. pose proof (write_steps_keys (group_steps g d a b) f) as K. rewrite E in K. exact K.
  - pose proof (write_steps_keys (group_steps g d a b) f) as K. rewrite E in K. exact K.
Qed.
Lemma write_chunks_keys cs : forall (f : h5file R), keys (snd (write_chunks f cs)) = keys f.
Proof.
  induction cs as [|[[a b] c] cs IH]; intros f; [reflexivity|]. cbn [write_chunks]. pose proof (write_chunk_keys f c a b) as K. destruct (write_chunk f c a b) as [[u|x] f1]; cbn [snd] in *; [rewrite IH; exact K|exact K].
Qed.
Lemma no_meta (f f' : h5file R) : keys f' = keys f -> vget f "meta" = None -> vget f' "meta" = None.
Proof. rewrite !vget_none. intros ->. auto. Qed.
Lemma c28_unfinished : forall e n f0 cs l, initialize e n = Ok f0 ->
  is_qp_file (snd (write_chunks f0 cs)) = false /\ is_qp_file (snd (write_steps (T := R) f0 l)) = false.
Proof.
  intros e n f0 cs l H. apply initialize_keys in H. unfold is_qp_file.
  rewrite (no_meta _ _ (write_chunks_keys cs f0) H), (no_meta _ _ (write_steps_keys l f0) H). split; reflexivity.
Qed.
Lemma vget_app {V} (d d' : dict string V) k : vget (d ++ d') k = match vget d k with Some v => Some v | None => vget d' k end.
Proof. unfold vget. induction d as [|[x w] d IH]; [reflexivity|]. cbn [app dget]. destruct (String.eqb k x); [reflexivity|exact IH]. Qed.
Lemma c28_finished : forall X M e s cs a b c a' b' c', fill_outside X -> made X M e -> has_ancil e s -> tiles X e cs -> In (a, b, c) cs -> In (a', b', c') cs ->
  exists f0 f f' e', initialize c (e_npdf e) = Ok f0 /\ write_chunks f0 cs = (Ok tt, f) /\ finalize f c' = (Ok tt, f') /\
    same_dict f' (store (build_tables e)) /\ is_qp_file f' = true /\ read_file (qp X) f' = Ok e' /\ made X M e' /\ same_ensemble M e e'.
Proof.
  intros X M e s cs a b c a' b' c' HX Hm Hs Ht Hin Hin'. destruct (c27_any_order X M e s cs a b c HX Hm Hs Ht Hin) as (f0 & f & E0 & Ef & (Hf1 & Hf2)).
  destruct (made_rep X M e HX Hm) as (k & D & Hr & _ & _). destruct (part_rows X k D e s a' b' c' HX Hr Hs (proj1 Ht _ Hin')) as (Hrc & _ & _).
  destruct (rep_meta X _ _ _ Hrc) as (Mc & _ & _). destruct (rep_meta X _ _ _ Hr) as (Me & _ & _).
  set (f' := finalizing f (metadata c') (length (metadata c'))).
  assert (Hsame : same_dict f' (store (build_tables e))).
  { intros g. unfold f', finalizing. rewrite firstn_all, vget_app. destruct (string_dec g "meta") as [->|Hg].
    - rewrite Hf1. rewrite (proj1 (store_groups e)). rewrite Mc, Me. reflexivity.
    - rewrite (Hf2 g Hg). destruct (vget (store (build_tables e)) g); [reflexivity|]. unfold vget. cbn [dget]. destruct (String.eqb_spec g "meta"); [congruence|reflexivity]. }
  assert (Hp : proper (e_ancil e)). { destruct Hs as (-> & Hg). destruct s as [[A B]|]; [|exact I]. cbn [anc_dict proper]. unfold columns. rewrite columns_keys. apply Hg. }
  destruct (c92_file X M e f' HX Hm Hp Hsame) as (e' & Er & Hm' & Hse). exists f0, f, f', e'. split; [exact E0|]. split; [exact Ef|]. split; [unfold finalize; rewrite Hf1; reflexivity|].
  split; [exact Hsame|]. split; [|split; [exact Er|split; assumption]]. destruct (c92_roundtrip X M e HX Hm Hp) as (Hq & _). unfold is_qp_file in *. rewrite (Hsame "meta"). exact Hq.
Qed.
(** C91: from the first metadata dataset on *)
Lemma firstn_nodup {V} (d : dict string V) i : NoDup (keys d) -> NoDup (keys (firstn i d)).
Proof.
  intros H. unfold keys in *. rewrite <- firstn_map. generalize dependent (map fst d). intros l. revert i. induction l as [|x l IH]; intros i H; [rewrite firstn_nil; constructor|].
  inversion H as [|? ? Hx Hl]; subst. destruct i; [constructor|]. cbn [firstn]. constructor; [|apply IH; exact Hl]. intros Hin. apply Hx. rewrite <- (firstn_skipn i l). apply in_app_iff. left. exact Hin.
Qed.
Lemma c91_first : forall X M e f i, fill_outside X -> made X M e -> vget f "meta" = None ->
  is_qp_file (finalizing f (metadata e) i) = (0 <? i)%nat.
Proof.
  intros X M e f i HX Hm Hf. destruct (made_rep X M e HX Hm) as (k & D & Hr & _ & _). destruct (rep_meta X k D e Hr) as (Me & _ & _). unfold is_qp_file, finalizing. rewrite vget_app, Hf, Me.
  change (vget [("meta", by_name (firstn i (kind_meta k)))] "meta") with (Some (by_name (firstn i (kind_meta k)))). cbv iota beta.
  rewrite by_name_get by (apply firstn_nodup, meta_nodup).
  destruct i as [|i]; [reflexivity|]. unfold kind_meta, class_meta. reflexivity.
Qed.
Lemma c91_again : forall X M e f i e2, fill_outside X -> made X M e -> vget f "meta" = None ->
  finalize f e = (Ok tt, finalizing f (metadata e) (length (metadata e))) /\
  finalize (finalizing f (metadata e) i) e2 = (Err ValueError, finalizing f (metadata e) i).
Proof.
  intros X M e f i e2 _ _ Hf. unfold finalize. rewrite Hf. split; [reflexivity|]. unfold finalizing. rewrite vget_app, Hf. reflexivity.
Qed.
