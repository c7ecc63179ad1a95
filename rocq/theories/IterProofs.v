(** C25, C26, C90: the chunked iterator. *)
From Coq Require Import String List Arith ZArith Bool Lia Permutation Reals.
From Verif Require Import Num NumProofs Py NdArray NumpyLib Utils ScipyWrap Spec Values Ensemble Classes Hdf5
  NdProofs InterpProofs Kinds KindProofs EnsembleProofs KindInputs ReachProofs EnsembleTheorems Hdf5Proofs WriteProofs RangeProofs Hdf5Theorems.
Import ListNotations.
Local Open Scope string_scope.
Local Open Scope list_scope.

Definition rows_between (a b : nat) (D : list row) : list row := firstn (b - a) (skipn a D).
(** The part of a column that a range selects *)
Definition cut (a b : nat) (kv : string * value R) : string * value R :=
  (fst kv, match v_getitem (snd kv) (KSlice (Z.of_nat a) (Z.of_nat b)) with Ok v => v | Err _ => snd kv end).
Lemma insert_map {V W} (f : string * V -> string * W) kv d : (forall x, fst (f x) = fst x) -> insert_name (f kv) (map f d) = map f (insert_name kv d).
Proof.
  intros H. induction d as [|x d IH]; [reflexivity|]. cbn [map insert_name]. rewrite !H.
  destruct (String.leb (fst kv) (fst x)); [reflexivity|]. cbn [map]. f_equal. exact IH.
Qed.
Lemma by_name_map {V W} (f : string * V -> string * W) d : (forall x, fst (f x) = fst x) -> by_name (map f d) = map f (by_name d).
Proof. intros H. unfold by_name. induction d as [|kv d IH]; [reflexivity|]. cbn [map fold_right]. rewrite IH. apply insert_map, H. Qed.

Lemma cut_columns a b L D : (a < b)%nat -> (b <= length D)%nat -> List.Forall (row_fits L) D ->
  map (cut a b) (columns L D) = columns L (rows_between a b D) /\
  (forall kv, In kv (columns L D) -> exists v, v_getitem (snd kv) (KSlice (Z.of_nat a) (Z.of_nat b)) = Ok v).
Proof.
  intros Hab Hb HD.
  assert (G : forall key c j, nth_error L j = Some (key, c) ->
    v_getitem (col_value c (map (cell_at j) D)) (KSlice (Z.of_nat a) (Z.of_nat b)) = Ok (col_value c (map (cell_at j) (rows_between a b D)))).
  { intros key c j Ej. rewrite col_getitem.
    - rewrite map_length, (slice_positions (length D) a b) by first [exact Hb|lia]. unfold col_sliced. cbn [is_int]. f_equal. f_equal.
      rewrite seq_select by first [lia|rewrite map_length; exact Hb]. unfold rows_between. rewrite skipn_map, firstn_map. reflexivity.
    - intros x Hx. apply in_map_iff in Hx. destruct Hx as (d & <- & Hd). rewrite List.Forall_forall in HD. apply (row_fits_col L j key c d (HD d Hd) Ej). }
  split.
  - unfold columns.
    assert (K : forall L' j, (forall i kc, nth_error L' i = Some kc -> nth_error L (j + i) = Some kc) ->
      map (cut a b) (columns_from j L' D) = columns_from j L' (rows_between a b D)).
    { induction L' as [|[key c] L' IH]; intros j H; [reflexivity|]. cbn [columns_from map]. rewrite IH.
      - f_equal. unfold cut. cbn [fst snd]. rewrite (G key c j); [reflexivity|]. rewrite <- (Nat.add_0_r j). apply (H 0%nat). reflexivity.
      - intros i kc Hi. replace (S j + i)%nat with (j + S i)%nat by lia. apply (H (S i)). exact Hi. }
    apply K. intros i kc H. exact H.
  - intros kv Hkv. unfold columns in Hkv.
    assert (K : forall L' j, (forall i kc, nth_error L' i = Some kc -> nth_error L (j + i) = Some kc) -> In kv (columns_from j L' D) ->
      exists v, v_getitem (snd kv) (KSlice (Z.of_nat a) (Z.of_nat b)) = Ok v).
    { induction L' as [|[key c] L' IH]; intros j H Hin; [destruct Hin|]. destruct Hin as [<-|Hin].
      - eexists. cbn [snd]. apply (G key). rewrite <- (Nat.add_0_r j). apply (H 0%nat). reflexivity.
      - apply (IH (S j)); [|exact Hin]. intros i kc Hi. replace (S j + i)%nat with (j + S i)%nat by lia. apply (H (S i)). exact Hi. }
    apply (K L 0%nat); [|exact Hkv]. intros i kc H. exact H.
Qed.
Lemma read_rows_named into a b L D : (a < b)%nat -> (b <= length D)%nat -> List.Forall (row_fits L) D ->
  read_rows into (by_name (columns L D)) a b = Ok (vupdate into (by_name (columns L (rows_between a b D)))).
Proof.
  intros Hab Hb HD. destruct (cut_columns a b L D Hab Hb HD) as (H1 & H2). unfold read_rows.
  rewrite (mapM_ok _ (cut a b)).
  - cbn [bind]. rewrite <- by_name_map by reflexivity. rewrite H1. reflexivity.
  - intros kv Hkv. apply (Permutation_in _ (by_name_perm _)) in Hkv. destruct (H2 kv Hkv) as (v & Ev). unfold cut. rewrite Ev. reflexivity.
Qed.

(** ** The state between two yields *)
Definition iter_state X k D (s : atable) (it : iter R) : Prop :=
  it_func it = qcreate X k /\ it_file it = by_name (cols k D) /\ it_ancil_file it = named_ancil (anc_dict s) /\
  (forall D', same_dict (vupdate (it_data it) (by_name (cols k D'))) (kind_args k ++ cols k D')) /\
  (kind_name k = "norm" -> forall D', vupdate (it_data it) (by_name (cols k D')) = kind_args k ++ cols k D') /\
  match s with
  | None => it_ancil it = []
  | Some (A, _) => forall B', vupdate (it_ancil it) (by_name (columns A B')) = by_name (columns A B')
  end.
Lemma named_keys k D D' key : vget (by_name (cols k D)) key = None -> vget (by_name (cols k D')) key = None.
Proof.
  rewrite !by_name_get by apply cols_nodup. rewrite !vget_none. unfold cols, columns. rewrite !columns_keys. auto.
Qed.
Lemma vupdate_in {V} (d d0 : dict string V) : (forall k, In k (keys d) -> In k (keys d0)) -> keys (vupdate d0 d) = keys d0.
Proof.
  unfold vupdate, dupdate. revert d0. induction d as [|[x w] d IH]; intros d0 H; [reflexivity|]. cbn [fold_left fst snd].
  assert (E : keys (dset String.eqb d0 x w) = keys d0) by (apply (vset_keys d0 x w), H; left; reflexivity).
  rewrite IH; [exact E|]. intros k Hk. rewrite E. apply H. right. exact Hk.
Qed.
Lemma vupdate_all (d d0 : vdict R) : keys d0 = keys d -> NoDup (keys d) -> vupdate d0 d = d.
Proof.
  intros Hk Hn. assert (E : keys (vupdate d0 d) = keys d) by (rewrite vupdate_in; [exact Hk|rewrite Hk; auto]).
  apply dict_ext; [exact E|rewrite E; exact Hn|]. intros k. rewrite vupdate_get by exact Hn. destruct (vget d k) eqn:Ek; [reflexivity|].
  apply vget_none. rewrite Hk. apply vget_none. exact Ek.
Qed.
Lemma vset_new {V} (d : dict string V) x w : ~ In x (keys d) -> vset d x w = d ++ [(x, w)].
Proof.
  unfold vset, keys. induction d as [|[y v] d IH]; [reflexivity|]. cbn [map fst In dset app]. intros H.
  destruct (String.eqb_spec x y); [subst; exfalso; apply H; left; reflexivity|]. f_equal. apply IH. tauto.
Qed.
Lemma vupdate_new {V} (d d0 : dict string V) : (forall k, In k (keys d) -> ~ In k (keys d0)) -> NoDup (keys d) -> vupdate d0 d = d0 ++ d.
Proof.
  unfold vupdate, dupdate. revert d0. induction d as [|[x w] d IH]; intros d0 H Hn; [symmetry; apply app_nil_r|]. cbn [fold_left fst snd]. inversion Hn as [|? ? Hx Hn']; subst.
  fold (vset d0 x w). rewrite vset_new by (apply H; left; reflexivity). rewrite IH; [rewrite <- app_assoc; reflexivity| |exact Hn'].
  intros k Hk. unfold keys. rewrite map_app, in_app_iff. intros [Hi|[Hi|[]]]; [apply (H k); [right; exact Hk|exact Hi]|]. cbn [fst] in Hi. subst k. apply Hx, Hk.
Qed.
Lemma named_column_keys A B B' : keys (by_name (columns A B)) = keys (by_name (columns A B')).
Proof.
  unfold columns. generalize 0%nat. induction A as [|[k c] A IH]; intros j; [reflexivity|]. cbn [columns_from by_name fold_right].
  unfold by_name in IH. apply insert_keys. apply IH.
Qed.
Lemma columns_nodup A B : NoDup (map fst A) -> NoDup (keys (columns A B)).
Proof. unfold columns. rewrite columns_keys. auto. Qed.

Lemma data_step k data D0 D' : same_dict (vupdate data (by_name (cols k D'))) (kind_args k ++ cols k D') ->
  same_dict (vupdate (vupdate data (by_name (cols k D0))) (by_name (cols k D'))) (kind_args k ++ cols k D').
Proof.
  intros H key. rewrite <- (H key). rewrite !vupdate_get by apply by_name_nodup, cols_nodup.
  destruct (vget (by_name (cols k D')) key) eqn:E; [reflexivity|]. rewrite (named_keys _ _ D0 _ E). reflexivity.
Qed.

(** A part, as the iterator gives it: the slice, with a dictionary of its ancillary columns in the order of their names *)
Definition listing (p : ens R) : vdict R := match e_ancil p with None => [] | Some d => by_name d end.
Definition yield_of X (e : ens R) (y : yielded R) : Prop :=
  exists p, part_of X e (y_start y, y_stop y, p) /\ set_ancil p (Some (listing p)) = (Ok tt, y_ens y).

Lemma iter_step X k D e s a b rest it : fill_outside X -> represents_in X k D e -> has_ancil e s -> iter_state X k D s it -> it_ranges it = (a, b) :: rest ->
  (a < b)%nat -> (b <= e_npdf e)%nat ->
  exists y it', iter_next it = Some (Ok (y, it')) /\ y_start y = a /\ y_stop y = b /\ yield_of X e y /\ e_ancil (y_ens y) = Some (it_ancil it') /\
    iter_state X k D s it' /\ it_ranges it' = rest.
Proof.
  intros HX Hr (Hs & Hg) (F & Fd & Fa & Id & In_ & Ia) Er Hab Hb. pose proof (rep_npdf' X k D e Hr) as Hn. rewrite Hn in Hb, Hg.
  pose proof (slice_positions (length D) a b ltac:(lia) Hb) as Ek.
  set (D1 := rows_between a b D).
  assert (HD : List.Forall (row_fits (kind_layout k)) D) by (apply good_fits, Hr).
  set (anc := match s with None => [] | Some (A, B) => by_name (columns A (rows_between a b B)) end).
  destruct (getitem_rep (s_phi X) (s_Phi X) (s_quad X) (s_cubic X) (s_dspline X) (s_Phinv X) HX k D e _ _ s Hr Ek) as (p & Ep & Hrp & Hanc & Hgr).
  { intros E. apply (f_equal (@length nat)) in E. rewrite seq_length in E. cbn in E. lia. }
  { exact Hs. } { exact Hg. } { discriminate. }
  rewrite seq_select in Hrp by first [exact Hb|lia]. fold (rows_between a b D) in Hrp. fold D1 in Hrp.
  assert (Hpl : listing p = anc).
  { unfold listing. rewrite Hanc. unfold anc. destruct s as [[A B]|]; [|reflexivity]. unfold anc_sliced. rewrite sliced_columns by reflexivity.
    destruct Hg as (HB & _). rewrite <- HB in Hb. rewrite seq_select by first [exact Hb|lia]. reflexivity. }
  pose proof (rep_npdf' X k D1 p Hrp) as Hnp.
  assert (Hcp : check_array_shapes (Some anc) (length D1) = Ok tt).
  { unfold anc. destruct s as [[A B]|]; [|reflexivity]. apply (check_named (Some (columns A (rows_between a b B)))). cbn [check_array_shapes].
    unfold columns. apply check_columns_from. unfold D1, rows_between. rewrite !firstn_length, !skipn_length. destruct Hg as (HB & _). rewrite HB. reflexivity. }
  assert (Ed : read_rows (it_data it) (it_file it) a b = Ok (vupdate (it_data it) (by_name (cols k D1)))) by (rewrite Fd; apply read_rows_named; assumption).
  assert (Ea : match it_ancil_file it with None => Ok (it_ancil it) | Some g => read_rows (it_ancil it) g a b end = Ok anc).
  { rewrite Fa. unfold anc. destruct s as [[A B]|]; cbn [anc_dict named_ancil]; [|rewrite Ia; reflexivity]. destruct Hg as (HB & HBf & HBn).
    rewrite read_rows_named by first [exact Hab|rewrite HB; exact Hb|exact HBf]. rewrite Ia. reflexivity. }
  assert (En : ens_new (it_func it) (vupdate (it_data it) (by_name (cols k D1))) (Some anc) = ens_new (qcreate X k) (kind_args k ++ cols k D1) (Some anc)).
  { rewrite F. destruct (string_dec (kind_name k) "norm") as [Nm|Nm]; [rewrite (In_ Nm); reflexivity|]. apply new_ext; [exact Nm|apply Id]. }
  rewrite (getitem_eq (s_phi X) (s_Phi X) (s_quad X) (s_cubic X) (s_dspline X) (s_Phinv X) k D e _ _ Hr Ek) in Ep.
  rewrite Hs, (slice_ancil s (length D) _ _ Hg Ek) in Ep. cbn [bind] in Ep. rewrite seq_select in Ep by first [exact Hb|lia]. fold (rows_between a b D) in Ep. fold D1 in Ep.
  pose proof Ep as Ep'. apply ens_new_inv in Ep'. destruct Ep' as (g & Eg & _ & Epe).
  assert (En' : ens_new (qcreate X k) (kind_args k ++ cols k D1) (Some anc) = Ok (mkens (qcreate X k) g (Some anc) None)).
  { assert (Eg' : qcreate X k (kind_args k ++ cols k D1) = Ok g) by exact Eg. unfold ens_new. rewrite Eg'. cbn [bind]. replace (g_npdf g) with (length D1) by (rewrite <- Hnp, Epe; reflexivity). rewrite Hcp. reflexivity. }
  exists (mkyielded a b (mkens (qcreate X k) g (Some anc) None)), (mkiter (it_func it) (it_file it) (it_ancil_file it) (vupdate (it_data it) (by_name (cols k D1))) anc rest).
  split; [|split; [reflexivity|split; [reflexivity|]]].
  { unfold iter_next. rewrite Er, Ed. cbn [bind]. rewrite Ea. cbn [bind]. rewrite En, En'. reflexivity. }
  split; [|split; [reflexivity|split; [|reflexivity]]].
  - exists p. cbn [y_start y_stop y_ens]. split; [split; [exact Hab|split; [rewrite Hn; exact Hb|]]|].
    + unfold qp. rewrite (getitem_eq (s_phi X) (s_Phi X) (s_quad X) (s_cubic X) (s_dspline X) (s_Phinv X) k D e _ _ Hr Ek).
      rewrite Hs, (slice_ancil s (length D) _ _ Hg Ek). cbn [bind]. rewrite seq_select by first [exact Hb|lia]. exact Ep.
    + rewrite Hpl. unfold set_ancil. rewrite Hnp, Hcp, Epe. reflexivity.
  - unfold iter_state. cbn [it_func it_file it_ancil_file it_data it_ancil]. split; [exact F|]. split; [exact Fd|]. split; [exact Fa|].
    split; [intros D'; apply data_step, Id|]. split.
    + intros Nm D'. rewrite (In_ Nm D1). destruct k; try discriminate Nm. reflexivity.
    + unfold anc. destruct s as [[A B]|]; [|reflexivity]. destruct Hg as (_ & _ & HBn). intros B'. apply vupdate_all; [apply named_column_keys|apply by_name_nodup, columns_nodup, HBn].
Qed.

(** All ranges, one after the other *)
Lemma iter_run X k D e s : fill_outside X -> represents_in X k D e -> has_ancil e s -> forall ranges it, iter_state X k D s it -> it_ranges it = ranges ->
  (forall a b, In (a, b) ranges -> (a < b)%nat /\ (b <= e_npdf e)%nat) ->
  forall j, (j <= length ranges)%nat ->
  exists ys it', iter_take j it = Ok (ys, it') /\ map (fun y => (y_start y, y_stop y)) ys = firstn j ranges /\
    (forall y, In y ys -> yield_of X e y) /\ it_ranges it' = skipn j ranges /\ iter_state X k D s it' /\
    match j with O => it' = it | S i => exists y, nth_error ys i = Some y /\ e_ancil (y_ens y) = Some (it_ancil it') end.
Proof.
  intros HX Hr Hs. induction ranges as [|[a b] rest IH]; intros it Hi Er Hok j Hj.
  { assert (j = 0)%nat as -> by (cbn in Hj; lia). exists [], it. cbn. repeat split; try assumption; try tauto; apply Hi. }
  destruct j as [|j]; [exists [], it; cbn; repeat split; try assumption; try tauto; apply Hi|].
  destruct (Hok a b (or_introl eq_refl)) as [Hab Hb].
  destruct (iter_step X k D e s a b rest it HX Hr Hs Hi Er Hab Hb) as (y & it1 & E1 & Y1 & Y2 & Y3 & Y4 & Hi1 & Er1).
  destruct (IH it1 Hi1 Er1 (fun a' b' H => Hok a' b' (or_intror H)) j ltac:(cbn in Hj; lia)) as (ys & it' & Et & Em & Hy & Er' & Hi' & Hlast).
  exists (y :: ys), it'. cbn [iter_take]. rewrite E1. cbn [bind]. rewrite Et. cbn [bind]. split; [reflexivity|]. split; [cbn [map firstn]; rewrite Y1, Y2, Em; reflexivity|].
  split; [intros y' [<-|H]; [exact Y3|apply Hy, H]|]. split; [exact Er'|]. split; [exact Hi'|].
  destruct j as [|j]; [exists y; split; [reflexivity|rewrite Hlast; exact Y4]|]. destruct Hlast as (y' & H1 & H2). exists y'. split; [exact H1|exact H2].
Qed.
Lemma perm_remove (md : vdict R) k : forall md', Permutation md' md -> Permutation (vremove md' k) (vremove md k).
Proof.
  intros md' H. unfold vremove, dremove. induction H; cbn [filter]; [constructor| | |].
  - destruct (negb _); [constructor; exact IHPermutation|exact IHPermutation].
  - destruct (negb (String.eqb k (fst y))), (negb (String.eqb k (fst x))); try apply Permutation_refl. apply perm_swap.
  - eapply perm_trans; eassumption.
Qed.
Lemma build_args k : good_kind k -> build_data_dict (vremove (vremove (kind_meta k) "pdf_name") "pdf_version") [] = Ok (kind_args k).
Proof.
  assert (G : forall l : list R, (2 <= length l)%nat -> meta_item (v_expand_first (VArr (nd1 l))) = Ok (v_squeeze (v_expand_first (VArr (nd1 l))))).
  { intros l Hl. unfold meta_item. cbn [v_expand_first v_shape expand_first nd1 shp length v_squeeze].
    rewrite (squeeze_grid l) by lia. reflexivity. }
  intros Hk. destruct k; unfold kind_meta, class_meta, kind_own_meta, add_meta, kind_name, build_data_dict, vremove, dremove; cbn [app filter fst String.eqb Ascii.eqb Bool.eqb negb mapM snd];
    try (rewrite G by (unfold good_kind in Hk; lia)); reflexivity.
Qed.
Lemma iter_start X M e s f chunk rank size : fill_outside X -> made X M e -> has_ancil e s -> same_dict f (store (build_tables e)) -> (0 < chunk)%nat -> (0 < size)%nat ->
  exists k D it, represents_in X k D e /\ iter_open (qp X) f chunk rank size = Ok it /\ iter_state X k D s it /\ it_ranges it = ranges_of (e_npdf e) chunk size rank.
Proof.
  intros HX Hm Hs Hf Hc Hz. destruct (made_rep X M e HX Hm) as (k & D & Hr & _ & _). destruct (rep_meta X k D e Hr) as (M1 & O1 & _).
  assert (Hp : proper (e_ancil e)). { destruct Hs as (-> & Hg). destruct s as [[A B]|]; [|exact I]. cbn [anc_dict proper]. apply columns_nodup, Hg. }
  destruct (c92_roundtrip X M e HX Hm Hp) as (_ & Hlen & _). unfold data_length in Hlen. destruct (store_groups e) as (S1 & S2 & S3). rewrite S2, O1 in Hlen.
  rewrite M1 in S1. rewrite O1 in S2. rewrite (proj1 Hs) in S3.
  assert (Hk : good_kind k) by apply Hr.
  assert (Hnd : NoDup (keys (vremove (vremove (kind_meta k) "pdf_name") "pdf_version"))) by apply vremove_nodup, vremove_nodup, meta_nodup.
  destruct (build_perm _ [] _ (vremove (vremove (by_name (kind_meta k)) "pdf_name") "pdf_version") [] Hnd (NoDup_nil _) (perm_remove _ _ _ (perm_remove _ _ _ (by_name_perm _))) (Permutation_refl _) (build_args k Hk))
    as (data & Ed & Hd).
  exists k, D, (mkiter (qcreate X k) (by_name (cols k D)) (named_ancil (anc_dict s)) data [] (ranges_of (e_npdf e) chunk size rank)).
  split; [exact Hr|]. split; [|split; [|reflexivity]].
  - unfold iter_open, read_metadata. rewrite !Hf, S1. cbn [bind]. rewrite !by_name_get by apply meta_nodup.
    replace (vget (kind_meta k) "pdf_name") with (Some (VTxt (T := R) (nd1 [kind_name k]))) by (destruct k; reflexivity).
    replace (vget (kind_meta k) "pdf_version") with (Some (VArr (nd1 [n0 : R]))) by (destruct k; reflexivity).
    cbn [first_text nd1 shp dat length bind]. rewrite kind_class, S2, Hlen. cbn [bind]. rewrite (proj1 (c25_partition (e_npdf e) chunk size Hc Hz) rank). cbn [bind].
    rewrite Ed. cbn [bind]. rewrite S3. reflexivity.
  - unfold iter_state. cbn [it_func it_file it_ancil_file it_data it_ancil]. repeat (split; [reflexivity|]). split; [|split].
    + intros D' key. rewrite <- args_then_cols, !vupdate_get by first [apply by_name_nodup, cols_nodup|apply cols_nodup]. rewrite by_name_get by apply cols_nodup. destruct (vget (cols k D') key); [reflexivity|]. apply Hd.
    + intros Nm D'. destruct k; try discriminate Nm. assert (data = []) as ->; [|reflexivity].
      destruct data as [|[x w] data]; [reflexivity|]. exfalso. pose proof (Hd x) as H. unfold vget in H. cbn [dget kind_args map kind_own_meta] in H. rewrite String.eqb_refl in H. discriminate H.
    + destruct s as [[A B]|]; [|reflexivity]. intros B'. rewrite vupdate_new; [reflexivity|intros ? _ []|]. apply by_name_nodup, columns_nodup. apply (proj2 Hs).
Qed.

Lemma nth_error_firstn_lt {A} (l : list A) : forall n j, (j < n)%nat -> nth_error (firstn n l) j = nth_error l j.
Proof. induction l as [|x l IH]; intros [|n] [|j] H; try lia; try reflexivity. cbn. apply IH. lia. Qed.

(** ** Theorems *)
(** C25 *)
Lemma c25_iterate : forall X M e s f chunk rank size, fill_outside X -> made X M e -> has_ancil e s -> same_dict f (store (build_tables e)) -> (0 < chunk)%nat -> (0 < size)%nat ->
  exists it ys it', iter_open (qp X) f chunk rank size = Ok it /\ iter_take (length (it_ranges it)) it = Ok (ys, it') /\ iter_next it' = None /\
    map (fun y => (y_start y, y_stop y)) ys = ranges_of (e_npdf e) chunk size rank /\ forall y, In y ys -> yield_of X e y.
Proof.
  intros X M e s f chunk rank size HX Hm Hs Hf Hc Hz. destruct (iter_start X M e s f chunk rank size HX Hm Hs Hf Hc Hz) as (k & D & it & Hr & Eo & Hi & Er).
  destruct (iter_run X k D e s HX Hr Hs _ it Hi Er (fun a b H => let F := range_facts _ _ _ _ a b Hc Hz H in conj (proj1 F) (proj1 (proj2 F))) _ (le_n _)) as (ys & it' & Et & Em & Hy & Er' & _).
  exists it, ys, it'. split; [exact Eo|]. rewrite Er. split; [exact Et|]. rewrite firstn_all in Em. rewrite skipn_all in Er'. split; [unfold iter_next; rewrite Er'; reflexivity|]. split; assumption.
Qed.
(** C90: the ancillary data of everything yielded so far are those of the last range *)
Lemma c90_shared : forall X M e s f chunk rank size j a b p, fill_outside X -> made X M e -> has_ancil e s -> same_dict f (store (build_tables e)) -> (0 < chunk)%nat -> (0 < size)%nat ->
  nth_error (ranges_of (e_npdf e) chunk size rank) j = Some (a, b) -> part_of X e (a, b, p) ->
  exists it ys it', iter_open (qp X) f chunk rank size = Ok it /\ iter_take (S j) it = Ok (ys, it') /\ length ys = S j /\
    forall y, In y ys -> e_ancil (seen it' y) = Some (listing p) /\ exists q, part_of X e (y_start y, y_stop y, q) /\ e_ancil (y_ens y) = Some (listing q).
Proof.
  intros X M e s f chunk rank size j a b p HX Hm Hs Hf Hc Hz Hj Hp. destruct (iter_start X M e s f chunk rank size HX Hm Hs Hf Hc Hz) as (k & D & it & Hr & Eo & Hi & Er).
  assert (Hlt : (S j <= length (ranges_of (e_npdf e) chunk size rank))%nat) by (apply (nth_error_Some); congruence).
  destruct (iter_run X k D e s HX Hr Hs _ it Hi Er (fun a b H => let F := range_facts _ _ _ _ a b Hc Hz H in conj (proj1 F) (proj1 (proj2 F))) (S j) Hlt) as (ys & it' & Et & Em & Hy & Er' & _ & y0 & Ey & Ea).
  assert (Q : forall y, In y ys -> exists q, part_of X e (y_start y, y_stop y, q) /\ e_ancil (y_ens y) = Some (listing q)).
  { intros y Hin. destruct (Hy y Hin) as (q & Hq & Es). exists q. split; [exact Hq|]. unfold set_ancil in Es. destruct (check_array_shapes (Some (listing q)) (e_npdf q)); [|discriminate]. injection Es as <-. reflexivity. }
  assert (El : e_ancil (y_ens y0) = Some (listing p)).
  { destruct (Q y0 (nth_error_In _ _ Ey)) as (q & Hq & Eq). assert (E2 : (y_start y0, y_stop y0) = (a, b)).
    { assert (E3 : nth_error (map (fun y => (y_start y, y_stop y)) ys) j = Some (y_start y0, y_stop y0)) by (rewrite nth_error_map, Ey; reflexivity).
      rewrite Em in E3. rewrite nth_error_firstn_lt in E3 by lia. congruence. }
    injection E2 as E3 E4. rewrite E3, E4 in Hq. destruct Hq as (_ & _ & Hq). destruct Hp as (_ & _ & Hp). rewrite Hq in Hp. injection Hp as <-. exact Eq. }
  exists it, ys, it'. split; [exact Eo|]. split; [exact Et|]. split; [apply (f_equal (@length _)) in Em; rewrite map_length, firstn_length in Em; lia|].
  intros y Hin. split; [|apply Q; exact Hin]. unfold seen. cbn [e_ancil]. rewrite <- Ea. exact El.
Qed.
