(** Slicing, concatenation, tables: proofs that hold for all modelled classes. *)
From Coq Require Import String List Arith ZArith Bool Lia Reals Lra.
From Verif Require Import Num NumProofs Py NdArray NumpyLib Utils ScipyWrap Spec Values Ensemble Classes
  HistPdf InterpPdf QuantPdf MixmodPdf Packing PackedPdf
  SortProofs EvalProofs NdProofs InterpProofs HistProofs PackingTheorems Voigt Sparse SparseTheorems Kinds KindProofs.
Import ListNotations.
Local Open Scope string_scope.
Local Open Scope list_scope.
Local Open Scope R_scope.

(** Entries of a list at given positions *)
Definition select {A} (dflt : A) (l : list A) (ps : list nat) : list A := map (fun p => nth p l dflt) ps.
Lemma select_length {A} (dflt : A) l ps : length (select dflt l ps) = length ps.
Proof. apply map_length. Qed.
Lemma select_map {A B} (f : A -> B) dflt dflt' l ps : f dflt = dflt' -> select dflt' (map f l) ps = map f (select dflt l ps).
Proof. intros E. unfold select. rewrite map_map. apply map_ext. intros p. rewrite <- E. apply map_nth. Qed.
Lemma select_in {A} (dflt : A) l ps x : (forall p, In p ps -> (p < length l)%nat) -> In x (select dflt l ps) -> In x l.
Proof. intros H Hx. apply in_map_iff in Hx. destruct Hx as (p & <- & Hp). apply nth_In. auto. Qed.

(** ** Keys *)
Lemma norm_index_lt n i p : norm_index n i = Some p -> (p < n)%nat.
Proof. unfold norm_index. intros H. destruct (_ && _)%bool eqn:E; [|discriminate]. apply andb_prop in E. destruct E as [E1 E2]. apply Z.leb_le in E1. apply Z.ltb_lt in E2. injection H as <-. lia. Qed.
Lemma norm_list_lt n is ps : norm_list n is = Some ps -> forall p, In p ps -> (p < n)%nat.
Proof.
  revert ps. induction is as [|i is IH]; intros ps H p Hp; cbn [norm_list] in H; [injection H as <-; destruct Hp|].
  destruct (norm_index n i) eqn:E1; [|discriminate]. destruct (norm_list n is) eqn:E2; [|discriminate]. injection H as <-.
  destruct Hp as [<-|Hp]; [eapply norm_index_lt; eauto|eapply IH; eauto].
Qed.
Lemma mask_positions_lt k m p : In p (mask_positions k m) -> (k <= p < k + length m)%nat.
Proof.
  revert k. induction m as [|b m IH]; intros k H; [destruct H|]. simpl in *. destruct b.
  - destruct H as [<-|H]; [lia|]. apply IH in H. lia.
  - apply IH in H. lia.
Qed.
Lemma norm_bound_le n i : (norm_bound n i <= n)%nat.
Proof. unfold norm_bound. lia. Qed.
Lemma key_positions_lt n key ps : key_positions n key = Some ps -> forall p, In p ps -> (p < n)%nat.
Proof.
  destruct key; simpl; intros H p Hp.
  - destruct (norm_index n i) eqn:E; [|discriminate]. injection H as <-. destruct Hp as [<-|[]]. eapply norm_index_lt; eauto.
  - injection H as <-. apply in_seq in Hp. pose proof (norm_bound_le n j). lia.
  - destruct (Nat.eqb_spec (length m) n); [|discriminate]. injection H as <-. apply mask_positions_lt in Hp. lia.
  - eapply norm_list_lt; eauto.
Qed.
Definition is_int (key : pykey) : bool := match key with KInt _ => true | _ => false end.
Lemma key_int_single n key ps : is_int key = true -> key_positions n key = Some ps -> exists p, ps = [p].
Proof. destruct key; try discriminate. simpl. intros _. destruct (norm_index n i); [|discriminate]. intros [= <-]. eauto. Qed.

(** ** Arrays as lists of rows *)
Lemma rows_of_rows_nd {A} rest (rows : list (list A)) : (forall r, In r rows -> length r = prod rest) -> rows_of (rows_nd rest rows) = rows.
Proof. intros H. unfold rows_of, rows_nd. cbn [shp dat]. apply chunks_concat. auto. Qed.
Lemma getitem_rows {A} rest (rows : list (list A)) key : (forall r, In r rows -> length r = prod rest) ->
  np_getitem (rows_nd rest rows) key =
  match key_positions (length rows) key with
  | None => Err IndexError
  | Some ps => Ok (if is_int key then mknd rest (concat (select [] rows ps)) else rows_nd rest (select [] rows ps))
  end.
Proof.
  intros H. unfold np_getitem. rewrite rows_of_rows_nd by auto. unfold rows_nd at 1. cbn [shp].
  destruct (key_positions (length rows) key) as [ps|]; [|reflexivity].
  unfold rows_nd. rewrite select_length. destruct key; reflexivity.
Qed.
Lemma nd2_rows {A} w (rows : list (list A)) : nd2 w rows = rows_nd [w] rows.
Proof. reflexivity. Qed.
Lemma concat_rows_nd {A} rest (Rs : list (list (list A))) : Rs <> [] ->
  np_concatenate (map (rows_nd rest) Rs) = Ok (rows_nd rest (concat Rs)).
Proof.
  intros Hne. destruct Rs as [|R0 Rs']; [congruence|]. unfold np_concatenate.
  set (Rs := R0 :: Rs'). change (map (rows_nd rest) Rs) with (rows_nd rest R0 :: map (rows_nd rest) Rs') at 1. unfold rows_nd at 1. cbn [shp].
  replace (forallb _ (map (rows_nd rest) Rs)) with true.
  - f_equal. unfold rows_nd at 3. f_equal.
    + f_equal. clear. induction Rs as [|R1 Rs IH]; [reflexivity|]. cbn [map fold_right concat]. rewrite IH, app_length. reflexivity.
    + clear. induction Rs as [|R1 Rs IH]; [reflexivity|]. cbn [map concat dat rows_nd]. rewrite IH. symmetry. apply concat_app.
  - symmetry. apply forallb_forall. intros b Hb. apply in_map_iff in Hb. destruct Hb as (R1 & <- & _). unfold rows_nd. cbn [shp].
    destruct (list_eq_dec Nat.eq_dec rest rest); congruence.
Qed.

(** ** The columns of an ensemble *)
Lemma row_fits_col L j k c d : row_fits L d -> nth_error L j = Some (k, c) -> cell_ok c (cell_at j d).
Proof.
  unfold row_fits, cell_at. intros H. revert j. induction H as [|a x L d Ha H IH]; intros [|j] E; try discriminate.
  - injection E as ->. exact Ha.
  - cbn [nth]. apply IH. exact E.
Qed.
Lemma cell_at_nil j : cell_at j [] = Nums [].
Proof. unfold cell_at. destruct j; reflexivity. Qed.
(** What a key makes of a column: selected rows; an integer key drops the first axis *)
Definition col_sliced (key : pykey) (c : coltype) (l : list cell) : value R :=
  if is_int key
  then match c with
       | NumCol s => VArr (mknd s (concat (map nums l)))
       | ByteCol s => VByt (mknd s (concat (map bytes l)))
       | TextCol s => VTxt (mknd s (concat (map texts l)))
       end
  else col_value c l.
Lemma cell_sizes c l : (forall x, In x l -> cell_ok c x) ->
  match c with
  | NumCol s => forall r, In r (map nums l) -> length r = prod s
  | ByteCol s => forall r, In r (map bytes l) -> length r = prod s
  | TextCol s => forall r, In r (map texts l) -> length r = prod s
  end.
Proof.
  intros H. destruct c; intros r Hr; apply in_map_iff in Hr; destruct Hr as (x & <- & Hx); specialize (H x Hx); destruct x; simpl in *; tauto.
Qed.
Lemma col_getitem c (l : list cell) key : (forall x, In x l -> cell_ok c x) ->
  v_getitem (col_value c l) key =
  match key_positions (length l) key with
  | None => Err IndexError
  | Some ps => Ok (col_sliced key c (select (Nums []) l ps))
  end.
Proof.
  intros H. pose proof (cell_sizes c l H) as Hs. unfold col_sliced. destruct c as [s|s|s]; cbn [col_value v_getitem];
    rewrite getitem_rows by exact Hs; rewrite map_length; (destruct (key_positions (length l) key); [|reflexivity]); cbn [bind];
    [rewrite (select_map nums (Nums [])) by reflexivity|rewrite (select_map bytes (Nums [])) by reflexivity|rewrite (select_map texts (Nums [])) by reflexivity];
    destruct (is_int key); reflexivity.
Qed.
Fixpoint sliced_from (key : pykey) (j : nat) (L : layout) (D : list row) : vdict R :=
  match L with
  | [] => []
  | (k, c) :: t => (k, col_sliced key c (map (cell_at j) D)) :: sliced_from key (S j) t D
  end.
Definition sliced (key : pykey) (L : layout) (D : list row) : vdict R := sliced_from key 0 L D.
Lemma sliced_columns key L D : is_int key = false -> sliced key L D = columns L D.
Proof.
  intros E. unfold sliced, columns. generalize 0%nat. induction L as [|[k c] L IH]; intros j; [reflexivity|]. cbn [sliced_from columns_from].
  rewrite IH. unfold col_sliced. rewrite E. reflexivity.
Qed.
Lemma slice_columns_from L D key j : (forall d, In d D -> forall i k c, nth_error L i = Some (k, c) -> cell_ok c (cell_at (j + i) d)) ->
  match key_positions (length D) key with
  | None => L <> [] -> slice_dict (columns_from j L D) key = Err IndexError
  | Some ps => slice_dict (columns_from j L D) key = Ok (sliced_from key j L (select [] D ps))
  end.
Proof.
  revert j. induction L as [|[k c] L IH]; intros j H.
  - destruct (key_positions (length D) key); [reflexivity|congruence].
  - cbn [columns_from]. unfold slice_dict. cbn [mapM snd fst]. fold (slice_dict (columns_from (S j) L D) key).
    rewrite col_getitem.
    2:{ intros x Hx. apply in_map_iff in Hx. destruct Hx as (d & <- & Hd). replace j with (j + 0)%nat by lia. eapply (H d Hd 0%nat). reflexivity. }
    rewrite map_length. specialize (IH (S j)).
    assert (H' : forall d, In d D -> forall i k c, nth_error L i = Some (k, c) -> cell_ok c (cell_at (S j + i) d)).
    { intros d Hd i k0 c0 E. replace (S j + i)%nat with (j + S i)%nat by lia. eapply H; eauto. }
    specialize (IH H'). destruct (key_positions (length D) key) as [ps|] eqn:Ek; [|reflexivity].
    rewrite IH. cbn [bind sliced_from]. rewrite (select_map (cell_at j) []) by apply cell_at_nil. reflexivity.
Qed.
Lemma slice_columns L D key : List.Forall (row_fits L) D ->
  match key_positions (length D) key with
  | None => L <> [] -> slice_dict (columns L D) key = Err IndexError
  | Some ps => slice_dict (columns L D) key = Ok (sliced key L (select [] D ps))
  end.
Proof.
  intros H. apply slice_columns_from. intros d Hd i k c E. rewrite Forall_forall in H. simpl. eapply row_fits_col; eauto.
Qed.
(** What [__getitem__] makes of the parameters: back to two dimensions *)
Definition widen (kv : string * value R) : string * value R :=
  (fst kv, if (length (v_shape (snd kv)) <? 2)%nat then v_expand_first (snd kv) else snd kv).
Lemma widen_sliced key n L D ps : (forall k c, In (k, c) L -> length (rest_of c) = 1%nat) -> key_positions n key = Some ps ->
  map widen (sliced key L (select [] D ps)) = columns L (select [] D ps).
Proof.
  intros H Ek. unfold sliced, columns. generalize O. induction L as [|[k c] L IH]; intros j; [reflexivity|].
  cbn [sliced_from columns_from map]. rewrite IH by (intros; eapply H; right; eauto). f_equal.
  assert (Hc := H k c (or_introl eq_refl)). unfold widen, col_sliced. cbn [fst snd]. f_equal.
  destruct (is_int key) eqn:Ei.
  - destruct (key_int_single _ _ _ Ei Ek) as (p & ->). destruct c as [s|s|s]; destruct s as [|w [|]]; try discriminate Hc; reflexivity.
  - destruct c as [s|s|s]; destruct s as [|w [|]]; try discriminate Hc; reflexivity.
Qed.

Lemma columns_keys j L D : keys (columns_from j L D) = map fst L.
Proof. revert j. unfold keys. induction L as [|[k c] L IH]; intros j; [reflexivity|]. simpl. f_equal. apply IH. Qed.
Lemma columns_get L : NoDup (map fst L) -> forall j D i k c, nth_error L i = Some (k, c) ->
  vget (columns_from j L D) k = Some (col_value c (map (cell_at (j + i)) D)).
Proof.
  induction L as [|[k0 c0] L IH]; intros Hnd j D i k c E; [destruct i; discriminate|].
  inversion Hnd as [|? ? Hn Hnd']; subst. destruct i as [|i].
  - injection E as -> ->. unfold vget. cbn [columns_from dget]. rewrite String.eqb_refl, Nat.add_0_r. reflexivity.
  - cbn [nth_error] in E. unfold vget. cbn [columns_from dget]. destruct (String.eqb_spec k k0) as [->|Hk].
    + exfalso. apply Hn. change k0 with (fst (k0, c)). apply in_map. eapply nth_error_In; eauto.
    + replace (j + S i)%nat with (S j + i)%nat by lia. apply IH; auto.
Qed.
Lemma mapM_ok {A B} (f : A -> res B) (g : A -> B) l : (forall x, In x l -> f x = Ok (g x)) -> mapM f l = Ok (map g l).
Proof. induction l as [|x l IH]; intros H; [reflexivity|]. cbn [mapM map]. rewrite (H x (or_introl eq_refl)). cbn [bind]. rewrite IH by (intros; apply H; right; auto). reflexivity. Qed.
Lemma mapM_map {A B C} (f : B -> res C) (g : A -> B) l : mapM f (map g l) = mapM (fun x => f (g x)) l.
Proof. induction l as [|x l IH]; [reflexivity|]. cbn [mapM map]. rewrite IH. reflexivity. Qed.

Lemma concat_rows_map {X A} rest (f : X -> list (list A)) Ls : Ls <> [] ->
  np_concatenate (map (fun l => rows_nd rest (f l)) Ls) = Ok (rows_nd rest (concat (map f Ls))).
Proof. intros H. rewrite <- (map_map f (rows_nd rest)). apply concat_rows_nd. destruct Ls; [congruence|discriminate]. Qed.
Lemma concat_col c (Ls : list (list cell)) : Ls <> [] -> v_concatenate (map (col_value c) Ls) = Ok (col_value c (concat Ls)).
Proof.
  intros Hne. destruct Ls as [|l0 Ls0]; [congruence|]. set (Ls := l0 :: Ls0) in *. destruct c as [w|w|w].
  - assert (E : mapM (@as_arr R) (map (col_value (NumCol w)) Ls) = Ok (map (fun l => rows_nd w (map nums l)) Ls))
      by (rewrite mapM_map; apply mapM_ok; reflexivity).
    change (v_concatenate (map (col_value (NumCol w)) Ls)) with
      (let* l := mapM (@as_arr R) (map (col_value (NumCol w)) Ls) in let* a := np_concatenate l in Ok (VArr a : value R)).
    rewrite E. cbn [bind]. rewrite concat_rows_map by auto. cbn [bind col_value]. rewrite concat_map. reflexivity.
  - assert (E : mapM (@as_byt R) (map (col_value (ByteCol w)) Ls) = Ok (map (fun l => rows_nd w (map bytes l)) Ls))
      by (rewrite mapM_map; apply mapM_ok; reflexivity).
    change (v_concatenate (map (col_value (ByteCol w)) Ls)) with
      (let* l := mapM (@as_byt R) (map (col_value (ByteCol w)) Ls) in let* a := np_concatenate l in Ok (VByt a : value R)).
    rewrite E. cbn [bind]. rewrite concat_rows_map by auto. cbn [bind col_value]. rewrite concat_map. reflexivity.
  - assert (E : mapM (@as_txt R) (map (col_value (TextCol w)) Ls) = Ok (map (fun l => rows_nd w (map texts l)) Ls))
      by (rewrite mapM_map; apply mapM_ok; reflexivity).
    change (v_concatenate (map (col_value (TextCol w)) Ls)) with
      (let* l := mapM (@as_txt R) (map (col_value (TextCol w)) Ls) in let* a := np_concatenate l in Ok (VTxt a : value R)).
    rewrite E. cbn [bind]. rewrite concat_rows_map by auto. cbn [bind col_value]. rewrite concat_map. reflexivity.
Qed.
Lemma same_keys_of {V} (d1 d2 : dict string V) : keys d1 = keys d2 -> same_keys d1 d2 = true.
Proof.
  intros E. unfold same_keys. rewrite E.
  assert (M : forall (d : dict string V) k, In k (keys d) -> dmem String.eqb d k = true).
  { intros d k. unfold dmem. induction d as [|[k0 v0] d IH]; [intros []|]. simpl. intros [->|H]; [rewrite String.eqb_refl; auto|].
    destruct (String.eqb k k0); auto. }
  apply andb_true_intro. split; apply forallb_forall; intros k Hk; apply M; auto. rewrite E. auto.
Qed.
Lemma concat_columns L (Ds : list (list row)) : NoDup (map fst L) -> Ds <> [] ->
  concatenate_dicts (map (columns L) Ds) = Ok (columns L (concat Ds)).
Proof.
  intros Hnd Hne. destruct Ds as [|D0 Ds']; [congruence|]. set (Ds := D0 :: Ds') in *.
  assert (Hkeys : keys (columns L D0) = map fst L) by apply columns_keys.
  assert (Hcheck : check_keys (map (columns L) Ds) = Ok tt).
  { unfold check_keys, Ds. cbn [map]. replace (forallb _ _) with true; [reflexivity|]. symmetry. apply forallb_forall.
    intros d Hd. apply in_map_iff in Hd. destruct Hd as (D & <- & _). apply same_keys_of. unfold columns. rewrite !columns_keys. reflexivity. }
  unfold concatenate_dicts. unfold Ds at 1. cbn [map].
  change (columns L D0 :: map (columns L) Ds') with (map (columns L) Ds). rewrite Hcheck. cbn [bind]. rewrite Hkeys.
  transitivity (mapM (fun kc : string * coltype => let* vs := mapM (fun d => match vget d (fst kc) with Some v => Ok v | None => Err KeyError end) (map (columns L) Ds) in
      let* v := v_concatenate vs in Ok (fst kc, v)) L).
  { exact (mapM_map _ fst L). }
  (* one column at a time *)
  assert (G : forall L' j, (forall i k c, nth_error L' i = Some (k, c) -> nth_error L (j + i) = Some (k, c)) ->
    mapM (fun kc : string * coltype => let* vs := mapM (fun d => match vget d (fst kc) with Some v => Ok v | None => Err KeyError end) (map (columns L) Ds) in
      let* v := v_concatenate vs in Ok (fst kc, v)) L' = Ok (columns_from j L' (concat Ds))).
  { induction L' as [|[k c] L' IH]; intros j H; [reflexivity|]. cbn [mapM columns_from fst].
    assert (E : mapM (fun d => match vget d k with Some v => Ok v | None => Err KeyError end) (map (columns L) Ds)
                = Ok (map (col_value c) (map (map (cell_at j)) Ds))).
    { rewrite mapM_map, map_map. apply mapM_ok. intros D _. unfold columns. rewrite (columns_get L Hnd 0 D j k c); [reflexivity|].
      replace j with (j + 0)%nat by lia. apply H. reflexivity. }
    rewrite E. cbn [bind]. rewrite concat_col by discriminate. cbn [bind]. rewrite (IH (S j)) by (intros i k0 c0 E0; replace (S j + i)%nat with (j + S i)%nat by lia; apply H; auto).
    cbn [bind]. rewrite concat_map. reflexivity. }
  apply (G L 0%nat). intros i k c H. exact H.
Qed.

(** ** Ancillary tables: named columns with one row of cells per PDF *)
Definition atable := option (layout * list row).
Definition anc_dict (s : atable) : option (vdict R) := match s with None => None | Some (A, B) => Some (columns A B) end.
Definition anc_good (n : nat) (s : atable) : Prop :=
  match s with None => True | Some (A, B) => length B = n /\ List.Forall (row_fits A) B /\ NoDup (map fst A) end.
(** Only plain columns: one number (or text) per PDF *)
Definition anc_plain (s : atable) : Prop := match s with None => True | Some (A, _) => forall k c, In (k, c) A -> rest_of c = [] end.
Definition anc_select (ps : list nat) (s : atable) : atable := match s with None => None | Some (A, B) => Some (A, select [] B ps) end.
Definition anc_sliced (key : pykey) (ps : list nat) (s : atable) : option (vdict R) :=
  match s with None => None | Some (A, B) => Some (sliced key A (select [] B ps)) end.

Lemma check_columns_from j A B n : length B = n -> check_columns (columns_from j A B) n = Ok tt.
Proof.
  intros E. revert j. induction A as [|[k c] A IH]; intros j; [reflexivity|]. cbn [columns_from check_columns].
  rewrite IH. assert (Hs : v_shape (col_value c (map (cell_at j) B)) = n :: rest_of c).
  { destruct c; cbn [col_value v_shape rows_nd shp rest_of]; rewrite !map_length, E; reflexivity. }
  rewrite Hs, Nat.eqb_refl. destruct (_ && _)%bool; reflexivity.
Qed.
Lemma check_ancil s n : anc_good n s -> check_array_shapes (anc_dict s) n = Ok tt.
Proof. destruct s as [[A B]|]; [|reflexivity]. intros (E & _). apply check_columns_from. exact E. Qed.
Lemma check_sliced key s n ps : anc_good n s -> key_positions n key = Some ps -> (is_int key = true -> anc_plain s) ->
  check_array_shapes (anc_sliced key ps s) (length ps) = Ok tt.
Proof.
  destruct s as [[A B]|]; [|reflexivity]. intros (E & HB & Hnd) Ek Hp. cbn [anc_sliced check_array_shapes].
  destruct (is_int key) eqn:Ei.
  - specialize (Hp eq_refl). cbn [anc_plain] in Hp. destruct (key_int_single _ _ _ Ei Ek) as (p & ->). unfold sliced. generalize O. clear - Hp Ei.
    induction A as [|[k c] A IH]; intros j; [reflexivity|]. cbn [sliced_from check_columns]. rewrite IH by (intros; eapply Hp; right; eauto).
    assert (Hs : v_size (col_sliced key c (map (cell_at j) (select [] B [p]))) = 1%nat).
    { unfold v_size, col_sliced. rewrite Ei. pose proof (Hp k c (or_introl eq_refl)) as Hc. destruct c; cbn [rest_of v_shape shp] in *; subst; reflexivity. }
    rewrite Hs. reflexivity.
  - rewrite sliced_columns by exact Ei. apply check_columns_from. apply select_length.
Qed.
Lemma slice_ancil s n key ps : anc_good n s -> key_positions n key = Some ps ->
  match anc_dict s with None => Ok None | Some a => let* a' := slice_dict a key in Ok (Some a') end = Ok (anc_sliced key ps s).
Proof.
  destruct s as [[A B]|]; [|reflexivity]. intros (E & HB & Hnd) Ek. cbn [anc_dict anc_sliced].
  pose proof (slice_columns A B key HB) as H. rewrite E, Ek in H. rewrite H. reflexivity.
Qed.

(** ** Comparing metadata *)
Lemma isclose_refl (x : R) : np_isclose x x = true.
Proof.
  unfold np_isclose. destruct (nleb_reflect (nabs (nsub x x)) (nadd (nfrac 1 100000000) (nmul (nfrac 1 100000) (nabs x)))) as [|H]; [reflexivity|].
  exfalso. apply H. rewrite !nabs_R. unfold nfrac. numR. replace (x - x)%R with 0%R by lra. rewrite Rabs_R0. pose proof (Rabs_pos x). simpl. lra.
Qed.
Lemma allclose_refl (l : list R) : np_allclose l l = true.
Proof. unfold np_allclose. induction l as [|x l IH]; [reflexivity|]. cbn [map2 forallb]. rewrite isclose_refl. exact IH. Qed.
Lemma match_arr_refl (a : nd R) : v_match (VArr a) (VArr a) = Ok true.
Proof.
  cbn [v_match]. unfold pairs_of. destruct (list_eq_dec Nat.eq_dec (shp a) (shp a)) as [_|]; [|congruence].
  destruct (dat a) as [|x [|y l]].
  - reflexivity.
  - destruct (neqb_reflect x x); congruence.
  - rewrite allclose_refl. reflexivity.
Qed.
Lemma match_byt_refl (a : nd Z) : v_match (VByt a : value R) (VByt a) = Ok true.
Proof.
  cbn [v_match]. unfold pairs_of. destruct (list_eq_dec Nat.eq_dec (shp a) (shp a)) as [_|]; [|congruence].
  destruct (dat a) as [|x [|y l]].
  - reflexivity.
  - rewrite Z.eqb_refl. reflexivity.
  - rewrite allclose_refl. reflexivity.
Qed.
Lemma compare_items_meta k : compare_items (kind_meta k) (kind_meta k) = Ok true.
Proof.
  assert (T : forall x, @v_match R _ (VTxt (nd1 [x])) (VTxt (nd1 [x])) = Ok true).
  { intros x. cbn [v_match]. unfold pairs_of, nd1. cbn [shp dat length]. destruct (list_eq_dec Nat.eq_dec [1%nat] [1%nat]) as [_|]; [|congruence]. rewrite String.eqb_refl. reflexivity. }
  destruct k; unfold kind_meta, class_meta, kind_own_meta, add_meta, kind_name; cbn [app v_expand_first];
    repeat (cbn [compare_items]; cbv beta delta [vget] ; cbn [dget String.eqb Ascii.eqb Bool.eqb]; rewrite ?T, ?match_arr_refl, ?match_byt_refl; cbn [bind]); reflexivity.
Qed.
Lemma compare_same (d : vdict R) ds : compare_items d d = Ok true -> (forall x, In x ds -> x = d) -> compare_dicts (d :: ds) = Ok true.
Proof.
  intros E H. unfold compare_dicts. induction ds as [|x ds IH]; [reflexivity|]. cbn [compare_all].
  rewrite (H x (or_introl eq_refl)). unfold compare_two_dicts. rewrite same_keys_of by reflexivity. rewrite E. cbn [bind]. apply IH. intros; apply H; right; auto.
Qed.

(** ** Ensembles of a known kind *)
Section Ens.
  Variables (phi Phi : R -> R) (quad : list R -> list R -> R -> R -> R -> R)
            (cubic dspline : list R -> list R -> R -> R) (Phinv : R -> xnum R).
  Notation kind_create := (Kinds.kind_create phi Phi quad cubic dspline Phinv).
  Notation holds := (Kinds.holds phi Phi quad Phinv).
  Notation classes := (Kinds.classes phi Phi quad cubic dspline Phinv).
  Notation val := (Kinds.val phi Phi quad Phinv).

  (** Building anew from the stored rows gives the same answers (for quantile ensembles only
      up to the values outside of [0,1] of the ppf, which depend on the padding). *)
  Definition is_quant (k : kind) : bool := match k with KQuant _ _ => true | _ => false end.
  Definition same_eval (k : kind) (g g' : gobj R) : Prop :=
    forall m x, (m = MPpf -> is_quant k = false) -> g_eval m g x = g_eval m g' x.
  Definition canon (k : kind) (D : list row) (g : gobj R) : Prop :=
    exists g0, kind_create k (kind_args k ++ cols k D) = Ok g0 /\ same_eval k g0 g.
  Definition represents (k : kind) (D : list row) (e : ens R) : Prop :=
    good_kind k /\ D <> [] /\ List.Forall (good_row k) D /\ (e_func e = kind_create k /\ canon k D (e_obj e)) /\ holds k D (e_obj e).

  Lemma layout_ne k : kind_layout k <> [].
  Proof. destruct k; discriminate. Qed.
  Lemma layout_nodup k : NoDup (map fst (kind_layout k)).
  Proof using. destruct k; simpl; repeat constructor; simpl; intros H; repeat (destruct H as [H|H]; [discriminate H|]); destruct H. Qed.
  Lemma layout_rest k n c : In (n, c) (kind_layout k) -> length (rest_of c) = 1%nat.
  Proof. destruct k; simpl; intros H; repeat (destruct H as [H|H]; [injection H as <- <-; reflexivity|]); destruct H. Qed.
  Lemma good_fits k D : List.Forall (good_row k) D -> List.Forall (row_fits (kind_layout k)) D.
  Proof. intros H. eapply Forall_impl; [|exact H]. intros d [Hd _]. exact Hd. Qed.
  Lemma select_good k D ps : List.Forall (good_row k) D -> (forall p, In p ps -> (p < length D)%nat) -> List.Forall (good_row k) (select [] D ps).
  Proof. rewrite !Forall_forall. intros H Hp d Hd. apply H. eapply select_in; eauto. Qed.
  Lemma select_ne {A} (dflt : A) l ps : ps <> [] -> select dflt l ps <> [].
  Proof. destruct ps; [congruence|discriminate]. Qed.

  Lemma squeezed_kind k : squeezed_meta (kind_meta k) = kind_args k.
  Proof. destruct k; reflexivity. Qed.
  Lemma args_then_cols k D : vupdate (kind_args k) (cols k D) = kind_args k ++ cols k D.
  Proof. destruct k; reflexivity. Qed.
  Lemma cols_then_args k D : vupdate (cols k D) (kind_args k) = cols k D ++ kind_args k.
  Proof. destruct k; reflexivity. Qed.
  Lemma cols_overwrite k D D' : vupdate (kind_args k ++ cols k D) (cols k D') = kind_args k ++ cols k D'.
  Proof. destruct k; reflexivity. Qed.

  (** The order of the keywords does not matter. *)
  Lemma swap_args k D : good_kind k -> D <> [] -> List.Forall (row_fits (kind_layout k)) D ->
    kind_create k (cols k D ++ kind_args k) = kind_create k (kind_args k ++ cols k D).
  Proof.
    intros Hk Hne HD. destruct k; try (unfold kind_args; cbn [kind_own_meta map]; rewrite app_nil_r; reflexivity);
      unfold Kinds.kind_create, kind_args, cols, columns;
      cbn [kind_own_meta map fst snd add_meta v_expand_first v_squeeze kind_layout columns_from col_value app];
      unfold good_kind in Hk; rewrite ?squeeze_grid by (cbn [length]; lia); rewrite ?squeeze_single.
    - change (create_of _ (kind_name (KHist bins))) with (@hist_create R _).
      rewrite (hist_create_eq bins _ _ (or_intror eq_refl)), (hist_create_eq bins _ _ (or_introl eq_refl)). reflexivity.
    - change (create_of _ (kind_name (KInterp xs))) with (@interp_create R _).
      rewrite (interp_create_eq xs _ _ (or_intror eq_refl)), (interp_create_eq xs _ _ (or_introl eq_refl)). reflexivity.
    - change (create_of _ (kind_name (KQuant quants name))) with (@quant_create R _ quad cubic dspline).
      assert (Hdat : length (dat (rows_nd [length quants] (map nums (map (cell_at 0) D)))) <> 0%nat).
      { destruct D as [|d0 D]; [congruence|]. cbn [rows_nd dat concat map]. rewrite app_length.
        inversion HD as [|? ? Hd0 _]; subst. pose proof (row_fits_num _ 0 (length quants) d0 "locs" Hd0 eq_refl) as L. unfold num_at in L. rewrite L. lia. }
      rewrite (quant_create_eq quad cubic dspline quants name _ _ Hdat (or_introl eq_refl)),
              (quant_create_eq quad cubic dspline quants name _ _ Hdat (or_intror (or_introl eq_refl))). reflexivity.
    - change (create_of _ (kind_name (KPacked xs pt lf))) with (@packed_create R _ pow10R).
      destruct Hk as (_ & _ & Hp).
      match goal with |- packed_create _ [(_, VByt ?yp); (_, VArr ?ym); _; _; _] = _ =>
        rewrite !(packed_create_eq xs yp ym pt lf _ Hp); [reflexivity| |] end.
      + do 2 eexists. split; [right; reflexivity|split; [right; reflexivity|]]. left. reflexivity.
      + do 2 eexists. split; [right; reflexivity|split; [right; reflexivity|]]. right. left. reflexivity.
    - change (create_of _ (kind_name (KSparse xs mu sig dims n))) with (@sparse_create R _ voigtR R_sqrt.sqrt).
      destruct Hk as (_ & _ & Hn & H3 & HF). change (rows_nd [n]) with (@nd2 Z n).
      assert (Hcs : forall c, In c (map bytes (map (cell_at 0) D)) -> length c = n).
      { intros c Hc. rewrite map_map in Hc. apply in_map_iff in Hc. destruct Hc as (d0 & <- & Hd). rewrite Forall_forall in HD.
        eapply row_fits_byte; [exact (HD d0 Hd)|reflexivity]. }
      rewrite !(sparse_create_eq voigtR R_sqrt.sqrt xs mu sig dims n (map bytes (map (cell_at 0) D)) _ H3 HF Hn) by (auto; try (destruct D; [congruence|discriminate])). reflexivity.
  Qed.
  Lemma call_canon k D d g : good_kind k -> D <> [] -> List.Forall (row_fits (kind_layout k)) D -> call_of k D d ->
    kind_create k d = Ok g -> canon k D g.
  Proof.
    intros Hk Hne HD [->| ->] E; [|rewrite swap_args in E by auto]; exists g; split; auto; intros m x _; reflexivity.
  Qed.

  Hypothesis Hquad : ignores_fill quad.

  Lemma rebuild k D d anc : good_kind k -> D <> [] -> List.Forall (good_row k) D -> call_of k D d ->
    check_array_shapes anc (length D) = Ok tt ->
    exists e, ens_new (kind_create k) d anc = Ok e /\ represents k D e /\ e_ancil e = anc /\ e_gridded e = None.
  Proof.
    intros Hk Hne HD Hc Ha. destruct (kind_law phi Phi quad cubic dspline Phinv k Hquad Hk D d Hne HD Hc) as (g & Eg & Hg).
    unfold ens_new. rewrite Eg. cbn [bind].
    assert (Hn : g_npdf g = length D) by (unfold g_npdf; destruct Hg as (_ & _ & _ & -> & _); unfold prod; simpl; lia).
    rewrite Hn, Ha. cbn [bind]. eexists. split; [reflexivity|]. split; [|auto].
    split; [|split; [|split; [|split; [split; [reflexivity|]|]]]]; auto. cbn [e_obj]. eapply call_canon; eauto. apply good_fits; auto.
  Qed.
  Lemma rep_npdf k D e : represents k D e -> e_npdf e = length D.
  Proof. intros (_ & _ & _ & _ & Hg). unfold e_npdf, g_npdf. destruct Hg as (_ & _ & _ & -> & _). unfold prod. simpl. lia. Qed.

  (** *** Slicing *)
  Lemma getitem_bad k D e key : represents k D e -> key_positions (length D) key = None -> getitem classes e key = Err IndexError.
  Proof.
    intros (Hk & Hne & HD & Hf & (Hn & Hm & Hd & Hs & Ha)) Ek. unfold getitem, objdata. rewrite Hd. unfold cols.
    pose proof (slice_columns (kind_layout k) D key (good_fits k D HD)) as H. rewrite Ek in H. rewrite (H (layout_ne k)). reflexivity.
  Qed.
  (** slicing builds the selected rows anew *)
  Lemma getitem_eq k D e key ps : represents k D e -> key_positions (length D) key = Some ps ->
    getitem classes e key =
    (let* anc := match e_ancil e with None => Ok None | Some a => let* a' := slice_dict a key in Ok (Some a') end in
     ens_new (kind_create k) (kind_args k ++ cols k (select [] D ps)) anc).
  Proof.
    intros (Hk & Hne & HD & Hf & (Hn & Hm & Hd & Hs & Ha)) Ek. unfold getitem, objdata, metadata. rewrite Hd, Hn, Hm. unfold cols at 1.
    pose proof (slice_columns (kind_layout k) D key (good_fits k D HD)) as H. rewrite Ek in H. rewrite H. cbn [bind].
    change (map (fun kv : string * value R => (fst kv, if (length (v_shape (snd kv)) <? 2)%nat then v_expand_first (snd kv) else snd kv)))
      with (map widen).
    rewrite (widen_sliced key (length D)) by (auto; apply layout_rest). rewrite squeezed_kind.
    change (columns (kind_layout k) (select [] D ps)) with (cols k (select [] D ps)). rewrite args_then_cols. reflexivity.
  Qed.
  Lemma getitem_rep k D e key ps s : represents k D e -> key_positions (length D) key = Some ps -> ps <> [] ->
    e_ancil e = anc_dict s -> anc_good (length D) s -> (is_int key = true -> anc_plain s) ->
    exists e', getitem classes e key = Ok e' /\ represents k (select [] D ps) e' /\ e_ancil e' = anc_sliced key ps s /\ e_gridded e' = None.
  Proof.
    intros Hr Ek Hps Hs Hg Hp. rewrite (getitem_eq k D e key ps Hr Ek), Hs, (slice_ancil s (length D) key ps Hg Ek). cbn [bind].
    destruct Hr as (Hk & Hne & HD & Hf & Hh). apply rebuild; auto.
    - apply select_ne; auto.
    - apply select_good; auto. eapply key_positions_lt; eauto.
    - left. reflexivity.
    - rewrite select_length. eapply check_sliced; eauto.
  Qed.
  Lemma ens_new_inv f d anc (e : ens R) : ens_new f d anc = Ok e ->
    exists g, f d = Ok g /\ check_array_shapes anc (g_npdf g) = Ok tt /\ e = mkens f g anc None.
  Proof.
    unfold ens_new. intros H. destruct (f d) as [g|]; [|discriminate]. cbn [bind] in H.
    destruct (check_array_shapes anc (g_npdf g)) as [[]|] eqn:E; [|discriminate]. injection H as <-. eauto.
  Qed.
  Lemma created_holds k D d g : good_kind k -> D <> [] -> List.Forall (good_row k) D -> call_of k D d -> kind_create k d = Ok g -> holds k D g.
  Proof.
    intros Hk Hne HD Hc Eg. destruct (kind_law phi Phi quad cubic dspline Phinv k Hquad Hk D d Hne HD Hc) as (g' & Eg' & Hg').
    rewrite Eg in Eg'. injection Eg' as <-. exact Hg'.
  Qed.
  Lemma holds_npdf k D g : holds k D g -> g_npdf g = length D.
  Proof. intros (_ & _ & _ & Hs & _). unfold g_npdf. rewrite Hs. unfold prod. simpl. lia. Qed.
  Lemma new_rep k D d anc e : good_kind k -> D <> [] -> List.Forall (good_row k) D -> call_of k D d -> ens_new (kind_create k) d anc = Ok e ->
    represents k D e.
  Proof.
    intros Hk Hne HD Hc H. apply ens_new_inv in H. destruct H as (g & Eg & _ & ->).
    pose proof (created_holds k D d g Hk Hne HD Hc Eg) as Hg.
    split; [|split; [|split; [|split; [split; [reflexivity|]|]]]]; auto. cbn [e_obj]. eapply call_canon; eauto. apply good_fits; auto.
  Qed.
  (** whatever the ancillary data: a slice that succeeds holds the selected rows *)
  Lemma getitem_inv k D e key e' : represents k D e -> getitem classes e key = Ok e' ->
    exists ps, key_positions (length D) key = Some ps /\ (ps <> [] -> represents k (select [] D ps) e').
  Proof.
    intros Hr H. destruct (key_positions (length D) key) as [ps|] eqn:Ek.
    2:{ rewrite (getitem_bad k D e key Hr Ek) in H. discriminate. }
    exists ps. split; [reflexivity|]. intros Hps. rewrite (getitem_eq k D e key ps Hr Ek) in H.
    destruct (match e_ancil e with None => Ok None | Some a => let* a' := slice_dict a key in Ok (Some a') end) as [anc|]; [|discriminate].
    cbn [bind] in H. destruct Hr as (Hk & Hne & HD & Hf & Hh).
    refine (new_rep k (select [] D ps) _ anc e' Hk (select_ne _ _ _ Hps) _ (or_introl eq_refl) H).
    apply select_good; auto. eapply key_positions_lt; eauto.
  Qed.


  (** *** Concatenation *)
  Lemma concat_ne {A} (Ds : list (list A)) : Ds <> [] -> (forall D, In D Ds -> D <> []) -> concat Ds <> [].
  Proof. destruct Ds as [|D Ds]; [congruence|]. intros _ H. cbn [concat]. specialize (H D (or_introl eq_refl)). destruct D; [congruence|discriminate]. Qed.
  Lemma concatenate_eq k Ds es : es <> [] -> Forall2 (represents k) Ds es ->
    concatenate es =
    (let* anc := match ancil_list es with Some l => let* a := concatenate_dicts l in Ok (Some a) | None => Ok None end in
     let* e := ens_new (kind_create k) (cols k (concat Ds) ++ kind_args k) anc in Ok (Some e)).
  Proof.
    intros Hne H. destruct es as [|e0 es]; [congruence|]. destruct Ds as [|D0 Ds]; [inversion H|].
    assert (Hmeta : forall e, In e (e0 :: es) -> metadata e = kind_meta k).
    { clear - H. induction H as [|D e Ds1 es1 (_ & _ & _ & _ & (_ & Hm & _)) H IH]; intros x []; subst; auto. }
    assert (Hdata : map objdata (e0 :: es) = map (columns (kind_layout k)) (D0 :: Ds)).
    { clear - H. induction H as [|D e Ds1 es1 (_ & _ & _ & _ & (_ & _ & Hd & _)) H IH]; [reflexivity|]. cbn [map]. rewrite IH. f_equal. exact Hd. }
    assert (Hfun : e_func e0 = kind_create k) by (inversion H as [|? ? ? ? (_ & _ & _ & (Hf & _) & _)]; exact Hf).
    unfold concatenate. cbn [map]. rewrite (compare_same (metadata e0)).
    2:{ rewrite (Hmeta e0 (or_introl eq_refl)). apply compare_items_meta. }
    2:{ intros x Hx. apply in_map_iff in Hx. destruct Hx as (e & <- & He). rewrite !Hmeta; [reflexivity|left; auto|right; auto]. }
    cbn [bind]. change (objdata e0 :: map objdata es) with (map objdata (e0 :: es)). rewrite Hdata, concat_columns by (try discriminate; apply layout_nodup).
    cbn [bind]. change (columns (kind_layout k) (concat (D0 :: Ds))) with (cols k (concat (D0 :: Ds))).
    rewrite Hfun, (Hmeta e0 (or_introl eq_refl)), squeezed_kind, cols_then_args. reflexivity.
  Qed.
  Lemma reps_facts k Ds es : Forall2 (represents k) Ds es -> es <> [] ->
    good_kind k /\ concat Ds <> [] /\ List.Forall (good_row k) (concat Ds).
  Proof.
    intros H Hne. split; [|split].
    - destruct H as [|D e Ds1 es1 (Hk & _) H]; [congruence|exact Hk].
    - destruct H as [|D e Ds1 es1 (_ & Hd & _) H]; [congruence|]. cbn [concat]. destruct D; [congruence|discriminate].
    - clear Hne. induction H as [|D e Ds1 es1 (_ & _ & HD & _) H IH]; [constructor|]. cbn [concat]. apply Forall_app. auto.
  Qed.
  Lemma concatenate_inv k Ds es e' : es <> [] -> Forall2 (represents k) Ds es -> concatenate es = Ok (Some e') -> represents k (concat Ds) e'.
  Proof.
    intros Hne H E. rewrite (concatenate_eq k Ds es Hne H) in E.
    destruct (match ancil_list es with Some l => let* a := concatenate_dicts l in Ok (Some a) | None => Ok None end) as [anc|]; [|discriminate].
    cbn [bind] in E. destruct (ens_new _ _ _) as [e|] eqn:En; [|discriminate]. injection E as <-.
    destruct (reps_facts k Ds es H Hne) as (Hk & Hc & HD).
    exact (new_rep k (concat Ds) _ anc e Hk Hc HD (or_intror eq_refl) En).
  Qed.
  (** the ancillary tables of a list of ensembles: joined when all have one with the same columns *)
  Definition join_tables (A : layout) (Bs : list (list row)) : atable := Some (A, concat Bs).
  Lemma concatenate_rep k Ds es A Bs : es <> [] -> Forall2 (represents k) Ds es ->
    Forall2 (fun B e => e_ancil e = Some (columns A B) /\ length B = e_npdf e /\ List.Forall (row_fits A) B) Bs es -> NoDup (map fst A) ->
    exists e', concatenate es = Ok (Some e') /\ represents k (concat Ds) e' /\ e_ancil e' = Some (columns A (concat Bs)) /\ e_gridded e' = None.
  Proof.
    intros Hne H HB Hnd. rewrite (concatenate_eq k Ds es Hne H).
    assert (Hl : ancil_list es = Some (map (columns A) Bs)).
    { clear - HB. induction HB as [|B e Bs1 es1 (Ha & _) HB IH]; [reflexivity|]. cbn [ancil_list map]. rewrite Ha, IH. reflexivity. }
    rewrite Hl, concat_columns; [|exact Hnd|destruct HB; [congruence|discriminate]]. cbn [bind].
    destruct (reps_facts k Ds es H Hne) as (Hk & Hc & HD).
    assert (Hlen : length (concat Bs) = length (concat Ds)).
    { clear - H HB. revert Bs HB. induction H as [|D e Ds1 es1 Hr H IH]; intros Bs HB; inversion HB as [|B ? Bs' ? (_ & Hb & _) HB']; subst; [reflexivity|].
      cbn [concat]. rewrite !app_length, (IH _ HB'), Hb, (rep_npdf k D e Hr). reflexivity. }
    destruct (rebuild k (concat Ds) (cols k (concat Ds) ++ kind_args k) (Some (columns A (concat Bs))) Hk Hc HD (or_intror eq_refl)) as (e' & E & Hr & Ha & Hg).
    { apply check_columns_from. exact Hlen. }
    exists e'. rewrite E. auto.
  Qed.
  Lemma concatenate_rep_none k Ds es : es <> [] -> Forall2 (represents k) Ds es -> (exists e, In e es /\ e_ancil e = None) ->
    exists e', concatenate es = Ok (Some e') /\ represents k (concat Ds) e' /\ e_ancil e' = None /\ e_gridded e' = None.
  Proof.
    intros Hne H (e & He & Ha). rewrite (concatenate_eq k Ds es Hne H).
    assert (Hl : ancil_list es = None).
    { clear - He Ha. induction es as [|x es IH]; [destruct He|]. cbn [ancil_list]. destruct He as [->|He]; [rewrite Ha; reflexivity|].
      rewrite IH by auto. destruct (e_ancil x); reflexivity. }
    rewrite Hl. cbn [bind]. destruct (reps_facts k Ds es H Hne) as (Hk & Hc & HD).
    destruct (rebuild k (concat Ds) (cols k (concat Ds) ++ kind_args k) None Hk Hc HD (or_intror eq_refl) eq_refl) as (e' & E & Hr & Ha' & Hg).
    exists e'. rewrite E. auto.
  Qed.

  (** *** Append *)
  Lemma update_new (e : ens R) d anc : update e d anc =
    match e_func e d with
    | Err x => (Err x, e)
    | Ok g => match check_array_shapes anc (g_npdf g) with
              | Err x => (Err x, mkens (e_func e) g (e_ancil e) (e_gridded e))
              | Ok _ => (Ok tt, mkens (e_func e) g anc None)
              end
    end.
  Proof. unfold update, set_ancil, e_npdf. destruct (e_func e d) as [g|]; [|reflexivity]. cbn [e_func e_obj e_ancil e_gridded]. destruct (check_array_shapes anc (g_npdf g)); reflexivity. Qed.
  Lemma append_eq k Da Db (a b : ens R) : represents k Da a -> represents k Db b ->
    append a b = match joined_ancil (e_ancil a) (e_ancil b) with
                 | Err x => (Err x, a)
                 | Ok anc => update a (kind_args k ++ cols k (Da ++ Db)) anc
                 end.
  Proof.
    intros (Hka & Hna & HDa & Hfa & (_ & Hma & Hda & _)) (Hkb & Hnb & HDb & Hfb & (_ & Hmb & Hdb & _)).
    unfold append. unfold metadata at 1 2. rewrite Hma, Hmb, compare_same by (try apply compare_items_meta; intros x [<-|[]]; reflexivity).
    cbn [bind]. unfold objdata. rewrite Hda, Hdb.
    change [cols k Da; cols k Db] with (map (columns (kind_layout k)) [Da; Db]). rewrite concat_columns by (try discriminate; apply layout_nodup).
    cbn [bind concat]. rewrite app_nil_r. destruct (joined_ancil (e_ancil a) (e_ancil b)) as [anc|]; [|reflexivity]. cbn [bind].
    unfold update_objdata, metadata, objdata. rewrite Hma, Hda, squeezed_kind, args_then_cols.
    change (columns (kind_layout k) (Da ++ Db)) with (cols k (Da ++ Db)). rewrite cols_overwrite. reflexivity.
  Qed.

  (** *** Tables *)
  Lemma build_dict_kind k D : good_kind k ->
    build_data_dict (kind_meta k) (cols k D) =
    Ok (("pdf_name", VTxt (nd0 (kind_name k))) :: ("pdf_version", VArr (nd0 n0)) :: kind_args k ++ cols k D).
  Proof.
    assert (G : forall l : list R, (2 <= length l)%nat -> meta_item (v_expand_first (VArr (nd1 l))) = Ok (v_squeeze (v_expand_first (VArr (nd1 l))))).
    { intros l Hl. unfold meta_item. cbn [v_expand_first v_shape expand_first nd1 shp length v_squeeze].
      rewrite (squeeze_grid l) by lia. reflexivity. }
    intros Hk. destruct k; unfold kind_meta, class_meta, kind_own_meta, add_meta, kind_name, build_data_dict; cbn [app mapM fst snd];
      try (rewrite G by (unfold good_kind in Hk; lia)); reflexivity.
  Qed.
  Lemma from_tables_eq k D e : represents k D e ->
    from_tables classes (build_tables e) = ens_new (kind_create k) (kind_args k ++ cols k D) (e_ancil e).
  Proof.
    intros (Hk & _ & _ & _ & (_ & Hm & Hd & _)). unfold from_tables, build_tables, metadata, objdata. cbn [t_meta t_data t_ancil].
    rewrite Hm, Hd, build_dict_kind by auto. cbn [bind]. destruct k; reflexivity.
  Qed.
End Ens.
