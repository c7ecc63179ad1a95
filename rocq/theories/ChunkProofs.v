(** C93: which chunks a file accepts. *)
From Coq Require Import String List Arith ZArith Bool Lia Permutation Reals.
From Verif Require Import Num NumProofs Py NdArray NumpyLib Utils ScipyWrap Spec Values Ensemble Classes Hdf5
  NdProofs InterpProofs Kinds KindProofs EnsembleProofs KindInputs ReachProofs EnsembleTheorems Hdf5Proofs WriteProofs RangeProofs Hdf5Theorems.
Import ListNotations.
Local Open Scope string_scope.
Local Open Scope list_scope.

(** The kind and the shape of a dataset *)
Definition form (v : value R) : nat * list nat := (match v with VArr _ => 0 | VByt _ => 1 | VTxt _ => 2 | _ => 3 end, v_shape v)%nat.
Definition forms (f : h5file R) (g key : string) : option (nat * list nat) :=
  match vget f g with None => None | Some t => option_map form (vget t key) end.

Lemma write_nd_shape {A} (d : nd A) a b v d' : write_nd d a b v = Ok d' -> shp d' = shp d.
Proof.
  unfold write_nd. destruct (shp d) as [|n rest] eqn:E; [discriminate|]. destruct (shp v) as [|m rest']; [discriminate|].
  destruct (Nat.min b n <=? a)%nat; [intros H; injection H as <-; exact E|]. destruct (list_eq_dec _ rest rest'); [|discriminate].
  destruct (m =? _)%nat; [intros H; injection H as <-; reflexivity|]. destruct (m =? 1)%nat; [intros H; injection H as <-; reflexivity|discriminate].
Qed.
Lemma write_value_form d a b v d' : write_value d a b v = Ok d' -> form d' = form d.
Proof.
  unfold write_value. destruct d, v; try discriminate; match goal with |- context [write_nd ?x a b ?y] => destruct (write_nd x a b y) as [z|] eqn:E end; try discriminate;
    cbn [bind]; intros H; injection H as <-; unfold form; cbn [v_shape]; rewrite (write_nd_shape _ _ _ _ _ E); reflexivity.
Qed.
Lemma write_step_form (f : h5file R) s f' : write_step f s = Ok f' -> forall g key, forms f' g key = forms f g key.
Proof.
  unfold write_step. destruct (vget f (s_group s)) as [t|] eqn:Et; [|discriminate]. destruct (vget t (s_key s)) as [d|] eqn:Ed; [|discriminate].
  destruct (write_value d (s_start s) (s_stop s) (s_value s)) as [d'|] eqn:Ew; [|discriminate]. cbn [bind]. intros E; injection E as <-. intros g key. unfold forms.
  rewrite vset_get. destruct (String.eqb_spec g (s_group s)) as [->|]; [|reflexivity]. rewrite Et, vset_get. destruct (String.eqb_spec key (s_key s)) as [->|]; [|reflexivity].
  rewrite Ed. cbn [option_map]. rewrite (write_value_form _ _ _ _ _ Ew). reflexivity.
Qed.
Lemma write_steps_form l : forall (f : h5file R) g key, forms (snd (write_steps f l)) g key = forms f g key.
Proof.
  induction l as [|s l IH]; intros f g key; [reflexivity|]. cbn [write_steps]. destruct (write_step f s) as [f'|] eqn:E; [|reflexivity].
  rewrite IH. apply (write_step_form _ _ _ E).
Qed.
Lemma write_groups_form names : forall (f : h5file R) c a b g key, forms (snd (write_groups f names c a b)) g key = forms f g key.
Proof.
  induction names as [|x names IH]; intros f c a b g key; [reflexivity|]. cbn [write_groups]. destruct (chunk_table c x) as [d|]; [|reflexivity].
  pose proof (write_steps_form (group_steps x d a b) f g key) as H. destruct (write_steps f (group_steps x d a b)) as [[u|e] f1]; cbn [snd] in *; [rewrite IH; exact H|exact H].
Qed.
Lemma write_chunks_form cs : forall (f : h5file R) g key, forms (snd (write_chunks f cs)) g key = forms f g key.
Proof.
  induction cs as [|[[a b] c] cs IH]; intros f g key; [reflexivity|]. cbn [write_chunks]. pose proof (write_groups_form (keys f) f c a b g key) as H. unfold write_chunk.
  destruct (write_groups f (keys f) c a b) as [[u|e] f1]; cbn [snd] in *; [rewrite IH; exact H|exact H].
Qed.

(** The datasets of an ensemble with [n] rows *)
Definition row_of (c : coltype) : nat * list nat := match c with NumCol s => (0, s) | ByteCol s => (1, s) | TextCol s => (2, s) end%nat.
Lemma form_col c l : form (col_value c l) = (fst (row_of c), length l :: snd (row_of c)).
Proof. destruct c; unfold form; cbn [col_value v_shape rows_nd shp row_of fst snd]; rewrite map_length; reflexivity. Qed.

Definition room (f : h5file R) (n : nat) (g : string) (L : layout) : Prop :=
  forall key c, In (key, c) L -> forms f g key = Some (fst (row_of c), n :: snd (row_of c)).
Lemma initial_room X k D e s n f : represents_in X k D e -> has_ancil e s -> initialize e n = Ok f ->
  room f n "data" (kind_layout k) /\ (forall A B, s = Some (A, B) -> room f n "ancil" A) /\ keys f = "data" :: match s with None => [] | Some _ => ["ancil"] end.
Proof.
  intros Hr (Hs & Hg) E. destruct (rep_meta X k D e Hr) as (_ & O1 & _). unfold initialize in E. rewrite O1, Hs in E. unfold cols in E.
  rewrite allocate_columns in E by apply layout_nodup. cbn [bind] in E.
  assert (G : forall L, NoDup (map fst L) -> forall key c, In (key, c) L -> option_map form (vget (by_name (columns L (blank_rows L n))) key) = Some (fst (row_of c), n :: snd (row_of c))).
  { intros L HL key c Hin. apply In_nth_error in Hin. destruct Hin as (j & Hj). rewrite by_name_get by (unfold columns; rewrite columns_keys; exact HL).
    unfold columns. rewrite (columns_get L HL 0 (blank_rows L n) j key c Hj). cbn [option_map]. rewrite form_col, map_length. unfold blank_rows. rewrite repeat_length. reflexivity. }
  destruct s as [[A B]|]; cbn [anc_dict] in E.
  - rewrite allocate_columns in E by apply Hg. cbn [bind] in E. injection E as <-. split; [|split; [|reflexivity]].
    + intros key c Hin. unfold forms. change (vget [("data", _); _] "data") with (Some (by_name (columns (kind_layout k) (blank_rows (kind_layout k) n)))). apply G; [apply layout_nodup|exact Hin].
    + intros A' B' EA. injection EA as <- <-. intros key c Hin. unfold forms. change (vget _ "ancil") with (Some (by_name (columns A (blank_rows A n)))). apply G; [apply Hg|exact Hin].
  - injection E as <-. split; [|split; [discriminate|reflexivity]]. intros key c Hin. unfold forms. change (vget _ "data") with (Some (by_name (columns (kind_layout k) (blank_rows (kind_layout k) n)))). apply G; [apply layout_nodup|exact Hin].
Qed.

(** One write *)
Lemma write_nd_width {A} (d v : nd A) n m s a b : shp d = n :: s -> shp v = m :: s -> (a < b)%nat -> (b <= n)%nat ->
  write_nd d a b v = (if (m =? b - a)%nat then Ok (mknd (n :: s) (concat (firstn a (rows_of d) ++ rows_of v ++ skipn b (rows_of d))))
                      else if (m =? 1)%nat then Ok (mknd (n :: s) (concat (firstn a (rows_of d) ++ repeat (dat v) (b - a) ++ skipn b (rows_of d))))
                      else Err TypeError).
Proof.
  intros Ed Ev Hab Hb. unfold write_nd. rewrite Ed, Ev. rewrite Nat.min_l by exact Hb. destruct (Nat.leb_spec b a); [lia|]. destruct (list_eq_dec Nat.eq_dec s s); [reflexivity|congruence].
Qed.
Lemma write_col_width d n c l a b : form d = (fst (row_of c), n :: snd (row_of c)) -> (a < b)%nat -> (b <= n)%nat ->
  ((length l = b - a \/ length l = 1)%nat -> exists d', write_value d a b (col_value c l) = Ok d') /\
  (length l <> b - a -> length l <> 1 -> write_value d a b (col_value c l) = Err TypeError)%nat.
Proof.
  intros Hf Hab Hb. destruct c as [s|s|s]; destruct d as [x|x|x| | |]; try (unfold form in Hf; discriminate Hf);
    unfold form in Hf; cbn [row_of fst snd v_shape] in Hf; injection Hf as Hf; cbn [col_value write_value];
    rewrite (write_nd_width _ (rows_nd s _) n (length l) s a b Hf) by first [exact Hab|exact Hb|cbn [rows_nd shp]; rewrite map_length; reflexivity];
    (split; [intros [E|E]; rewrite E, ?Nat.eqb_refl; [eexists; reflexivity|destruct (1 =? b - a)%nat; eexists; reflexivity]|
             intros E1 E2; apply Nat.eqb_neq in E1, E2; rewrite E1, E2; reflexivity]).
Qed.
Lemma forms_value f g key k s : forms f g key = Some (k, s) -> exists t d, vget f g = Some t /\ vget t key = Some d /\ form d = (k, s).
Proof. unfold forms. destruct (vget f g) as [t|]; [|discriminate]. destruct (vget t key) as [d|] eqn:E; [|discriminate]. cbn [option_map]. intros H. exists t, d. split; [reflexivity|]. split; [exact E|congruence]. Qed.
Lemma steps_accepted n a b : (a < b)%nat -> (b <= n)%nat -> forall steps f,
  (forall s, In s steps -> exists c l, s_start s = a /\ s_stop s = b /\ s_value s = col_value c l /\ (length l = b - a \/ length l = 1)%nat /\ forms f (s_group s) (s_key s) = Some (fst (row_of c), n :: snd (row_of c))) ->
  fst (write_steps f steps) = Ok tt.
Proof.
  intros Hab Hb. induction steps as [|s steps IH]; intros f H; [reflexivity|].
  destruct (H s (or_introl eq_refl)) as (c & l & Ea & Eb & Ev & Hl & Hf). destruct (forms_value _ _ _ _ _ Hf) as (t & d & Et & Ed & Fd).
  destruct (proj1 (write_col_width d n c l a b Fd Hab Hb) Hl) as (d' & Ew).
  cbn [write_steps]. destruct (write_step f s) as [f'|x] eqn:Es.
  - apply IH. intros s' Hs'. destruct (H s' (or_intror Hs')) as (c' & l' & H1 & H2 & H3 & H4 & H5). exists c', l'. rewrite (write_step_form _ _ _ Es). auto.
  - exfalso. unfold write_step in Es. rewrite Et, Ed, Ea, Eb, Ev, Ew in Es. discriminate Es.
Qed.
(** The steps of a part, column by column *)
Definition part_sel (i j : nat) (D : list row) : list row := firstn (j - i) (skipn i D).
Lemma in_columns_from L D kv : forall j0, In kv (columns_from j0 L D) -> exists j c, nth_error L j = Some (fst kv, c) /\ snd kv = col_value c (map (cell_at (j0 + j)) D).
Proof.
  induction L as [|[key c] L IH]; intros j0 H; [destruct H|]. destruct H as [<-|H]; [exists 0%nat, c; rewrite Nat.add_0_r; split; reflexivity|].
  destruct (IH (S j0) H) as (j & c' & H1 & H2). exists (S j), c'. split; [exact H1|]. rewrite H2. do 2 f_equal. f_equal. lia.
Qed.
Lemma group_room f n g L D a b s : room f n g L -> In s (group_steps g (columns L D) a b) ->
  exists c l, s_start s = a /\ s_stop s = b /\ s_value s = col_value c l /\ length l = length D /\ forms f (s_group s) (s_key s) = Some (fst (row_of c), n :: snd (row_of c)).
Proof.
  intros Hr H. apply in_map_iff in H. destruct H as ([key v] & <- & Hin). apply in_columns_from in Hin. destruct Hin as (j & c & Hj & Ev). cbn [fst snd] in *.
  exists c, (map (cell_at (0 + j)) D). cbn [s_start s_stop s_value s_group s_key]. repeat (split; [first [reflexivity|exact Ev|apply map_length]|]). apply Hr. eapply nth_error_In; eauto.
Qed.

Lemma Forall_between {A} (P : A -> Prop) l i j : List.Forall P l -> List.Forall P (firstn j (skipn i l)).
Proof.
  rewrite !List.Forall_forall. intros H x Hx. apply H. rewrite <- (firstn_skipn i l). apply in_app_iff. right. rewrite <- (firstn_skipn j (skipn i l)). apply in_app_iff. left. exact Hx.
Qed.
(** A part of a file that another part of the same ensemble has initialised *)
Definition writing X (e : ens R) (n : nat) (f : h5file R) : Prop :=
  exists i j c f0 cs, part_of X e (i, j, c) /\ initialize c n = Ok f0 /\ f = snd (write_chunks f0 cs).
Lemma writing_room X M e s n f : fill_outside X -> made X M e -> has_ancil e s -> writing X e n f ->
  exists k D, represents_in X k D e /\ room f n "data" (kind_layout k) /\ (forall A B, s = Some (A, B) -> room f n "ancil" A) /\ keys f = "data" :: match s with None => [] | Some _ => ["ancil"] end.
Proof.
  intros HX Hm Hs (i & j & c & f0 & cs & Hp & E0 & ->). destruct (made_rep X M e HX Hm) as (k & D & Hr & _ & _). exists k, D. split; [exact Hr|].
  destruct (part_rows X k D e s i j c HX Hr Hs Hp) as (Hrc & Hac & Hj).
  assert (Hsc : has_ancil c (match s with None => None | Some (A, B) => Some (A, firstn (j - i) (skipn i B)) end)).
  { split; [exact Hac|]. destruct Hs as (_ & Hg). rewrite (rep_npdf' X k _ c Hrc). rewrite (rep_npdf' X k D e Hr) in Hg. destruct s as [[A B]|]; [|exact I]. destruct Hg as (HB & HF & HN).
    split; [|split; [apply Forall_between, HF|exact HN]]. rewrite !firstn_length, !skipn_length. first [rewrite HB; reflexivity|lia]. }
  destruct (initial_room X k _ c _ n f0 Hrc Hsc E0) as (R1 & R2 & R3). split; [|split].
  - intros key cc Hin. rewrite write_chunks_form. apply R1. exact Hin.
  - intros A B ES key cc Hin. rewrite write_chunks_form. subst s. apply (R2 A _ eq_refl). exact Hin.
  - rewrite write_chunks_keys, R3. destruct s as [[A B]|]; reflexivity.
Qed.
Lemma c93_mismatch : forall X M e s n f i j c a b, fill_outside X -> made X M e -> has_ancil e s -> writing X e n f -> part_of X e (i, j, c) -> (a < b)%nat -> (b <= n)%nat ->
  (j - i <> b - a)%nat -> (j - i <> 1)%nat -> write_chunk f c a b = (Err TypeError, f).
Proof.
  intros X M e s n f i j c a b HX Hm Hs Hw Hp Hab Hb Hne Hn1. destruct (writing_room X M e s n f HX Hm Hs Hw) as (k & D & Hr & R1 & R2 & R3).
  destruct (part_rows X k D e s i j c HX Hr Hs Hp) as (Hrc & Hac & Hj). destruct (rep_meta X _ _ _ Hrc) as (_ & Oc & _).
  unfold write_chunk. rewrite R3. cbn [write_groups]. unfold chunk_table. cbn [String.eqb Ascii.eqb Bool.eqb]. rewrite Oc. unfold cols.
  set (D' := firstn (j - i) (skipn i D)). assert (HD' : length D' = (j - i)%nat) by (unfold D'; rewrite firstn_length, skipn_length; lia).
  destruct (kind_layout k) as [|[key ct] L] eqn:EL; [exfalso; destruct k; discriminate EL|].
  assert (Hf : forms f "data" key = Some (fst (row_of ct), n :: snd (row_of ct))) by (apply R1; left; reflexivity).
  destruct (forms_value _ _ _ _ _ Hf) as (t & d & Et & Ed & Fd).
  unfold columns. cbn [columns_from group_steps map write_steps]. unfold write_step. cbn [s_group s_key s_start s_stop s_value fst snd]. rewrite Et, Ed.
  rewrite (proj2 (write_col_width d n ct (map (cell_at 0) D') a b Fd Hab Hb)) by (rewrite map_length, HD'; assumption). reflexivity.
Qed.
Lemma c93_accepted : forall X M e s n f i j c a b, fill_outside X -> made X M e -> has_ancil e s -> writing X e n f -> part_of X e (i, j, c) -> (a < b)%nat -> (b <= n)%nat ->
  (j - i = b - a \/ j - i = 1)%nat -> fst (write_chunk f c a b) = Ok tt.
Proof.
  intros X M e s n f i j c a b HX Hm Hs Hw Hp Hab Hb Hl. destruct (writing_room X M e s n f HX Hm Hs Hw) as (k & D & Hr & R1 & R2 & R3).
  destruct (part_rows X k D e s i j c HX Hr Hs Hp) as (Hrc & Hac & Hj). destruct (rep_meta X _ _ _ Hrc) as (_ & Oc & _).
  rewrite write_chunk_steps by (rewrite R3, Hac; destruct s as [[A B]|]; reflexivity). apply (steps_accepted n a b Hab Hb).
  intros st Hst. cbn [chunk_steps] in Hst. apply in_app_iff in Hst. rewrite Oc, Hac in Hst. unfold cols in Hst. destruct Hst as [Hst|Hst].
  - destruct (group_room _ _ _ _ _ _ _ _ R1 Hst) as (ct & l & H1 & H2 & H3 & H4 & H5). exists ct, l. rewrite firstn_length, skipn_length in H4. repeat (split; [assumption|]). split; [rewrite H4; lia|exact H5].
  - destruct s as [[A B]|]; [|destruct Hst]. cbn [anc_dict] in Hst. destruct Hs as (_ & (HB & _)). rewrite (rep_npdf' X k D e Hr) in HB.
    destruct (group_room _ _ _ _ _ _ _ _ (R2 A B eq_refl) Hst) as (ct & l & H1 & H2 & H3 & H4 & H5). exists ct, l. rewrite firstn_length, skipn_length in H4. repeat (split; [assumption|]). split; [rewrite H4; lia|exact H5].
Qed.

(** A chunk of one PDF is written to every row of the range: as if the PDF had been repeated *)
Lemma write_col_repeat d n c x a b : cell_ok c x -> form d = (fst (row_of c), n :: snd (row_of c)) -> (a < b)%nat -> (b <= n)%nat ->
  write_value d a b (col_value c [x]) = write_value d a b (col_value c (repeat x (b - a))).
Proof.
  intros Hx Hf Hab Hb. set (m := (b - a)%nat).
  assert (Hm : (1 =? m)%nat = true -> m = 1%nat) by (intros E; apply Nat.eqb_eq in E; lia).
  destruct c as [s|s|s]; destruct d as [y|y|y| | |]; try (unfold form in Hf; discriminate Hf);
    unfold form in Hf; cbn [row_of fst snd v_shape] in Hf; injection Hf as Hf; cbn [col_value write_value];
    rewrite !(write_nd_width y (rows_nd s _) n _ s a b Hf eq_refl Hab Hb); cbn [map length]; rewrite !map_length, repeat_length; fold m; rewrite (Nat.eqb_refl m);
    (destruct (1 =? m)%nat eqn:E1; [rewrite (Hm eq_refl); reflexivity|]); cbn [Nat.eqb];
    rewrite map_repeat; cbn [bind]; do 3 f_equal;
    (rewrite rows_of_rows_nd by (intros r Hr; apply repeat_spec in Hr; subst r; destruct x; cbn in *; tauto));
    cbn [rows_nd dat concat]; rewrite app_nil_r; reflexivity.
Qed.

Lemma Forall2_weaken {A B} (P Q : A -> B -> Prop) l l' : (forall x y, P x y -> Q x y) -> Forall2 P l l' -> Forall2 Q l l'.
Proof. intros H F. induction F; constructor; auto. Qed.
Lemma steps_same n a b : (a < b)%nat -> (b <= n)%nat -> forall l l' f,
  Forall2 (fun s s' => s_group s' = s_group s /\ s_key s' = s_key s /\ s_start s = a /\ s_stop s = b /\ s_start s' = a /\ s_stop s' = b /\
    exists c x, cell_ok c x /\ s_value s = col_value c [x] /\ s_value s' = col_value c (repeat x (b - a)) /\ forms f (s_group s) (s_key s) = Some (fst (row_of c), n :: snd (row_of c))) l l' ->
  write_steps f l = write_steps f l'.
Proof.
  intros Hab Hb. induction l as [|s l IH]; intros l' f H; inversion H as [|? s' ? l1 Hs Hl]; subst; [reflexivity|].
  destruct Hs as (E1 & E2 & E3 & E4 & E5 & E6 & c & x & Hx & V & V' & Hf). cbn [write_steps].
  assert (Es : write_step f s = write_step f s').
  { unfold write_step. rewrite E1, E2, E3, E4, E5, E6, V, V'. destruct (forms_value _ _ _ _ _ Hf) as (t & d & Et & Ed & Fd). rewrite Et, Ed.
    rewrite (write_col_repeat d n c x a b Hx Fd Hab Hb). reflexivity. }
  rewrite <- Es. destruct (write_step f s) as [f'|] eqn:E; [|reflexivity]. apply IH. eapply Forall2_weaken; [|exact Hl].
  intros u u' (K1 & K2 & K3 & K4 & K5 & K6 & c' & x' & K7 & K8 & K9 & K10). repeat (split; [assumption|]). exists c', x'. rewrite (write_step_form _ _ _ E). auto.
Qed.
Lemma group_same f n g L d a b : room f n g L -> row_fits L d ->
  Forall2 (fun s s' => s_group s' = s_group s /\ s_key s' = s_key s /\ s_start s = a /\ s_stop s = b /\ s_start s' = a /\ s_stop s' = b /\
    exists c x, cell_ok c x /\ s_value s = col_value c [x] /\ s_value s' = col_value c (repeat x (b - a)) /\ forms f (s_group s) (s_key s) = Some (fst (row_of c), n :: snd (row_of c)))
    (group_steps g (columns L [d]) a b) (group_steps g (columns L (repeat d (b - a))) a b).
Proof.
  intros Hr Hd. unfold columns, group_steps.
  assert (K : forall L' j, (forall i kc, nth_error L' i = Some kc -> nth_error L (j + i) = Some kc) ->
    Forall2 (fun s s' => s_group s' = s_group s /\ s_key s' = s_key s /\ s_start s = a /\ s_stop s = b /\ s_start s' = a /\ s_stop s' = b /\
    exists c x, cell_ok c x /\ s_value s = col_value c [x] /\ s_value s' = col_value c (repeat x (b - a)) /\ forms f (s_group s) (s_key s) = Some (fst (row_of c), n :: snd (row_of c)))
    (map (fun kv => mkstep g (fst kv) a b (snd kv)) (columns_from j L' [d])) (map (fun kv => mkstep g (fst kv) a b (snd kv)) (columns_from j L' (repeat d (b - a))))).
  { induction L' as [|[key c] L' IH]; intros j H; cbn [columns_from map]; [constructor|]. constructor.
    - cbn [s_group s_key s_start s_stop s_value fst snd]. repeat (split; [reflexivity|]). exists c, (cell_at j d).
      assert (Hj : nth_error L j = Some (key, c)) by (rewrite <- (Nat.add_0_r j); apply (H 0%nat); reflexivity).
      split; [apply (row_fits_col L j key c d Hd Hj)|]. split; [reflexivity|]. split; [rewrite map_repeat; reflexivity|]. apply Hr. eapply nth_error_In; eauto.
    - apply IH. intros i kc Hi. replace (S j + i)%nat with (j + S i)%nat by lia. apply (H (S i)). exact Hi. }
  apply K. intros i kc H. exact H.
Qed.
Lemma one_row (D : list row) i : (i < length D)%nat -> firstn (S i - i) (skipn i D) = [nth i D []].
Proof.
  intros H. replace (S i - i)%nat with 1%nat by lia. rewrite <- (firstn_skipn i D) at 2. rewrite app_nth2 by (rewrite firstn_length; lia).
  rewrite firstn_length, Nat.min_l by lia. rewrite Nat.sub_diag. pose proof (skipn_length i D) as L. destruct (skipn i D) as [|x t]; [cbn in L; lia|reflexivity].
Qed.
Lemma repeat_positions n i m : (i < n)%nat -> key_positions n (KList (repeat (Z.of_nat i) m)) = Some (repeat i m).
Proof.
  intros H. cbn [key_positions].
  assert (E : norm_index n (Z.of_nat i) = Some i).
  { unfold norm_index. destruct (Z.ltb_spec (Z.of_nat i) 0); [lia|]. destruct (Z.leb_spec 0 (Z.of_nat i)); [|lia]. destruct (Z.ltb_spec (Z.of_nat i) (Z.of_nat n)); [|lia]. cbn [andb]. rewrite Nat2Z.id. reflexivity. }
  induction m as [|m IH]; [reflexivity|]. cbn [repeat norm_list]. rewrite E, IH. reflexivity.
Qed.
Lemma c93_one : forall X M e s n f i c a b, fill_outside X -> made X M e -> has_ancil e s -> writing X e n f -> part_of X e (i, S i, c) -> (a < b)%nat -> (b <= n)%nat ->
  exists c', getitem (qp X) e (KList (repeat (Z.of_nat i) (b - a))) = Ok c' /\ write_chunk f c a b = write_chunk f c' a b /\ fst (write_chunk f c a b) = Ok tt.
Proof.
  intros X M e s n f i c a b HX Hm Hs Hw Hp Hab Hb. pose proof (c93_accepted X M e s n f i (S i) c a b HX Hm Hs Hw Hp Hab Hb ltac:(lia)) as Hacc.
  destruct (writing_room X M e s n f HX Hm Hs Hw) as (k & D & Hr & R1 & R2 & R3).
  destruct (part_rows X k D e s i (S i) c HX Hr Hs Hp) as (Hrc & Hac & Hj). destruct (rep_meta X _ _ _ Hrc) as (_ & Oc & _).
  pose proof Hs as (Hse & Hg). rewrite (rep_npdf' X k D e Hr) in Hg.
  pose proof (repeat_positions (length D) i (b - a) Hj) as Ek.
  destruct (getitem_rep (s_phi X) (s_Phi X) (s_quad X) (s_cubic X) (s_dspline X) (s_Phinv X) HX k D e _ _ s Hr Ek) as (c' & Ec & Hrep & Hanc & _).
  { destruct (b - a)%nat eqn:E; [lia|discriminate]. } { exact Hse. } { exact Hg. } { discriminate. }
  exists c'. split; [exact Ec|]. split; [|exact Hacc]. destruct (rep_meta X _ _ _ Hrep) as (_ & Oc' & _).
  assert (Hac' : e_ancil c' = anc_dict (match s with None => None | Some (A, B) => Some (A, repeat (nth i B []) (b - a)) end)).
  { rewrite Hanc. destruct s as [[A B]|]; [|reflexivity]. unfold anc_sliced. rewrite sliced_columns by reflexivity. unfold select. rewrite map_repeat. reflexivity. }
  unfold select in Oc'. rewrite map_repeat in Oc'. rewrite one_row in Oc by exact Hj.
  rewrite !write_chunk_steps by (rewrite R3, ?Hac, ?Hac'; destruct s as [[A B]|]; reflexivity). apply (steps_same n a b Hab Hb). cbn [chunk_steps]. rewrite Oc, Oc', Hac, Hac'. apply Forall2_app.
  - apply group_same; [exact R1|]. assert (HD : List.Forall (row_fits (kind_layout k)) D) by (apply good_fits, Hr). rewrite List.Forall_forall in HD. apply HD. apply nth_In. exact Hj.
  - destruct s as [[A B]|]; [|constructor]. cbn [anc_dict]. destruct Hg as (HB & HF & _). rewrite one_row by (first [rewrite HB; exact Hj|lia]). apply group_same; [apply (R2 A B eq_refl)|].
    rewrite List.Forall_forall in HF. apply HF. apply nth_In. first [rewrite HB; exact Hj|lia].
Qed.
