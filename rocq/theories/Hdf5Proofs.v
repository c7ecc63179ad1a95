(** Proofs about HDF5 files: dictionaries ordered by name, keyword order, reading a stored ensemble. *)
From Coq Require Import String List Arith ZArith Bool Lia Reals Lra Permutation.
From Verif Require Import Num NumProofs Py NdArray NumpyLib Utils ScipyWrap Spec Values Ensemble Classes Hdf5
  HistPdf InterpPdf QuantPdf MixmodPdf Packing PackedPdf InterpProofs Kinds KindProofs EnsembleProofs KindInputs ReachProofs EnsembleTheorems.
Import ListNotations.
Local Open Scope string_scope.
Local Open Scope list_scope.

(** ** Dictionaries *)
Definition same_dict {V} (d d' : dict string V) : Prop := forall k, vget d k = vget d' k.
Lemma vget_none {V} (d : dict string V) k : vget d k = None <-> ~ In k (keys d).
Proof.
  induction d as [|[k' v] d IH]; [simpl; tauto|]. unfold vget in *. cbn [dget keys map fst In]. destruct (String.eqb_spec k k') as [->|Hk].
  - split; [discriminate|]. intros H. exfalso. apply H. left. reflexivity.
  - rewrite IH. split; intros H; [intros [E|E]; [congruence|auto]|intros E; apply H; right; exact E].
Qed.
Lemma vget_in {V} (d : dict string V) k v : NoDup (keys d) -> (vget d k = Some v <-> In (k, v) d).
Proof.
  induction d as [|[k' w] d IH]; intros Hn; [split; [discriminate|intros []]|]. inversion Hn as [|? ? Hk Hn']; subst. unfold vget in *. cbn [dget In].
  destruct (String.eqb_spec k k') as [->|Hne].
  - split; [intros E; injection E as ->; left; reflexivity|]. intros [E|E]; [congruence|]. exfalso. apply Hk. apply (in_map fst) in E. exact E.
  - rewrite IH by exact Hn'. split; [intros E; right; exact E|]. intros [E|E]; [congruence|exact E].
Qed.
Lemma insert_perm {V} kv (d : dict string V) : Permutation (insert_name kv d) (kv :: d).
Proof.
  induction d as [|x d IH]; [reflexivity|]. cbn [insert_name]. destruct (String.leb _ _); [reflexivity|].
  transitivity (x :: kv :: d); [constructor; exact IH|constructor].
Qed.
Lemma by_name_perm {V} (d : dict string V) : Permutation (by_name d) d.
Proof. unfold by_name. induction d as [|kv d IH]; [reflexivity|]. cbn [fold_right]. rewrite insert_perm, IH. reflexivity. Qed.
Lemma perm_keys {V} (d d' : dict string V) : Permutation d d' -> Permutation (keys d) (keys d').
Proof. apply Permutation_map. Qed.
Lemma perm_get {V} (d d' : dict string V) : NoDup (keys d) -> Permutation d d' -> same_dict d d'.
Proof.
  intros Hn Hp k. assert (Hn' : NoDup (keys d')) by (apply (Permutation_NoDup (perm_keys _ _ Hp) Hn)).
  destruct (vget d k) as [v|] eqn:E.
  - symmetry. apply vget_in; [exact Hn'|]. apply (Permutation_in _ Hp). apply vget_in; assumption.
  - symmetry. apply vget_none. apply vget_none in E. intros H. apply E. apply (Permutation_in _ (Permutation_sym (perm_keys _ _ Hp))). exact H.
Qed.
Lemma by_name_nodup {V} (d : dict string V) : NoDup (keys d) -> NoDup (keys (by_name d)).
Proof. intros H. apply (Permutation_NoDup (perm_keys _ _ (Permutation_sym (by_name_perm d))) H). Qed.
Lemma by_name_get {V} (d : dict string V) k : NoDup (keys d) -> vget (by_name d) k = vget d k.
Proof. intros H. apply perm_get; [apply by_name_nodup, H|apply by_name_perm]. Qed.
Lemma insert_keys {V W} (k : string) (v : V) (w : W) d d' : keys d = keys d' -> keys (insert_name (k, v) d) = keys (insert_name (k, w) d').
Proof.
  revert d'. induction d as [|[x a] d IH]; intros [|[x' a'] d']; try discriminate; [reflexivity|]. cbn [keys map fst]. intros E. injection E as -> E.
  cbn [insert_name fst]. destruct (String.leb k x'); cbn [keys map fst]; [rewrite E; reflexivity|]. f_equal. apply (IH d'). exact E.
Qed.
Lemma by_name_keys {V W} (d : dict string V) (d' : dict string W) : keys d = keys d' -> keys (by_name d) = keys (by_name d').
Proof.
  revert d'. induction d as [|[x a] d IH]; intros [|[x' a'] d']; try discriminate; [reflexivity|]. cbn [keys map fst]. intros E. injection E as -> E.
  unfold by_name. cbn [fold_right]. apply insert_keys. apply (IH d'). exact E.
Qed.
Lemma dict_ext {V} (d d' : dict string V) : keys d = keys d' -> NoDup (keys d) -> same_dict d d' -> d = d'.
Proof.
  revert d'. induction d as [|[k v] d IH]; intros [|[k' v'] d']; try discriminate; [reflexivity|]. cbn [keys map fst]. intros E Hn Hs. injection E as -> E.
  inversion Hn as [|? ? Hk Hn']; subst. f_equal.
  - specialize (Hs k'). unfold vget in Hs. cbn [dget] in Hs. rewrite String.eqb_refl in Hs. injection Hs as ->. reflexivity.
  - apply IH; auto. intros k. destruct (String.eqb_spec k k') as [->|Hne].
    + assert (N1 : vget d k' = None) by (apply vget_none; exact Hk). assert (N2 : vget d' k' = None) by (apply vget_none; unfold keys in *; rewrite <- E; exact Hk). congruence.
    + specialize (Hs k). unfold vget in Hs. cbn [dget] in Hs. destruct (String.eqb_spec k k'); [congruence|]. exact Hs.
Qed.

Lemma vset_get {V} (d : dict string V) k v k' : vget (vset d k v) k' = if String.eqb k' k then Some v else vget d k'.
Proof.
  unfold vget, vset. induction d as [|[x w] d IH]; cbn [dset dget]; [destruct (String.eqb k' k); reflexivity|].
  destruct (String.eqb_spec k x) as [->|Hx]; cbn [dget]; [destruct (String.eqb k' x); reflexivity|].
  rewrite IH. destruct (String.eqb_spec k' x) as [->|]; [|reflexivity]. destruct (String.eqb_spec x k); [congruence|reflexivity].
Qed.
Lemma vset_keys {V} (d : dict string V) k v : In k (keys d) -> keys (vset d k v) = keys d.
Proof.
  unfold vset, keys. induction d as [|[x w] d IH]; cbn [map fst dset In]; [intros []|]. intros H.
  destruct (String.eqb_spec k x) as [->|Hx]; cbn [map fst]; [reflexivity|]. f_equal. apply IH. destruct H; [congruence|exact H].
Qed.
Lemma vset_nodup {V} (d : dict string V) k v : NoDup (keys d) -> NoDup (keys (vset d k v)).
Proof.
  intros Hn. destruct (in_dec string_dec k (keys d)) as [H|H]; [rewrite vset_keys; assumption|].
  assert (E : keys (vset d k v) = keys d ++ [k]).
  { clear Hn. unfold vset, keys in *. induction d as [|[x w] d IH]; [reflexivity|]. cbn [map fst In dset] in *.
    destruct (String.eqb_spec k x) as [->|Hx]; [exfalso; apply H; left; reflexivity|]. cbn [map fst app]. f_equal. apply IH. tauto. }
  rewrite E. apply (Permutation_NoDup (l := k :: keys d)); [apply Permutation_cons_append|]. constructor; assumption.
Qed.
Lemma vupdate_get {V} (d2 d : dict string V) k : NoDup (keys d2) -> vget (vupdate d d2) k = match vget d2 k with Some v => Some v | None => vget d k end.
Proof.
  unfold vupdate, dupdate. revert d. induction d2 as [|[x w] d2 IH]; intros d Hn; [reflexivity|]. inversion Hn as [|? ? Hx Hn']; subst. cbn [fold_left fst snd].
  rewrite IH by exact Hn'. fold (vset d x w). rewrite vset_get. unfold vget at 3. cbn [dget]. destruct (String.eqb_spec k x) as [->|Hk].
  - assert (N : vget d2 x = None) by (apply vget_none; exact Hx). rewrite N. reflexivity.
  - reflexivity.
Qed.
Lemma vupdate_nodup {V} (d2 d : dict string V) : NoDup (keys d) -> NoDup (keys (vupdate d d2)).
Proof.
  unfold vupdate, dupdate. revert d. induction d2 as [|[x w] d2 IH]; intros d Hn; [exact Hn|]. cbn [fold_left]. apply IH. apply (vset_nodup d x w Hn).
Qed.
Lemma vremove_get {V} (d : dict string V) k k' : vget (vremove d k) k' = if String.eqb k' k then None else vget d k'.
Proof.
  unfold vget, vremove, dremove. induction d as [|[x w] d IH]; cbn [filter dget fst]; [destruct (String.eqb k' k); reflexivity|].
  destruct (String.eqb_spec k x) as [Ek|Hx]; cbn [negb dget]; rewrite IH; [rewrite Ek; destruct (String.eqb k' x); reflexivity|].
  destruct (String.eqb_spec k' x) as [E1|E1]; [|reflexivity]. rewrite E1. destruct (String.eqb_spec x k); [congruence|reflexivity].
Qed.
Lemma vremove_nodup {V} (d : dict string V) k : NoDup (keys d) -> NoDup (keys (vremove d k)).
Proof.
  unfold vremove, dremove, keys. induction d as [|[x w] d IH]; intros Hn; [constructor|]. cbn [map fst] in Hn. inversion Hn as [|? ? Hx Hn']; subst. cbn [filter fst].
  destruct (String.eqb k x); cbn [negb map fst]; [apply IH; exact Hn'|]. constructor; [|apply IH; exact Hn'].
  intros H. apply Hx. apply in_map_iff in H. destruct H as (kv & <- & H). apply filter_In in H. apply in_map. apply H.
Qed.

(** ** The order of the keywords does not matter *)
Lemma known_iff (names : list string) (d : vdict R) : known names d = true <-> forall k, vget d k <> None -> In k names.
Proof.
  unfold known. rewrite forallb_forall. split; intros H k Hk.
  - assert (Hin : In k (keys d)) by (destruct (in_dec string_dec k (keys d)) as [?|Hn]; [assumption|]; exfalso; apply Hk; apply vget_none; exact Hn).
    specialize (H k Hin). apply existsb_exists in H. destruct H as (x & Hx & E). apply String.eqb_eq in E. subst. exact Hx.
  - apply existsb_exists. exists k. split; [|apply String.eqb_refl]. apply H. intros E. apply vget_none in E. contradiction.
Qed.
Lemma known_ext names (d d' : vdict R) : same_dict d d' -> known names d = known names d'.
Proof.
  intros H. destruct (known names d) eqn:E, (known names d') eqn:E'; try reflexivity; exfalso.
  - rewrite known_iff in E. assert (X : known names d' = true) by (apply known_iff; intros k Hk; apply E; rewrite H; exact Hk). congruence.
  - rewrite known_iff in E'. assert (X : known names d = true) by (apply known_iff; intros k Hk; apply E'; rewrite <- H; exact Hk). congruence.
Qed.
Lemma create_ext X name c (d d' : vdict R) : qp X name = Some c -> name <> "norm" -> same_dict d d' -> c d = c d'.
Proof.
  unfold qp, Kinds.classes, qp_classes. intros Hc Hn Hd.
  repeat match type of Hc with (if ?b then _ else _) = _ => destruct b eqn:? end; try discriminate; injection Hc as <-;
    [..|exfalso; apply Hn; apply String.eqb_eq; assumption];
    unfold hist_create, interp_create, irr_create, mixmod_create, quant_create, packed_create, spline_create, sparse_create, arg, opt_arg;
    rewrite (known_ext _ d d' Hd), !Hd; reflexivity.
Qed.

(** ** Reading tables whose columns come in another order *)
Definition item_of (md data : vdict R) (k : string) : option (value R) :=
  match vget data k with
  | Some v => Some (data_item v)
  | None => match vget md k with
            | Some v => match meta_item v with Ok w => Some w | Err _ => None end
            | None => None
            end
  end.
Lemma mapM_items (md : vdict R) r : mapM (fun kv => let* v := meta_item (snd kv) in Ok (fst kv, v)) md = Ok r ->
  keys r = keys md /\ forall k, vget r k = match vget md k with Some v => match meta_item v with Ok w => Some w | Err _ => None end | None => None end.
Proof.
  revert r. induction md as [|[x v] md IH]; intros r; cbn [mapM fst snd]; [intros E; injection E as <-; split; reflexivity|].
  destruct (meta_item v) as [w|] eqn:Ew; [|discriminate]. cbn [bind]. destruct (mapM _ md) as [r'|]; [|discriminate]. cbn [bind]. intros E; injection E as <-.
  destruct (IH r' eq_refl) as (Hk & Hg). split; [cbn [keys map fst]; f_equal; exact Hk|].
  intros k. unfold vget in *. cbn [dget]. destruct (String.eqb k x); [rewrite Ew; reflexivity|apply Hg].
Qed.
Lemma mapM_items_ok (md : vdict R) : (forall k v, In (k, v) md -> exists w, meta_item v = Ok w) ->
  exists r, mapM (fun kv => let* v := meta_item (snd kv) in Ok (fst kv, v)) md = Ok r.
Proof.
  induction md as [|[x v] md IH]; intros H; [eexists; reflexivity|]. cbn [mapM fst snd]. destruct (H x v (or_introl eq_refl)) as (w & ->). cbn [bind].
  destruct IH as (r & ->); [intros k u Hk; apply (H k u); right; exact Hk|]. eexists. reflexivity.
Qed.
Lemma mapM_items_inv (md : vdict R) r : mapM (fun kv => let* v := meta_item (snd kv) in Ok (fst kv, v)) md = Ok r ->
  forall k v, In (k, v) md -> exists w, meta_item v = Ok w.
Proof.
  revert r. induction md as [|[x v] md IH]; intros r; [intros _ ? ? []|]. cbn [mapM fst snd]. destruct (meta_item v) as [w|] eqn:Ew; [|discriminate]. cbn [bind].
  destruct (mapM _ md) as [r'|]; [|discriminate]. intros _ k u [E|E]; [injection E as <- <-; eauto|]. eapply IH; eauto.
Qed.
Lemma map_data_get (data : vdict R) k : vget (map (fun kv => (fst kv, data_item (snd kv))) data) k = match vget data k with Some v => Some (data_item v) | None => None end.
Proof. unfold vget. induction data as [|[x v] data IH]; [reflexivity|]. cbn [map dget fst snd]. destruct (String.eqb k x); [reflexivity|exact IH]. Qed.
Lemma map_data_keys (data : vdict R) : keys (map (fun kv => (fst kv, data_item (snd kv))) data) = keys data.
Proof. unfold keys. rewrite map_map. reflexivity. Qed.
Lemma build_get (md data d : vdict R) : NoDup (keys data) -> build_data_dict md data = Ok d -> forall k, vget d k = item_of md data k.
Proof.
  intros Hn. unfold build_data_dict. destruct (mapM _ md) as [r|] eqn:E; [|discriminate]. cbn [bind]. intros E2; injection E2 as <-. intros k.
  destruct (mapM_items _ _ E) as (_ & Hg). rewrite vupdate_get by (rewrite map_data_keys; exact Hn). rewrite map_data_get, Hg. unfold item_of.
  destruct (vget data k); reflexivity.
Qed.
Lemma build_perm (md data d md' data' : vdict R) : NoDup (keys md) -> NoDup (keys data) -> Permutation md' md -> Permutation data' data ->
  build_data_dict md data = Ok d -> exists d', build_data_dict md' data' = Ok d' /\ same_dict d' d.
Proof.
  intros Hm Hd Pm Pd E. assert (Hm' : NoDup (keys md')) by (apply (Permutation_NoDup (perm_keys _ _ (Permutation_sym Pm)) Hm)).
  assert (Hd' : NoDup (keys data')) by (apply (Permutation_NoDup (perm_keys _ _ (Permutation_sym Pd)) Hd)).
  assert (Ex : exists d', build_data_dict md' data' = Ok d').
  { unfold build_data_dict in *. destruct (mapM _ md) as [r|] eqn:Er; [|discriminate]. pose proof (mapM_items_inv _ _ Er) as Hi.
    destruct (mapM_items_ok md') as (r' & ->); [|eexists; reflexivity]. intros k v Hk. apply (Hi k v). apply (Permutation_in _ Pm). exact Hk. }
  destruct Ex as (d' & E'). exists d'. split; [exact E'|]. intros k. rewrite (build_get _ _ _ Hd' E'), (build_get _ _ _ Hd E). unfold item_of.
  rewrite (perm_get data' data Hd' Pd k), (perm_get md' md Hm' Pm k). reflexivity.
Qed.

Lemma meta_nodup k : NoDup (keys (kind_meta k)).
Proof. destruct k; cbn; repeat constructor; simpl; intros H; repeat (destruct H as [H|H]; [discriminate H|]); destruct H. Qed.
Lemma cols_nodup k D : NoDup (keys (cols k D)).
Proof. unfold cols, columns. rewrite columns_keys. apply layout_nodup. Qed.
Lemma kind_class X k : qp X (kind_name k) = Some (Kinds.kind_create (s_phi X) (s_Phi X) (s_quad X) (s_cubic X) (s_dspline X) (s_Phinv X) k).
Proof. destruct k; reflexivity. Qed.
Definition qcreate (X : scipy) (k : kind) := Kinds.kind_create (s_phi X) (s_Phi X) (s_quad X) (s_cubic X) (s_dspline X) (s_Phinv X) k.
Lemma new_ext X k (d d' : vdict R) anc : kind_name k <> "norm" -> same_dict d d' -> ens_new (qcreate X k) d anc = ens_new (qcreate X k) d' anc.
Proof. intros Hn Hd. unfold ens_new. rewrite (create_ext X (kind_name k) (qcreate X k) d d' (kind_class X k) Hn Hd). reflexivity. Qed.
Lemma read_named X k D anc : good_kind k ->
  from_tables (qp X) (mktables (by_name (kind_meta k)) (by_name (cols k D)) anc) = ens_new (qcreate X k) (kind_args k ++ cols k D) anc.
Proof.
  intros Hk. destruct (string_dec (kind_name k) "norm") as [En|En].
  - assert (E : by_name (kind_meta k) = kind_meta k /\ by_name (cols k D) = cols k D) by (destruct k; try discriminate En; split; reflexivity).
    destruct E as [-> ->]. unfold from_tables. cbn [t_meta t_data t_ancil]. rewrite build_dict_kind by exact Hk. cbn [bind]. destruct k; try discriminate En. reflexivity.
  - destruct (build_perm _ _ _ (by_name (kind_meta k)) (by_name (cols k D)) (meta_nodup k) (cols_nodup k D) (by_name_perm _) (by_name_perm _) (build_dict_kind k D Hk)) as (d' & Ed & Hd).
    unfold from_tables. cbn [t_meta t_data t_ancil]. rewrite Ed. cbn [bind]. rewrite !Hd.
    change (vget (("pdf_name", VTxt (nd0 (kind_name k))) :: ("pdf_version", VArr (nd0 n0)) :: kind_args k ++ cols k D) "pdf_name") with (Some (VTxt (T := R) (nd0 (kind_name k)))).
    change (vget (("pdf_name", VTxt (nd0 (kind_name k))) :: ("pdf_version", VArr (nd0 n0)) :: kind_args k ++ cols k D) "pdf_version") with (Some (VArr (T := R) (nd0 n0))).
    cbn [text_of nd0 shp dat]. rewrite kind_class. apply new_ext; [exact En|]. intros key. rewrite !vremove_get, Hd.
    destruct (String.eqb_spec key "pdf_version") as [->|H1]; [destruct k; reflexivity|]. destruct (String.eqb_spec key "pdf_name") as [->|H2]; [destruct k; reflexivity|].
    unfold vget. cbn [dget]. destruct (String.eqb_spec key "pdf_name"); [congruence|]. destruct (String.eqb_spec key "pdf_version"); [congruence|]. reflexivity.
Qed.
