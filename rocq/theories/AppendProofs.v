(** Append and concatenation of two ensembles, also when the metadata agree only within the
    tolerance of the comparison. *)
From Coq Require Import String List Arith ZArith Bool Lia Reals Lra.
From Verif Require Import Num NumProofs Py NdArray NumpyLib Utils ScipyWrap Spec Values Ensemble Classes
  HistPdf InterpPdf QuantPdf MixmodPdf Packing PackedPdf
  SortProofs BinProofs EvalProofs NdProofs InterpProofs HistProofs HistTheorems GridTheorems IrrTheorems
  QuantTheorems MixmodTheorems PackingTheorems PackedTheorems Kinds KindProofs EnsembleProofs KindInputs ReachProofs.
Import ListNotations.
Local Open Scope string_scope.
Local Open Scope list_scope.
Local Open Scope R_scope.

Lemma np_concat_two {A} (a b r : nd A) : np_concatenate [a; b] = Ok r ->
  exists n m rest, shp a = n :: rest /\ shp b = m :: rest /\ shp r = (n + m)%nat :: rest.
Proof.
  unfold np_concatenate. destruct (shp a) as [|n rest] eqn:Ea; [discriminate|]. cbn [forallb]. rewrite Ea.
  destruct (list_eq_dec Nat.eq_dec rest rest) as [_|]; [|congruence]. destruct (shp b) as [|m rest'] eqn:Eb; [discriminate|].
  destruct (list_eq_dec Nat.eq_dec rest' rest) as [->|]; [|discriminate]. cbn [andb]. intros H. injection H as <-.
  exists n, m, rest. cbn [fold_right shp]. rewrite Ea, Eb. cbn [hd]. rewrite Nat.add_0_r. auto.
Qed.
Lemma v_concat_two (a b r : value R) : v_concatenate [a; b] = Ok r ->
  exists n m rest, v_shape a = n :: rest /\ v_shape b = m :: rest /\ v_shape r = (n + m)%nat :: rest.
Proof.
  destruct a; cbn [v_concatenate mapM]; try discriminate; destruct b; cbn [as_arr as_byt as_txt bind]; try discriminate;
    (destruct (np_concatenate _) as [c|] eqn:E; cbn [bind]; [|discriminate]); intros H; injection H as <-; apply np_concat_two in E; exact E.
Qed.
Lemma one_per_pdf_head n m rest v : one_per_pdf n v -> v_shape v = m :: rest -> m = n.
Proof.
  intros [(r & E)|(-> & E)] H; [congruence|]. unfold v_size in E. rewrite H in E. unfold prod in E. simpl in E. apply Nat.eq_mul_1 in E. tauto.
Qed.
Lemma vget_in (d : vdict R) k v : vget d k = Some v -> In (k, v) d.
Proof.
  unfold vget. induction d as [|[k0 v0] d IH]; [discriminate|]. cbn [dget]. destruct (String.eqb_spec k k0) as [->|]; intros H; [injection H as <-; left; auto|right; auto].
Qed.
Lemma mapM_out {A B} (f : A -> res B) l r : mapM f l = Ok r -> forall y, In y r -> exists x, In x l /\ f x = Ok y.
Proof.
  revert r. induction l as [|a l IH]; intros r H y Hy; [injection H as <-; destruct Hy|]. cbn [mapM] in H. destruct (f a) eqn:E; [|discriminate]. cbn [bind] in H.
  destruct (mapM f l) eqn:E2; [|discriminate]. injection H as <-. destruct Hy as [<-|Hy]; [exists a; split; [left; auto|auto]|].
  destruct (IH _ eq_refl y Hy) as (x & Hx & Ex). exists x. split; [right; auto|auto].
Qed.
Lemma concat_dicts_two (x y z : vdict R) k v : concatenate_dicts [x; y] = Ok z -> In (k, v) z ->
  exists v1 v2, In (k, v1) x /\ In (k, v2) y /\ v_concatenate [v1; v2] = Ok v.
Proof.
  unfold concatenate_dicts. destruct (check_keys [x; y]); [|discriminate]. cbn [bind]. intros H Hv.
  destruct (mapM_out _ _ _ H _ Hv) as (k' & _ & E). cbn [mapM] in E.
  destruct (vget x k') as [v1|] eqn:E1; cbn [bind] in E; [|discriminate]. destruct (vget y k') as [v2|] eqn:E2; cbn [bind] in E; [|discriminate].
  destruct (v_concatenate [v1; v2]) as [w|] eqn:Ew; cbn [bind] in E; [|discriminate]. injection E as -> ->.
  exists v1, v2. split; [apply vget_in; auto|split; [apply vget_in; auto|auto]].
Qed.
(** joining two dictionaries with [n] and [m] entries per column gives [n + m] *)
Lemma joined_check n m (a b : option (vdict R)) z : check_array_shapes a n = Ok tt -> check_array_shapes b m = Ok tt ->
  joined_ancil a b = Ok z -> check_array_shapes z (n + m) = Ok tt.
Proof.
  destruct a as [x|]; [|intros _ _ H; injection H as <-; reflexivity]. destruct b as [y|]; [|intros _ _ H; injection H as <-; reflexivity].
  cbn [check_array_shapes joined_ancil]. rewrite !check_columns_iff. intros Hx Hy H.
  destruct (concatenate_dicts [x; y]) as [w|] eqn:E; cbn [bind] in H; [|discriminate]. injection H as <-. cbn [check_array_shapes]. apply check_columns_iff.
  intros k v Hv. destruct (concat_dicts_two x y w k v E Hv) as (v1 & v2 & H1 & H2 & Hc). destruct (v_concat_two v1 v2 v Hc) as (p & q & rest & S1 & S2 & S).
  left. exists rest. rewrite S. f_equal. rewrite (one_per_pdf_head _ _ _ _ (Hx _ _ H1) S1), (one_per_pdf_head _ _ _ _ (Hy _ _ H2) S2). reflexivity.
Qed.

Section Append.
  Variables (phi Phi : R -> R) (quad : list R -> list R -> R -> R -> R -> R)
            (cubic dspline : list R -> list R -> R -> R) (Phinv : R -> xnum R).
  Notation kind_create := (Kinds.kind_create phi Phi quad cubic dspline Phinv).
  Notation classes := (Kinds.classes phi Phi quad cubic dspline Phinv).
  Notation represents := (EnsembleProofs.represents phi Phi quad cubic dspline Phinv).
  Notation reachable := (ReachProofs.reachable phi Phi quad cubic dspline Phinv).
  Notation rep := (ReachProofs.rep phi Phi quad cubic dspline Phinv).

  Lemma layouts_equal k k' D D' z : good_kind k -> good_kind k' -> compare_dicts [kind_meta k; kind_meta k'] = Ok true ->
    concatenate_dicts [cols k D; cols k' D'] = Ok z -> kind_layout k' = kind_layout k.
  Proof.
    intros G G' Hc Hz. destruct (compare_layout k k' G G' Hc) as [E|F]; [exact E|].
    symmetry. apply family_layout; [exact F|]. destruct (family_sym k k' F) as (F1 & F2 & Fk).
    destruct (family_column k D F1) as (K0 & a0 & V0 & N0 & S0). destruct (family_column k' D' F2) as (K1 & a1 & V1 & N1 & S1).
    destruct (concat_dicts_tails _ _ _ _ a0 Hz K0 V0 N0 (cols k' D') (or_introl eq_refl)) as (a & V & S).
    rewrite <- Fk, V1 in V. injection V as <-. congruence.
  Qed.

  Lemma append_concatenate M M' a b : rep M a -> rep M' b ->
    match concatenate [a; b] with
    | Ok (Some c) => append a b = (Ok tt, c)
    | Ok None => False
    | Err _ => exists x, append a b = (Err x, a)
    end.
  Proof.
    intros (k & D & Ha & _ & Ca) (k' & D' & Hb & _ & Cb).
    pose proof (rep_npdf _ _ _ _ _ _ _ _ _ Ha) as Na. pose proof (rep_npdf _ _ _ _ _ _ _ _ _ Hb) as Nb.
    destruct Ha as (G & Hne & HD & (Hf & _) & (_ & Hm & Hd & _)). destruct Hb as (G' & Hne' & HD' & (Hf' & _) & (_ & Hm' & Hd' & _)).
    unfold concatenate, append. cbn [map]. unfold metadata, objdata. rewrite Hm, Hm', Hd, Hd', Hf.
    destruct (compare_dicts [kind_meta k; kind_meta k']) as [[]|x] eqn:Ec; cbn [bind]; try (eexists; reflexivity).
    destruct (concatenate_dicts [cols k D; cols k' D']) as [z|x] eqn:Ez; cbn [bind]; try (eexists; reflexivity).
    pose proof (layouts_equal k k' D D' z G G' Ec Ez) as El.
    assert (Hz : z = cols k (D ++ D')).
    { unfold cols in Ez. rewrite El in Ez. change [columns (kind_layout k) D; columns (kind_layout k) D'] with (map (columns (kind_layout k)) [D; D']) in Ez.
      rewrite concat_columns in Ez by (try discriminate; apply layout_nodup). injection Ez as <-. cbn [concat]. rewrite app_nil_r. reflexivity. }
    subst z. assert (HDD : List.Forall (row_fits (kind_layout k)) (D ++ D')).
    { apply Forall_app. split; [apply good_fits; auto|]. rewrite <- El. apply good_fits; auto. }
    assert (Hnn : D ++ D' <> []) by (destruct D; [congruence|discriminate]).
    assert (Ea : match ancil_list [a; b] with Some l => let* z := concatenate_dicts l in Ok (Some z) | None => Ok None end = joined_ancil (e_ancil a) (e_ancil b))
      by (cbn [ancil_list]; unfold joined_ancil; destruct (e_ancil a), (e_ancil b); reflexivity).
    rewrite Ea. clear Ea.
    destruct (joined_ancil (e_ancil a) (e_ancil b)) as [anc|x] eqn:Ej; cbn [bind]; try (eexists; reflexivity).
    rewrite squeezed_kind, cols_then_args. unfold ens_new. rewrite swap_args by auto.
    unfold update_objdata, metadata, objdata. rewrite Hm, Hd, squeezed_kind, args_then_cols, cols_overwrite, update_new, Hf.
    destruct (kind_create k (kind_args k ++ cols k (D ++ D'))) as [g|x] eqn:Eg; cbn [bind]; try (eexists; reflexivity).
    pose proof (shape_law phi Phi quad cubic dspline Phinv k (D ++ D') g G Hnn HDD Eg) as Hs. rewrite Hs, app_length, <- Na, <- Nb.
    rewrite (joined_check _ _ _ _ _ Ca Cb Ej). reflexivity.
  Qed.
End Append.
