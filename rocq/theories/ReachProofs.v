(** The states of an ensemble that can be reached by using qp on valid input. *)
From Coq Require Import String List Arith ZArith Bool Lia Reals Lra.
From Verif Require Import FreezeProofs Num NumProofs Py NdArray NumpyLib Utils ScipyWrap Spec Values Ensemble Classes
  HistPdf InterpPdf QuantPdf MixmodPdf Packing PackedPdf SplinePdf SplineProofs
  SortProofs BinProofs EvalProofs NdProofs InterpProofs HistProofs HistTheorems GridTheorems IrrTheorems
  QuantTheorems MixmodTheorems PackingTheorems PackedTheorems Voigt Sparse SparseTheorems Kinds KindProofs EnsembleProofs KindInputs.
Import ListNotations.
Local Open Scope string_scope.
Local Open Scope list_scope.
Local Open Scope R_scope.

(** ** Metadata determines the kind *)
Definition same_family (k k' : kind) : Prop :=
  match k, k' with KIrr _, KIrr _ => True | KMix _, KMix _ => True | KSpline _, KSpline _ => True
  | KSparse _ _ _ _ _, KSparse _ _ _ _ _ => True | _, _ => False end.
Definition width_of (k : kind) : nat := match k with KIrr n => n | KMix n => n | KSpline n => n | KSparse _ _ _ _ n => n | _ => 0 end.
Lemma family_layout k k' : same_family k k' -> width_of k = width_of k' -> kind_layout k = kind_layout k'.
Proof. destruct k, k'; simpl; intros H E; try destruct H; subst; reflexivity. Qed.
Lemma kind_meta_name k k' : kind_meta k = kind_meta k' -> kind_name k = kind_name k'.
Proof.
  intros H. apply (f_equal (fun d : vdict R => match d with (_, VTxt a) :: _ => hd "" (dat a) | _ => "" end)) in H.
  destruct k, k'; exact H.
Qed.
Lemma kind_meta_inj k k' : good_kind k -> good_kind k' -> kind_meta k = kind_meta k' -> k = k' \/ same_family k k' /\ (width_of k = width_of k' -> k = k').
Proof.
  intros G G' H. pose proof (kind_meta_name k k' H) as Hn.
  assert (P : forall i, match nth i (kind_meta k) ("", VNone) with (_, VArr a) => dat a | _ => [] end =
                        match nth i (kind_meta k') ("", VNone) with (_, VArr a) => dat a | _ => [] end) by (intros; rewrite H; reflexivity).
  assert (Q : forall i, match nth i (kind_meta k) ("", VNone) with (_, VTxt a) => dat a | _ => [] end =
                        match nth i (kind_meta k') ("", VNone) with (_, VTxt a) => dat a | _ => [] end) by (intros; rewrite H; reflexivity).
  assert (B : forall i, match nth i (kind_meta k) ("", VNone) with (_, VByt a) => dat a | _ => [] end =
                        match nth i (kind_meta k') ("", VNone) with (_, VByt a) => dat a | _ => [] end) by (intros; rewrite H; reflexivity).
  destruct k, k'; try discriminate Hn; try (right; split; [exact I|cbn [width_of]; congruence]); match goal with |- KSparse _ _ _ _ _ = _ \/ _ => idtac | _ => left end.
  - specialize (P 2%nat). simpl in P. congruence.
  - specialize (P 2%nat). simpl in P. congruence.
  - pose proof (P 2%nat) as P2. pose proof (Q 3%nat) as Q3. simpl in P2, Q3. congruence.
  - pose proof (P 2%nat) as P2. pose proof (P 3%nat) as P3. pose proof (P 4%nat) as P4. cbn [nth kind_meta kind_own_meta class_meta app kind_name add_meta v_expand_first expand_first nd1 dat] in P2, P3, P4.
    injection P3 as E3. injection P4 as E4. destruct G as (_ & _ & Gp). destruct G' as (_ & _ & Gp').
    assert (pt = pt0) by (rewrite <- (packing_of_of pt Gp), <- (packing_of_of pt0 Gp'); f_equal; exact E3). congruence.
  - right. split; [exact I|]. cbn [width_of]. intros <-. pose proof (P 2%nat) as P2. pose proof (P 3%nat) as P3. pose proof (P 4%nat) as P4. pose proof (B 5%nat) as P5.
    cbn [nth kind_meta kind_own_meta class_meta app kind_name add_meta v_expand_first expand_first nd1 dat] in P2, P3, P4, P5.
    destruct mu, sig, mu0, sig0. cbn [fst snd] in *. congruence.
  - reflexivity.
Qed.

(** ** Concatenating dictionaries needs equal trailing shapes *)
Lemma mapM_in {A B} (f : A -> res B) l r : mapM f l = Ok r -> forall x, In x l -> exists y, f x = Ok y.
Proof.
  revert r. induction l as [|a l IH]; intros r H x Hx; [destruct Hx|]. cbn [mapM] in H. destruct (f a) eqn:E; [|discriminate]. cbn [bind] in H.
  destruct (mapM f l) eqn:E2; [|discriminate]. destruct Hx as [<-|Hx]; [eauto|]. eapply IH; eauto.
Qed.
Lemma mapM_rows {A B} (f : A -> res B) l r : mapM f l = Ok r -> length r = length l.
Proof.
  revert r. induction l as [|a l IH]; intros r H; [injection H as <-; reflexivity|]. cbn [mapM] in H. destruct (f a); [|discriminate]. cbn [bind] in H.
  destruct (mapM f l); [|discriminate]. injection H as <-. simpl. f_equal. apply IH. reflexivity.
Qed.
Lemma np_concat_tails {A} (a0 : nd A) l r : np_concatenate (a0 :: l) = Ok r -> forall a, In a (a0 :: l) -> tl (shp a) = tl (shp a0).
Proof.
  unfold np_concatenate. intros H. destruct (shp a0) as [|n0 rest] eqn:E0; [discriminate|].
  destruct (forallb _ (a0 :: l)) eqn:E; [|discriminate]. intros a Ha. rewrite forallb_forall in E. specialize (E a Ha). simpl.
  destruct (shp a) as [|n s]; [discriminate|]. destruct (list_eq_dec Nat.eq_dec s rest); [|discriminate]. subst. reflexivity.
Qed.
Lemma mapM_get (d0 : vdict R) ds key vs v0 : mapM (fun d => match vget d key with Some v => Ok v | None => Err KeyError end) (d0 :: ds) = Ok vs ->
  vget d0 key = Some v0 -> exists vs', vs = v0 :: vs' /\ length vs' = length ds /\ forall i d, nth_error ds i = Some d -> exists v, nth_error vs' i = Some v /\ vget d key = Some v.
Proof.
  cbn [mapM]. intros H E. rewrite E in H. cbn [bind] in H. destruct (mapM _ ds) as [vs'|] eqn:Em; [|discriminate]. injection H as <-.
  exists vs'. split; [reflexivity|]. clear E. revert vs' Em. induction ds as [|d ds IH]; intros vs' Em.
  - injection Em as <-. split; [reflexivity|]. intros [|i] d Hd; discriminate.
  - cbn [mapM] in Em. destruct (vget d key) as [v|] eqn:Ev; [|discriminate]. cbn [bind] in Em.
    destruct (mapM _ ds) as [l|] eqn:El; [|discriminate]. injection Em as <-. destruct (IH l eq_refl) as [L H]. split; [simpl; lia|].
    intros [|i] d' Hd; [injection Hd as <-; exists v; auto|]. apply H. exact Hd.
Qed.
Lemma as_arr_inv (vs : list (value R)) l : mapM (@as_arr R) vs = Ok l -> vs = map VArr l.
Proof.
  revert l. induction vs as [|v vs IH]; intros l H; [injection H as <-; reflexivity|]. cbn [mapM] in H.
  destruct v; try discriminate. cbn [as_arr bind] in H. destruct (mapM (@as_arr R) vs) eqn:E; [|discriminate]. injection H as <-. simpl. f_equal. auto.
Qed.
Lemma as_byt_inv (vs : list (value R)) l : mapM (@as_byt R) vs = Ok l -> vs = map VByt l.
Proof.
  revert l. induction vs as [|v vs IH]; intros l H; [injection H as <-; reflexivity|]. cbn [mapM] in H.
  destruct v; try discriminate. cbn [as_byt bind] in H. destruct (mapM (@as_byt R) vs) eqn:E; [|discriminate]. injection H as <-. simpl. f_equal. auto.
Qed.
Definition numeric (v : value R) : Prop := match v with VArr _ | VByt _ => True | _ => False end.
Lemma concat_dicts_tails (d0 : vdict R) ds z key v0 : concatenate_dicts (d0 :: ds) = Ok z -> In key (keys d0) -> vget d0 key = Some v0 -> numeric v0 ->
  forall d, In d ds -> exists v, vget d key = Some v /\ tl (v_shape v) = tl (v_shape v0).
Proof.
  intros H Hk E0 Hv0 d Hd. unfold concatenate_dicts in H. destruct (check_keys (d0 :: ds)); [|discriminate]. cbn [bind] in H.
  destruct (mapM_in _ _ _ H key Hk) as (y & Hy). destruct (mapM _ (d0 :: ds)) as [vs|] eqn:Em; [|discriminate]. cbn [bind] in Hy.
  destruct (mapM_get d0 ds key vs _ Em E0) as (vs' & -> & L & Hg). destruct (v_concatenate (v0 :: vs')) as [v|] eqn:Ev; [|discriminate].
  destruct (In_nth_error _ _ Hd) as (i & Hi). destruct (Hg i d Hi) as (v1 & Hv & Hget). exists v1. split; [exact Hget|]. clear - Ev Hv Hv0.
  destruct v0 as [a0|a0| | | |]; try destruct Hv0; cbn [v_concatenate] in Ev.
  - destruct (mapM (@as_arr R) (VArr a0 :: vs')) as [l|] eqn:El; [|discriminate]. cbn [bind] in Ev.
    pose proof (as_arr_inv _ _ El) as Evs. destruct l as [|b0 l]; [discriminate|]. injection Evs as <- Evs.
    destruct (np_concatenate (a0 :: l)) as [r|] eqn:Ec; [|discriminate]. subst vs'. rewrite nth_error_map in Hv.
    destruct (nth_error l i) as [a1|] eqn:Ea; [|discriminate]. injection Hv as <-.
    cbn [v_shape]. eapply np_concat_tails; [exact Ec|]. right. eapply nth_error_In; eauto.
  - destruct (mapM (@as_byt R) (VByt a0 :: vs')) as [l|] eqn:El; [|discriminate]. cbn [bind] in Ev.
    pose proof (as_byt_inv _ _ El) as Evs. destruct l as [|b0 l]; [discriminate|]. injection Evs as <- Evs.
    destruct (np_concatenate (a0 :: l)) as [r|] eqn:Ec; [|discriminate]. subst vs'. rewrite nth_error_map in Hv.
    destruct (nth_error l i) as [a1|] eqn:Ea; [|discriminate]. injection Hv as <-.
    cbn [v_shape]. eapply np_concat_tails; [exact Ec|]. right. eapply nth_error_In; eauto.
Qed.

(** ** Ancillary columns *)
(** one entry per PDF; a single entry of any shape does for a single PDF *)
Definition one_per_pdf (n : nat) (v : value R) : Prop := (exists rest, v_shape v = n :: rest) \/ (n = 1%nat /\ v_size v = 1%nat).
Lemma check_columns_iff (d : vdict R) n : check_columns d n = Ok tt <-> forall k v, In (k, v) d -> one_per_pdf n v.
Proof.
  induction d as [|[k v] d IH]; [split; [intros _ k v []|reflexivity]|]. cbn [check_columns]. split.
  - intros H k0 v0 [E|Hin].
    + injection E as <- <-. destruct ((v_size v =? 1)%nat && (n =? 1)%nat)%bool eqn:E.
      * apply andb_prop in E. destruct E as [E1 E2]. apply Nat.eqb_eq in E1, E2. right. auto.
      * destruct (v_shape v) as [|m rest] eqn:Es; [discriminate|]. destruct (Nat.eqb_spec m n); [|discriminate]. subst. left. exists rest. exact Es.
    + apply (proj1 IH) with k0; auto. destruct (_ && _)%bool; auto. destruct (v_shape v) as [|m rest]; [discriminate|]. destruct (m =? n)%nat; [auto|discriminate].
  - intros H. assert (Hd : check_columns d n = Ok tt) by (apply (proj2 IH); intros; eapply H; right; eauto).
    destruct (H k v (or_introl eq_refl)) as [(rest & E)|(E1 & E2)].
    + rewrite E, Nat.eqb_refl. destruct (_ && _)%bool; exact Hd.
    + subst. rewrite E2, Nat.eqb_refl. cbn [Nat.eqb andb]. exact Hd.
Qed.
Lemma vset_in {V} (d : dict string V) k v k' v' : In (k', v') (vset d k v) -> v' = v \/ In (k', v') d.
Proof.
  unfold vset. induction d as [|[k0 v0] d IH]; simpl.
  - intros [E|[]]. injection E as <- <-. auto.
  - destruct (String.eqb k k0); intros [E|H].
    + injection E as <- <-. auto.
    + auto.
    + auto.
    + destruct (IH H); auto.
Qed.
Lemma vupdate_in {V} (d2 d : dict string V) k v : In (k, v) (vupdate d d2) -> (exists k', In (k', v) d2) \/ In (k, v) d.
Proof.
  unfold vupdate, dupdate. revert d. induction d2 as [|[k0 v0] d2 IH]; intros d H; [auto|]. cbn [fold_left fst snd] in H.
  destruct (IH _ H) as [(k' & Hk)|Hin]; [left; exists k'; right; auto|].
  change (In (k, v) (vset d k0 v0)) in Hin. apply vset_in in Hin. destruct Hin as [->|Hin]; [left; exists k0; left; auto|auto].
Qed.
Lemma check_update (a d : vdict R) n : check_columns a n = Ok tt -> check_columns d n = Ok tt -> check_columns (vupdate a d) n = Ok tt.
Proof.
  rewrite !check_columns_iff. intros Ha Hd k v H. apply vupdate_in in H. destruct H as [(k' & H)|H]; eauto.
Qed.

Section Reach.
  Variables (phi Phi : R -> R) (quad : list R -> list R -> R -> R -> R -> R)
            (cubic dspline : list R -> list R -> R -> R) (Phinv : R -> xnum R).
  Notation kind_create := (Kinds.kind_create phi Phi quad cubic dspline Phinv).
  Notation holds := (Kinds.holds phi Phi quad Phinv).
  Notation classes := (Kinds.classes phi Phi quad cubic dspline Phinv).
  Notation val := (Kinds.val phi Phi quad Phinv).
  Notation represents := (EnsembleProofs.represents phi Phi quad cubic dspline Phinv).

  (** [reachable M e]: the ensemble [e] was made by calls of qp on valid arguments; the
      methods [M] answer for each PDF separately. *)
  Inductive reachable : list method -> ens R -> Prop :=
  | reach_new i anc e : input_ok i ->
      ens_new (create_of classes (input_name i)) (input_dict i) anc = Ok e -> reachable (input_methods i) e
  | reach_slice M e key ps e' : reachable M e -> key_positions (e_npdf e) key = Some ps -> ps <> [] ->
      getitem classes e key = Ok e' -> reachable M e'
  | reach_concatenate M e0 es e' : reachable M e0 ->
      (forall e, In e es -> reachable M e) -> (forall e, In e es -> metadata e = metadata e0) ->
      concatenate (e0 :: es) = Ok (Some e') -> reachable M e'
  | reach_append M a b a' : reachable M a -> reachable M b -> metadata b = metadata a ->
      append a b = (Ok tt, a') -> reachable M a'
  | reach_update M e i anc e' : reachable M e -> input_ok i -> input_name i = g_name (e_obj e) ->
      update e (input_dict i) anc = (Ok tt, e') -> reachable (input_methods i) e'
  | reach_tables M e e' : reachable M e -> from_tables classes (build_tables e) = Ok e' -> reachable M e'
  | reach_set_ancil M e anc e' : reachable M e -> set_ancil e anc = (Ok tt, e') -> reachable M e'
  | reach_add_to_ancil M e d e' : reachable M e -> add_to_ancil e d = (Ok tt, e') -> reachable M e'
  | reach_gridded M e g : reachable M e -> reachable M (snd (gridded e g))
  | reach_mode M e g : reachable M e -> reachable M (snd (mode e g))
  | reach_moment M e n lo hi dx : reachable M e -> reachable M (snd (moment_partial e n lo hi dx)).

  Hypothesis Hquad : ignores_fill quad.

  Definition rep (M : list method) (e : ens R) : Prop :=
    exists k D, represents k D e /\ methods k = M /\ check_array_shapes (e_ancil e) (e_npdf e) = Ok tt.

  Lemma gridded_obj (e : ens R) g : e_func (snd (gridded e g)) = e_func e /\ e_obj (snd (gridded e g)) = e_obj e /\ e_ancil (snd (gridded e g)) = e_ancil e.
  Proof.
    unfold gridded. destruct (e_gridded e) as [[g0 v0]|]; [destruct (array_equal g0 g)|]; try destruct (ens_pdf e (PGrid g)); auto.
  Qed.
  Lemma rep_same M (e e' : ens R) : e_func e' = e_func e -> e_obj e' = e_obj e -> check_array_shapes (e_ancil e') (e_npdf e) = Ok tt -> rep M e -> rep M e'.
  Proof.
    intros Hf Ho Ha (k & D & (Hk & Hne & HD & (Hfun & Hc) & Hh) & Hm & _). exists k, D. unfold EnsembleProofs.represents, e_npdf. rewrite Hf, Ho. repeat split; auto; apply Hh; auto.
  Qed.
  Lemma new_checks f d anc (e : ens R) : ens_new f d anc = Ok e -> check_array_shapes (e_ancil e) (e_npdf e) = Ok tt.
  Proof. intros H. apply ens_new_inv in H. destruct H as (g & _ & H & ->). exact H. Qed.
  (** a successful update is the same as building the ensemble anew *)
  Lemma update_ok (e : ens R) d anc e' : update e d anc = (Ok tt, e') <-> ens_new (e_func e) d anc = Ok e'.
  Proof.
    rewrite update_new. unfold ens_new. destruct (e_func e d) as [g|]; cbn [bind]; [|split; discriminate].
    destruct (check_array_shapes anc (g_npdf g)) as [[]|]; cbn [bind]; split; intros H; try discriminate; injection H as <-; reflexivity.
  Qed.
  Lemma input_new i anc e : input_ok i -> ens_new (create_of classes (input_name i)) (input_dict i) anc = Ok e -> rep (input_methods i) e.
  Proof.
    intros Hi E. destruct (input_holds phi Phi quad cubic dspline Phinv Hquad i Hi) as (Hk & HD & g & Eg & Hg & Hc).
    pose proof (new_checks _ _ _ _ E) as Hchk. apply ens_new_inv in E. destruct E as (g' & Eg' & Ha & ->).
    exists (input_kind i), (input_rows i). split; [|split; [apply input_kind_methods|exact Hchk]].
    rewrite <- (input_kind_name i) in Eg'. unfold Kinds.kind_create in Eg. rewrite Eg in Eg'. injection Eg' as <-.
    split; [exact Hk|]. split; [apply rows_ne; auto|]. split; [exact HD|]. split; [split; [|exact Hc]|exact Hg].
    cbn [e_func]. unfold Kinds.kind_create. rewrite input_kind_name. reflexivity.
  Qed.
  Definition first_key (k : kind) : string := match k with KMix _ => "weights" | KSpline _ => "splx" | KSparse _ _ _ _ _ => "sparse_indices" | _ => "xvals" end.
  Lemma family_column k D : same_family k k -> In (first_key k) (keys (cols k D)) /\
    exists v, vget (cols k D) (first_key k) = Some v /\ numeric v /\ tl (v_shape v) = [width_of k].
  Proof. destruct k; simpl; intros H; try destruct H; (split; [auto|]); eexists; (split; [reflexivity|]); (split; [exact I|]); reflexivity. Qed.
  Lemma family_sym k k' : same_family k k' -> same_family k k /\ same_family k' k' /\ first_key k' = first_key k.
  Proof using. destruct k, k'; simpl; intros F; try destruct F; auto. Qed.
  (** equal metadata and a successful concatenation of the parameters: equal kinds *)
  Lemma kinds_equal k0 D0 (e0 : ens R) es z : represents k0 D0 e0 ->
    concatenate_dicts (map objdata (e0 :: es)) = Ok z ->
    forall e k D, In e es -> represents k D e -> metadata e = metadata e0 -> k = k0.
  Proof.
    intros (G0 & _ & _ & _ & (_ & M0 & C0 & _)) Hz e k D He (G & _ & _ & _ & (_ & M1 & C1 & _)) Hm.
    unfold metadata in Hm. rewrite M0, M1 in Hm. destruct (kind_meta_inj k k0 G G0 Hm) as [E|[F Feq]]; [exact E|].
    apply Feq. destruct (family_sym k k0 F) as (F1 & F2 & Fk).
    destruct (family_column k0 D0 F2) as (K0 & a0 & V0 & N0 & S0). destruct (family_column k D F1) as (K1 & a1 & V1 & N1 & S1).
    cbn [map] in Hz. unfold objdata at 1 in Hz. rewrite C0 in Hz.
    destruct (concat_dicts_tails _ _ _ _ a0 Hz K0 V0 N0 (objdata e) (in_map objdata _ _ He)) as (a & V & S).
    unfold objdata in V. rewrite C1, Fk, V1 in V. injection V as <-. congruence.
  Qed.
  Lemma concat_data_ok es (e' : ens R) : concatenate es = Ok (Some e') -> exists z, concatenate_dicts (map objdata es) = Ok z.
  Proof.
    unfold concatenate. destruct es as [|e0 es]; [discriminate|]. intros H. destruct (compare_dicts _) as [[]|]; try discriminate. cbn [bind] in H.
    destruct (concatenate_dicts (map objdata (e0 :: es))) as [z|]; [eauto|discriminate].
  Qed.
  Lemma concat_new es (e' : ens R) : concatenate es = Ok (Some e') -> exists f d anc, ens_new f d anc = Ok e'.
  Proof.
    unfold concatenate. destruct es as [|e0 es]; [discriminate|]. intros H. destruct (compare_dicts _) as [[]|]; try discriminate. cbn [bind] in H.
    destruct (concatenate_dicts _) as [z|]; [|discriminate]. cbn [bind] in H.
    destruct (match ancil_list (e0 :: es) with Some l => _ | None => _ end) as [anc|]; [|discriminate]. cbn [bind] in H.
    destruct (ens_new _ _ _) as [e|] eqn:E; [|discriminate]. injection H as <-. eauto.
  Qed.
  Lemma pair_data_ok (a b a' : ens R) : append a b = (Ok tt, a') -> exists z, concatenate_dicts (map objdata [a; b]) = Ok z.
  Proof.
    unfold append. cbn [map]. destruct (compare_dicts _) as [[]|]; cbn [bind]; try discriminate.
    destruct (concatenate_dicts [objdata a; objdata b]) as [z|]; cbn [bind]; [eauto|discriminate].
  Qed.
  Lemma reps_list k0 (e0 : ens R) es z D0 M : represents k0 D0 e0 -> concatenate_dicts (map objdata (e0 :: es)) = Ok z ->
    (forall e, In e es -> rep M e) -> (forall e, In e es -> metadata e = metadata e0) ->
    exists Ds, Forall2 (represents k0) Ds es.
  Proof.
    intros H0 Hz Hr Hm. assert (G : forall l, incl l es -> exists Ds, Forall2 (represents k0) Ds l).
    { induction l as [|e l IH]; intros Hi; [exists []; constructor|].
      destruct IH as (Ds & HDs); [intros x Hx; apply Hi; right; auto|].
      assert (He : In e es) by (apply Hi; left; auto). destruct (Hr e He) as (k & D & HD & _ & _).
      rewrite (kinds_equal k0 D0 e0 es z H0 Hz e k D He HD (Hm e He)) in HD. exists (D :: Ds). constructor; auto. }
    apply G. apply incl_refl.
  Qed.
  Lemma reachable_rep M e : reachable M e -> rep M e.
  Proof.
    induction 1 as [i anc e Hi E|M e key ps e' _ (k & D & HD & Hm & Hc) Hk Hps E|M e0 es e' _ (k & D & HD & Hm & Hc) _ IHes Hmeta E
                   |M a b a' _ (k & D & HD & Hm & Hc) _ IHb Hmeta E|M e i anc e' _ (k & D & HD & Hm & Hc) Hi Hname E
                   |M e e' _ (k & D & HD & Hm & Hc) E|M e anc e' _ IH E|M e d e' _ IH E|M e g _ IH|M e g _ IH|M e n lo hi dx _ IH].
    - eapply input_new; eauto.
    - rewrite (rep_npdf _ _ _ _ _ _ _ _ _ HD) in Hk.
      destruct (getitem_inv phi Phi quad cubic dspline Phinv Hquad k D e key e' HD E) as (ps' & Hk' & Hr). rewrite Hk in Hk'. injection Hk' as <-.
      exists k, (select [] D ps). split; [auto|]. split; [exact Hm|].
      rewrite (getitem_eq phi Phi quad cubic dspline Phinv k D e key ps HD Hk) in E.
      destruct (match e_ancil e with None => _ | Some a => _ end) as [anc|]; [|discriminate]. eapply new_checks; exact E.
    - destruct (concat_data_ok _ _ E) as (z & Hz). destruct (reps_list k e0 es z D M HD Hz IHes Hmeta) as (Ds & HDs).
      exists k, (concat (D :: Ds)). split; [|split; [exact Hm|]].
      + eapply (concatenate_inv phi Phi quad cubic dspline Phinv Hquad); [|constructor; eauto|exact E]. discriminate.
      + destruct (concat_new _ _ E) as (f & d & anc & En). eapply new_checks; exact En.
    - destruct (pair_data_ok a b a' E) as (z & Hz).
      destruct (reps_list k a [b] z D M HD Hz) as (Ds & HDs); [intros x [<-|[]]; auto|intros x [<-|[]]; auto|].
      inversion HDs as [|Db ? Ds' ? HDb Hnil]; subst. inversion Hnil; subst.
      rewrite (append_eq phi Phi quad cubic dspline Phinv k D Db a b HD HDb) in E.
      destruct (joined_ancil (e_ancil a) (e_ancil b)) as [anc|]; [|discriminate]. apply update_ok in E.
      exists k, (D ++ Db). split; [|split; [reflexivity|eapply new_checks; exact E]].
      pose proof HD as (G & Hne & Hall & (Hf & _) & _). pose proof HDb as (_ & _ & Hallb & _).
      rewrite Hf in E. apply (new_rep phi Phi quad cubic dspline Phinv Hquad k (D ++ Db) (kind_args k ++ cols k (D ++ Db)) anc); auto.
      + destruct D; [congruence|discriminate].
      + apply Forall_app. auto.
      + left. reflexivity.
    - apply update_ok in E. pose proof HD as (_ & _ & _ & (Hf & _) & (Hn & _)). rewrite Hf in E. unfold Kinds.kind_create in E.
      rewrite <- Hn, <- Hname in E. eapply input_new; eauto.
    - rewrite (from_tables_eq phi Phi quad cubic dspline Phinv k D e HD) in E. exists k, D. split; [|split; [exact Hm|eapply new_checks; exact E]].
      pose proof HD as (G & Hne & Hall & _ & _). eapply (new_rep phi Phi quad cubic dspline Phinv Hquad); eauto. left. reflexivity.
    - unfold set_ancil in E. destruct (check_array_shapes anc (e_npdf e)) as [[]|] eqn:Ec; [|discriminate]. injection E as <-.
      eapply rep_same; [| | |exact IH]; auto.
    - unfold add_to_ancil in E. destruct (check_columns d (e_npdf e)) as [[]|] eqn:Ec; [|discriminate].
      destruct (e_ancil e) as [a|] eqn:Ea; [|discriminate]. injection E as <-. eapply rep_same; [| | |exact IH]; auto.
      cbn [e_ancil check_array_shapes]. destruct IH as (k & D & _ & _ & Hc). rewrite Ea in Hc. cbn [check_array_shapes] in Hc.
      apply check_update; auto.
    - destruct (gridded_obj e g) as (H1 & H2 & H3). eapply rep_same; [exact H1|exact H2| |exact IH]. rewrite H3. destruct IH as (k & D & _ & _ & Hc). exact Hc.
    - assert (E : snd (mode e g) = snd (gridded e g)).
      { unfold mode. destruct (gridded e g) as [[[g0 v0]|] e1]; [destruct (length g0 =? 0)%nat|]; reflexivity. }
      rewrite E. destruct (gridded_obj e g) as (H1 & H2 & H3). eapply rep_same; [exact H1|exact H2| |exact IH]. rewrite H3. destruct IH as (k & D & _ & _ & Hc). exact Hc.
    - assert (E : snd (moment_partial e n lo hi dx) = e \/ exists g, snd (moment_partial e n lo hi dx) = snd (gridded e g)).
      { unfold moment_partial. destruct (_ <? 0)%Z; [left; reflexivity|right]. exists (np_linspace lo hi (Z.to_nat (int_trunc (ndiv (nsub hi lo) dx)))).
        destruct (gridded e _) as [[[g0 v0]|] e1]; reflexivity. }
      destruct E as [->|(g & ->)]; [exact IH|].
      destruct (gridded_obj e g) as (H1 & H2 & H3). eapply rep_same; [exact H1|exact H2| |exact IH]. rewrite H3. destruct IH as (k & D & _ & _ & Hc). exact Hc.
  Qed.

  (** *** Append and concatenate, also when the metadata only agree within a tolerance *)
  Lemma match_names (n n' : string) : v_match (VTxt (nd1 [n]) : value R) (VTxt (nd1 [n'])) = Ok (String.eqb n n').
  Proof. cbn [v_match]. unfold pairs_of, nd1. cbn [shp dat length]. destruct (list_eq_dec Nat.eq_dec [1%nat] [1%nat]) as [_|]; [|congruence]. reflexivity. Qed.
  Lemma compare_pair (d d' : vdict R) : compare_dicts [d; d'] = Ok true -> compare_items d d' = Ok true.
  Proof.
    unfold compare_dicts, compare_all, compare_two_dicts. destruct (same_keys d d'); cbn [bind]; [|discriminate].
    destruct (compare_items d d') as [[]|]; cbn [bind]; try discriminate. auto.
  Qed.
  Lemma compare_item (d d' : vdict R) k v : compare_items d d' = Ok true -> In (k, v) d -> exists v', vget d' k = Some v' /\ v_match v v' = Ok true.
  Proof.
    induction d as [|[k0 v0] d IH]; intros H Hin; [destruct Hin|]. cbn [compare_items] in H. destruct (vget d' k0) as [vv|] eqn:E; [|discriminate].
    destruct (v_match v0 vv) as [[]|] eqn:Em; cbn [bind] in H; try discriminate. destruct Hin as [E1|Hin]; [injection E1 as <- <-; eauto|auto].
  Qed.
  Lemma match_grids (l l' : list R) : (2 <= length l)%nat -> (2 <= length l')%nat ->
    v_match (v_expand_first (VArr (nd1 l))) (v_expand_first (VArr (nd1 l'))) = Ok true -> length l = length l'.
  Proof.
    intros H H'. cbn [v_expand_first v_match]. unfold pairs_of, expand_first, nd1. cbn [shp dat].
    destruct (list_eq_dec Nat.eq_dec [1%nat; length l] [1%nat; length l']) as [E|_]; [congruence|].
    destruct l as [|x [|y l]]; simpl in H; try lia. destruct l' as [|x' [|y' l']]; simpl in H'; try lia. discriminate.
  Qed.
  Lemma compare_layout k k' : good_kind k -> good_kind k' -> compare_dicts [kind_meta k; kind_meta k'] = Ok true ->
    kind_layout k' = kind_layout k \/ same_family k k'.
  Proof.
    intros G G' H. apply compare_pair in H.
    assert (Hn : kind_name k = kind_name k').
    { destruct (compare_item _ _ "pdf_name" (VTxt (nd1 [kind_name k])) H) as (v' & Hv & Hm); [left; reflexivity|].
      change (vget (kind_meta k') "pdf_name") with (Some (VTxt (nd1 [kind_name k']) : value R)) in Hv. injection Hv as <-.
      rewrite match_names in Hm. injection Hm as Hm. apply String.eqb_eq in Hm. exact Hm. }
    destruct k, k'; try discriminate Hn; try (right; exact I); left; cbn [kind_layout]; unfold good_kind in G, G'.
    - destruct (compare_item _ _ "bins" (v_expand_first (VArr (nd1 bins))) H) as (v' & Hv & Hm); [right; right; left; reflexivity|].
      injection Hv as <-. apply match_grids in Hm; [|lia|lia]. rewrite Hm. reflexivity.
    - destruct (compare_item _ _ "xvals" (v_expand_first (VArr (nd1 xs))) H) as (v' & Hv & Hm); [right; right; left; reflexivity|].
      injection Hv as <-. apply match_grids in Hm; [|lia|lia]. rewrite Hm. reflexivity.
    - destruct (compare_item _ _ "quants" (v_expand_first (VArr (nd1 quants))) H) as (v' & Hv & Hm); [right; right; left; reflexivity|].
      injection Hv as <-. apply match_grids in Hm; [|lia|lia]. rewrite Hm. reflexivity.
    - destruct (compare_item _ _ "xvals" (v_expand_first (VArr (nd1 xs))) H) as (v' & Hv & Hm); [right; right; left; reflexivity|].
      injection Hv as <-. apply match_grids in Hm; [|lia|lia]. rewrite Hm. reflexivity.
    - reflexivity.
  Qed.

  (** the constructors make one PDF per row, whatever the numbers *)
  Lemma shape_law k D g : good_kind k -> D <> [] -> List.Forall (row_fits (kind_layout k)) D ->
    kind_create k (kind_args k ++ cols k D) = Ok g -> g_npdf g = length D.
  Proof.
    intros G Hne HD. rewrite Forall_forall in HD. assert (P1 : prod [length D] = length D) by (unfold prod; simpl; lia).
    assert (W : forall j w n d, nth_error (kind_layout k) j = Some (n, NumCol [w]) -> In d D -> length (nums (cell_at j d)) = w).
    { intros j w n d E Hd. exact (row_fits_num _ j w d n (HD d Hd) E). }
    assert (Wb : forall j w n d, nth_error (kind_layout k) j = Some (n, ByteCol [w]) -> In d D -> length (bytes (cell_at j d)) = w).
    { intros j w n d E Hd. exact (row_fits_byte _ j w d n (HD d Hd) E). }
    destruct k; unfold Kinds.kind_create, kind_args, cols, columns; unfold good_kind in G;
      cbn [kind_own_meta map fst snd add_meta v_expand_first v_squeeze kind_layout columns_from col_value app] in *;
      rewrite ?squeeze_grid by (cbn [length]; lia); rewrite ?squeeze_single, ?map_map.
    - change (create_of _ (kind_name (KHist bins))) with (@hist_create R _). rewrite (hist_create_eq bins _ _ (or_introl eq_refl)).
      change (rows_nd [pred (length bins)]) with (@nd2 R (pred (length bins))). rewrite hist_build.
      + intros H. injection H as <-. unfold g_npdf. cbn [hist_obj g_shape h_shape]. rewrite map_length. exact P1.
      + intros l Hl. apply in_map_iff in Hl. destruct Hl as (d & <- & Hd). apply (W 0%nat _ "pdfs"); auto.
    - change (create_of _ (kind_name (KInterp xs))) with (@interp_create R _). rewrite (interp_create_eq xs _ _ (or_introl eq_refl)).
      change (rows_nd [length xs]) with (@nd2 R (length xs)). rewrite interp_build; [|lia|].
      + intros H. injection H as <-. unfold g_npdf. cbn [interp_obj g_shape i_shape]. rewrite map_length. exact P1.
      + intros l Hl. apply in_map_iff in Hl. destruct Hl as (d & <- & Hd). apply (W 0%nat _ "yvals"); auto.
    - change (create_of _ (kind_name (KIrr n))) with (@irr_create R _). change (rows_nd [n]) with (@nd2 R n).
      rewrite (irr_create_eq n (map (fun x => nums (cell_at 0 x)) D) (map (fun x => nums (cell_at 1 x)) D) _ G)
        by (try reflexivity; try (destruct D; [congruence|discriminate]);
        intros l Hl; apply in_map_iff in Hl; destruct Hl as (d & <- & Hd); apply (W 0%nat _ "xvals"); auto).
      rewrite irr_build.
      2: exact G.
      2: rewrite !map_length; reflexivity.
      2: intros l Hl; apply in_map_iff in Hl; destruct Hl as (d & <- & Hd); apply (W 0%nat _ "xvals"); auto.
      2: intros l Hl; apply in_map_iff in Hl; destruct Hl as (d & <- & Hd); apply (W 1%nat _ "yvals"); auto.
      intros H. injection H as <-. unfold g_npdf. cbn [irr_obj g_shape r_shape]. rewrite map_length. exact P1.
    - change (create_of _ (kind_name (KMix k))) with (@mixmod_create R _ phi Phi). change (rows_nd [k]) with (@nd2 R k).
      rewrite (mix_create_eq phi Phi k _ _ _ _ eq_refl).
      destruct (mixmod_ctor _ _ _) as [o|] eqn:Eo; [|discriminate]. cbn [bind]. intros H. injection H as <-. unfold g_npdf. cbn [mixmod_obj g_shape].
      destruct (mixmod_count _ _ _ _ Eo) as [_ ->]. cbn [nd2 shp removelast]. rewrite map_length. exact P1.
    - destruct G as (_ & Hn & H0 & H1 & Hnm). change (create_of _ (kind_name (KQuant quants name))) with (@quant_create R _ quad cubic dspline).
      change (rows_nd [length quants]) with (@nd2 R (length quants)).
      assert (Hl : forall l, In l (map (fun x => nums (cell_at 0 x)) D) -> length l = length quants).
      { intros l Hl. apply in_map_iff in Hl. destruct Hl as (d & <- & Hd). apply (W 0%nat _ "locs"); auto. }
      assert (Hdat : length (dat (nd2 (length quants) (map (fun x => nums (cell_at 0 x)) D))) <> 0%nat).
      { destruct D as [|d0 D0]; [congruence|]. cbn [nd2 dat concat map]. rewrite app_length, (Hl (nums (cell_at 0 d0))) by (left; auto). lia. }
      rewrite (quant_create_eq quad cubic dspline quants name _ _ Hdat (or_introl eq_refl)).
      destruct (quant_build_padded quants (map (fun x => nums (cell_at 0 x)) D) name Hn ltac:(destruct D; [congruence|discriminate]) H0 H1 Hnm Hl) as (lo & hi & ->). cbn [bind].
      intros H. injection H as <-. unfold g_npdf. cbn [quant_obj g_shape q_shape]. rewrite map_length. exact P1.
    - destruct G as (_ & Hn & Hp). change (create_of _ (kind_name (KPacked xs pt lf))) with (@packed_create R _ pow10R).
      match goal with |- packed_create _ [_; _; _; (_, VByt ?yp); (_, VArr ?ym)] = _ -> _ => rewrite (packed_create_eq xs yp ym pt lf _ Hp) end.
      2:{ do 2 eexists. split; [right; reflexivity|split; [right; reflexivity|]]. left. reflexivity. }
      destruct (packed_ctor _ _ _ _ _ _ _) as [o|]; [|discriminate]. cbn [bind]. intros H. injection H as <-. unfold g_npdf.
      cbn [packed_obj g_shape rows_nd shp removelast]. rewrite map_length. exact P1.
    - change (create_of _ (kind_name (KSpline n))) with (@spline_create R _). change (rows_nd [n]) with (@nd2 R n). change (rows_nd [1%nat]) with (@nd2 R 1).
      rewrite (spline_create_eq n 1 _ _ _ _ eq_refl).
      rewrite spline_build.
      2: exact G.
      2: destruct D; [congruence|discriminate].
      2: rewrite !map_length; reflexivity.
      2: intros l Hl; apply in_map_iff in Hl; destruct Hl as (d & <- & Hd); apply (W 0%nat _ "splx"); auto.
      2: intros l Hl; apply in_map_iff in Hl; destruct Hl as (d & <- & Hd); apply (W 1%nat _ "sply"); auto.
      2: intros l Hl; apply in_map_iff in Hl; destruct Hl as (d & <- & Hd); apply (W 2%nat _ "spln"); auto.
      intros H. injection H as <-. unfold g_npdf. cbn [spline_obj g_shape sp_shape]. rewrite map_length. exact P1.
    - destruct G as (_ & _ & Hn & H3 & HF). change (create_of _ (kind_name (KSparse xs mu sig dims n))) with (@sparse_create R _ voigtR R_sqrt.sqrt).
      change (rows_nd [n]) with (@nd2 Z n).
      assert (Hcs : forall c, In c (map (fun x => bytes (cell_at 0 x)) D) -> length c = n).
      { intros c Hc. apply in_map_iff in Hc. destruct Hc as (d & <- & Hd). apply (Wb 0%nat _ "sparse_indices"); auto. }
      rewrite (sparse_create_eq voigtR R_sqrt.sqrt xs mu sig dims n (map (fun x => bytes (cell_at 0 x)) D) _ H3 HF Hn); [|destruct D; [congruence|discriminate]|exact Hcs|left; reflexivity].
      unfold sparse_ctor. destruct (mapM _ _) as [ys|] eqn:Em; [|discriminate]. cbn [bind]. pose proof (mapM_rows _ _ _ Em) as Lm. rewrite map_length in Lm.
      destruct (interp_ctor _ _ _) as [o|] eqn:Eo; [|discriminate]. cbn [bind]. intros H. injection H as <-. unfold g_npdf. cbn [sparse_obj g_shape].
      destruct (interp_ctor_count _ _ _ _ Eo) as [_ ->]. cbn [nd2 shp removelast]. rewrite map_length, Lm. exact P1.
    - unfold create_of. cbn [kind_name]. change (Kinds.classes phi Phi quad cubic dspline Phinv "norm") with (Some (wrap_create "norm" [] (norm_pdf phi) (norm_cdf Phi) (norm_ppf Phinv))).
      unfold wrap_create. unfold wrap_shape. cbn [forallb snd v_shape rows_nd shp]. rewrite !map_length.
      destruct (list_eq_dec Nat.eq_dec [length D; 1%nat] [length D; 1%nat]) as [_|]; [|congruence]. cbn [bind andb removelast].
      destruct (negb _); [discriminate|]. intros H. injection H as <-. exact P1.
  Qed.
End Reach.
