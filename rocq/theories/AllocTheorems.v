(** The allocation announced by a class against the tables of its ensembles. *)
From Coq Require Import String List Arith ZArith Bool Lia Reals Lra.
From Verif Require Import Num NumProofs Py NdArray NumpyLib ScipyWrap Spec Values Ensemble Classes QuantPdf Alloc
  SortProofs EvalProofs InterpProofs QuantTheorems PackedTheorems Kinds EnsembleProofs KindInputs ReachProofs EnsembleTheorems.
Import ListNotations.
Local Open Scope string_scope.
Local Open Scope list_scope.
Local Open Scope R_scope.

(** ** Specification *)
(** exactly the tables of the ensemble, with [N] rows *)
Definition fits (kw : allocation) (N : nat) (e : ens R) : Prop :=
  forall key, option_map fst (vget kw key) = option_map (fun v => N :: tl (np_shape v)) (vget (objdata e) key).

(** quantiles that need no end points added, splines announced with as many rows as the ones given, sparse PDFs whose
    dimensions name the number of integers per PDF *)
Definition allocated_well (i : input) (N : nat) : Prop :=
  match i with
  | IQuant quants _ _ => nhead quants <= float_eps /\ 1 <= nlast quants
  | ISpline _ knots _ _ => N = length knots
  | ISparse _ _ _ dims n _ => nth 4 dims 0%Z = Z.of_nat n
  | _ => True
  end.

(** ** Proofs *)
Lemma shape_of_column c D j : np_shape (col_value c (map (cell_at j) D)) = length D :: match c with NumCol s | ByteCol s | TextCol s => s end.
Proof. destruct c; cbn [col_value np_shape]; unfold rows_nd; cbn [shp]; rewrite !map_length; reflexivity. Qed.
Definition layout_shape (L : layout) (N : nat) (key : string) : option (list nat) :=
  option_map (fun c => N :: match c with NumCol s | ByteCol s | TextCol s => s end) (vget L key).
Lemma columns_shape L D N key : option_map (fun v => N :: tl (np_shape v)) (vget (columns L D) key) = layout_shape L N key.
Proof.
  unfold columns, layout_shape. generalize 0%nat. induction L as [|[k c] L IH]; intros j; [reflexivity|]. cbn [columns_from vget dget].
  unfold vget in *. cbn [dget]. destruct (String.eqb key k) eqn:E; [|apply IH]. cbn [option_map]. rewrite shape_of_column. reflexivity.
Qed.
Lemma c118_allocation : forall X i s e N, fill_outside X -> input_ok i -> anc_good (input_npdf i) s ->
  ens_new (create_of (qp X) (input_name i)) (input_dict i) (anc_dict s) = Ok e ->
  exists kw, get_allocation_kwds (input_name i) N (input_dict i) = Ok kw /\ (fits kw N e <-> allocated_well i N).
Proof.
  intros X i s e N HX Hi Hs E.
  destruct (input_holds (s_phi X) (s_Phi X) (s_quad X) (s_cubic X) (s_dspline X) (s_Phinv X) HX i Hi) as (G & HD & g & Eg & Hh & Hc).
  unfold Kinds.kind_create in Eg. rewrite input_kind_name in Eg. fold (qp X) in Eg.
  assert (Ho : objdata e = cols (input_kind i) (input_rows i)).
  { unfold ens_new in E. rewrite Eg in E. cbn [bind] in E. destruct (check_array_shapes _ _); [|discriminate]. cbn [bind] in E. injection E as <-. apply Hh. }
  assert (F : forall kw, fits kw N e <-> forall key, option_map fst (vget kw key) = layout_shape (kind_layout (input_kind i)) N key).
  { intros kw. unfold fits. rewrite Ho. unfold cols. split; intros H key; specialize (H key); rewrite columns_shape in *; exact H. }
  assert (Hd : forall xs mu sig dims n codes, i = ISparse xs mu sig dims n codes -> exists a b c f m t, dims = a :: b :: c :: f :: m :: t /\ (0 <= m)%Z).
  { intros xs mu sig dims n codes ->. cbn [input_ok] in Hi. destruct Hi as (_ & _ & _ & H5 & HF & _).
    destruct dims as [|a [|b [|c [|f [|m t]]]]]; cbn [length] in H5; try lia. exists a, b, c, f, m, t. split; [reflexivity|]. rewrite Forall_forall in HF. apply HF. cbn. auto 8. }
  clear - F Hi Hd. destruct i; try (destruct (Hd _ _ _ _ _ _ eq_refl) as (da & db & dc & df & dm & dt & -> & Hdm)); clear Hd; cbn [input_name]; unfold get_allocation_kwds; cbn [String.eqb Ascii.eqb Bool.eqb input_dict required vget dget bind mapM fst snd];
    cbn [last_axis np_shape nd1 nd2 shp rev app bind dat nth_error PackedTheorems.column]; eexists; (split; [reflexivity|]); rewrite F; cbn [allocated_well input_kind kind_layout].
  - split; [auto|]. intros _ key. unfold layout_shape, vget. cbn [dget]. destruct (String.eqb key _); reflexivity.
  - split; [auto|]. intros _ key. unfold layout_shape, vget. cbn [dget]. destruct (String.eqb key _); reflexivity.
  - split; [auto|]. intros _ key. unfold layout_shape, vget. cbn [dget]. destruct (String.eqb key _); [reflexivity|]. destruct (String.eqb key _); reflexivity.
  - split; [auto|]. intros _ key. unfold layout_shape, vget. cbn [dget]. destruct (String.eqb_spec key "means") as [->|]; [reflexivity|]. destruct (String.eqb_spec key "stds") as [->|]; [reflexivity|]. destruct (String.eqb_spec key "weights") as [->|]; reflexivity.
  - assert (L : length (pad_quants quants) = length quants <-> nhead quants <= float_eps /\ 1 <= nlast quants).
    { unfold pad_quants, pad_lo, pad_hi, nltb. rewrite !app_length. destruct (nleb_reflect (nhead quants) float_eps) as [A|A]; destruct (nleb_reflect n1 (nlast quants)) as [B|B]; revert A B; numR; intros A B; cbn [negb length];
        (split; [intros H|intros [H1 H2]]); try lia; try (split; lra); exfalso; first [apply A; exact H1|apply B; exact H2]. }
    rewrite <- L. unfold layout_shape, vget. split.
    + intros H. specialize (H "locs"). cbn in H. injection H as H. symmetry. exact H.
    + intros H key. cbn [dget]. destruct (String.eqb key _); [cbn; rewrite H; reflexivity|reflexivity].
  - split; [auto|]. intros _ key. unfold layout_shape, vget. cbn [dget]. destruct (String.eqb key _); [reflexivity|]. destruct (String.eqb key _); reflexivity.
  - split.
    + intros H. specialize (H "spln"). cbn in H. injection H as H. symmetry. exact H.
    + intros -> key. unfold layout_shape, vget. cbn [dget]. do 2 (destruct (String.eqb key _); [reflexivity|]). destruct (String.eqb key _); reflexivity.
  - cbn [nth]. split.
    + intros H. specialize (H "sparse_indices"). cbn in H. injection H as H. lia.
    + intros -> key. rewrite Nat2Z.id. unfold layout_shape, vget. cbn [dget]. destruct (String.eqb key _); reflexivity.
  - split; [auto|]. intros _ key. unfold layout_shape, vget. cbn [dget]. destruct (String.eqb key _); [reflexivity|]. destruct (String.eqb key _); reflexivity.
Qed.
(** a class announces nothing without the array that gives the width *)
Definition width_key (cls : string) : option (string * exn) :=
  vget [("hist", ("bins", ValueError)); ("interp", ("xvals", ValueError)); ("interp_irregular", ("xvals", ValueError)); ("mixmod", ("means", ValueError));
        ("quant", ("quants", KeyError)); ("packed_interp", ("xvals", ValueError)); ("spline", ("splx", ValueError)); ("sparse", ("dims", ValueError))] cls.
Lemma c118_missing : forall cls key ex N (d : vdict R), width_key cls = Some (key, ex) -> vget d key = None -> get_allocation_kwds cls N d = Err ex.
Proof.
  intros cls key ex N d H Hd. unfold width_key, vget in H. cbn [dget] in H. unfold get_allocation_kwds, required.
  repeat match type of H with (if ?c then _ else _) = _ => destruct c; [injection H as <- <-; rewrite Hd; reflexivity|] end. discriminate.
Qed.

(** ** Examples *)
Definition quant1 : input := IQuant [1 / 4; 1 / 2; 3 / 4] [[0; 1; 3]; [-2; 5; 6]] "piecewise_linear".
Lemma small_eps : (float_eps : R) < 1 / 4.
Proof. unfold float_eps, nfrac. cbn [ndiv nofZ RNum]. apply Rmult_lt_reg_r with (IZR (2 ^ 52)); [apply IZR_lt; reflexivity|]. unfold Rdiv. rewrite Rmult_assoc, Rinv_l by (apply not_0_IZR; discriminate). assert (4 < IZR (2 ^ 52)) by (apply IZR_lt; reflexivity). lra. Qed.
Lemma quant1_ok : input_ok quant1.
Proof.
  split; [apply quant_input_example|]. split; [cbn; auto|]. split; [right; exact small_eps|left; cbn; lia].
Qed.
Lemma c118_example : exists e, input_ok hist0 /\ ens_new (create_of (qp scipy0) "hist") (input_dict hist0) (anc_dict table0) = Ok e /\
  exists kw, get_allocation_kwds "hist" 10 (input_dict hist0) = Ok kw /\ kw = [("pdfs", ([10; 2]%nat, Fixed "f4"))] /\ fits kw 10 e.
Proof.
  destruct (made_new scipy0 hist0 table0 scipy0_fill hist0_ok (proj1 table0_ok)) as (e & _ & E & _). exists e. split; [apply hist0_ok|]. split; [exact E|].
  destruct (c118_allocation scipy0 hist0 table0 e 10 scipy0_fill hist0_ok (proj1 table0_ok) E) as (kw & K & F). exists kw. split; [exact K|]. split; [cbn in K; injection K as <-; reflexivity|]. apply F. exact I.
Qed.
Lemma c118_quantiles : exists e kw, input_ok quant1 /\ ens_new (create_of (qp scipy0) "quant") (input_dict quant1) None = Ok e /\
  get_allocation_kwds "quant" 2 (input_dict quant1) = Ok kw /\ kw = [("locs", ([2; 3]%nat, Fixed "f4"))] /\ ~ fits kw 2 e.
Proof.
  destruct (made_new scipy0 quant1 None scipy0_fill quant1_ok I) as (e & _ & E & _).
  destruct (c118_allocation scipy0 quant1 None e 2 scipy0_fill quant1_ok I E) as (kw & K & F). exists e, kw. split; [apply quant1_ok|]. split; [exact E|]. split; [exact K|].
  split; [cbn in K; injection K as <-; reflexivity|]. rewrite F. cbn [quant1 allocated_well nhead]. intros [H _]. pose proof small_eps. revert H. unfold nhead. cbn [hd]. lra.
Qed.
Definition spline1 : input := ISpline 4 [[0; 0; 1; 1]] [[2; 0; 0; 0]] [1%nat].
Lemma spline1_ok : input_ok spline1.
Proof. cbn [spline1 input_ok]. split; [lia|]. split; [discriminate|]. split; [reflexivity|]. split; [reflexivity|]. split; [intros r [<-|[]]; reflexivity|]. split; [intros r [<-|[]]; reflexivity|]. intros k [<-|[]]. lia. Qed.
Lemma c118_splines : exists e kw, input_ok spline1 /\ ens_new (create_of (qp scipy0) "spline") (input_dict spline1) None = Ok e /\
  get_allocation_kwds "spline" 10 (input_dict spline1) = Ok kw /\ kw = [("splx", ([1; 4]%nat, Fixed "f4")); ("sply", ([1; 4]%nat, Fixed "f4")); ("spln", ([1; 1]%nat, Fixed "i4"))] /\ ~ fits kw 10 e.
Proof.
  destruct (made_new scipy0 spline1 None scipy0_fill spline1_ok I) as (e & _ & E & _).
  destruct (c118_allocation scipy0 spline1 None e 10 scipy0_fill spline1_ok I E) as (kw & K & F). exists e, kw. split; [apply spline1_ok|]. split; [exact E|]. split; [exact K|].
  split; [cbn in K; injection K as <-; reflexivity|]. rewrite F. cbn. lia.
Qed.
