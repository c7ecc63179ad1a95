(** Freezing: the number of PDFs and the shape of the frozen object. *)
From Coq Require Import String List Arith ZArith Bool Lia.
From Verif Require Import Num Py NdArray NumpyLib Utils ScipyWrap HistPdf InterpPdf MixmodPdf QuantPdf Packing PackedPdf SplinePdf.
Import ListNotations.

Lemma chunks_count {A} n k (l : list A) : length (chunks n k l) = n.
Proof. revert l. induction n; intros l; simpl; auto. Qed.
Lemma map2_count {A B C} (f : A -> B -> C) l l' : length (map2 f l l') = Nat.min (length l) (length l').
Proof. revert l'. induction l; intros [|b l']; simpl; auto. Qed.
Lemma reshape_rows_count {A} (a b : nd A) : reshape_to_pdf_size a = Ok b -> length (rows_of b) = prod (removelast (shp a)).
Proof.
  unfold reshape_to_pdf_size, np_reshape. destruct (Nat.eqb _ _); [|discriminate]. intros E. injection E as <-.
  unfold rows_of. cbn [shp]. apply chunks_count.
Qed.
Lemma prod_single n : prod [n] = n.
Proof. unfold prod. simpl. lia. Qed.

Section Freeze.
  Context {T : Type} {N : Num T}.

  Lemma hist_init_count bins p chk (h : hist T) : hist_init bins p chk = Ok h ->
    h_npdf h = prod (h_shape h) /\ h_shape h = removelast (shp p).
  Proof.
    unfold hist_init. destruct (negb _); [discriminate|]. destruct (reshape_to_pdf_size p) as [p2|] eqn:E; [|discriminate].
    cbn [bind]. intros H. injection H as <-. unfold h_npdf. cbn [h_pdfs h_shape]. split; auto. rewrite <- (reshape_rows_count _ _ E).
    destruct chk; rewrite ?map_length; reflexivity.
  Qed.
  Lemma hist_frozen (h f : hist T) : hist_freeze h = Ok f -> h_shape f = h_shape h /\ h_npdf f = h_npdf h /\
    forall s, hist_freeze (mkhist (h_bins h) (h_pdfs h) s) = Ok (mkhist (h_bins f) (h_pdfs f) s).
  Proof.
    unfold hist_freeze. cbn [h_bins h_pdfs h_shape]. destruct (hist_init _ _ true) as [g|] eqn:E; [|discriminate]. cbn [bind].
    intros H. injection H as <-. destruct (hist_init_count _ _ _ _ E) as [H1 H2]. rewrite H2 in H1. cbn [nd2 shp removelast] in H1. rewrite prod_single in H1.
    repeat split; auto.
  Qed.
  Lemma hist_count bins p chk (h : hist T) : hist_ctor bins p chk = Ok h -> h_npdf h = prod (h_shape h) /\ h_shape h = removelast (shp p).
  Proof.
    unfold hist_ctor. destruct (hist_init bins p chk) as [g|] eqn:E; [|discriminate]. cbn [bind]. intros H.
    destruct (hist_init_count _ _ _ _ E) as [H1 H2]. destruct (hist_frozen _ _ H) as (F1 & F2 & _). rewrite F1, F2. auto.
  Qed.

  Lemma interp_init_count xs p chk (i : interp T) : interp_init xs p chk = Ok i ->
    i_npdf i = prod (i_shape i) /\ i_shape i = removelast (shp p) /\ i_xvals i = xs.
  Proof.
    unfold interp_init. destruct (negb _); [discriminate|]. destruct (Nat.eqb (length xs) 0); [discriminate|]. destruct (reshape_to_pdf_size p) as [p2|] eqn:E; [|discriminate].
    cbn [bind]. destruct chk; [destruct (Nat.eqb (length xs) 1); [discriminate|]|]; intros H; injection H as <-; unfold i_npdf; cbn [i_yvals i_shape i_xvals]; (split; [|auto]);
      rewrite <- (reshape_rows_count _ _ E); [rewrite map2_count, map_length, Nat.min_id|]; reflexivity.
  Qed.
  Lemma interp_init_two xs p (i : interp T) : interp_init xs p true = Ok i -> 2 <= length xs.
  Proof.
    unfold interp_init. destruct (negb _); [discriminate|]. destruct (Nat.eqb_spec (length xs) 0); [discriminate|]. destruct (reshape_to_pdf_size p); [|discriminate].
    cbn [bind]. destruct (Nat.eqb_spec (length xs) 1); [discriminate|]. lia.
  Qed.
  Lemma interp_frozen (i f : interp T) : interp_freeze i = Ok f -> i_shape f = i_shape i /\ i_npdf f = i_npdf i /\ i_xvals f = i_xvals i /\
    forall s c, interp_freeze (mkinterp (i_xvals i) (i_yvals i) c s) = Ok (mkinterp (i_xvals f) (i_yvals f) (i_cumul f) s).
  Proof.
    unfold interp_freeze. cbn [i_xvals i_yvals i_shape]. destruct (interp_init _ _ true) as [g|] eqn:E; [|discriminate]. cbn [bind].
    intros H. injection H as <-. destruct (interp_init_count _ _ _ _ E) as (H1 & H2 & H3). rewrite H2 in H1. cbn [nd2 shp removelast] in H1. rewrite prod_single in H1.
    repeat split; auto.
  Qed.
  Lemma interp_ctor_two xs p chk (i : interp T) : interp_ctor xs p chk = Ok i -> 2 <= length xs.
  Proof.
    unfold interp_ctor. destruct (interp_init xs p chk) as [g|] eqn:E; [|discriminate]. cbn [bind]. unfold interp_freeze.
    destruct (interp_init_count _ _ _ _ E) as (_ & _ & ->). destruct (interp_init xs _ true) as [f|] eqn:F; [|discriminate]. intros _. exact (interp_init_two _ _ _ F).
  Qed.
  Lemma interp_ctor_count xs p chk (i : interp T) : interp_ctor xs p chk = Ok i -> i_npdf i = prod (i_shape i) /\ i_shape i = removelast (shp p).
  Proof.
    unfold interp_ctor. destruct (interp_init xs p chk) as [g|] eqn:E; [|discriminate]. cbn [bind]. intros H.
    destruct (interp_init_count _ _ _ _ E) as (H1 & H2 & _). destruct (interp_frozen _ _ H) as (F1 & F2 & _). rewrite F1, F2. auto.
  Qed.

  Lemma irr_init_count x y chk (i : irregular T) : irr_init x y chk = Ok i ->
    r_npdf i = prod (r_shape i) /\ r_shape i = removelast (shp x) /\ length (r_xvals i) = prod (r_shape i).
  Proof.
    unfold irr_init. destruct (list_eq_dec Nat.eq_dec (shp x) (shp y)) as [Es|]; [|discriminate].
    destruct (reshape_to_pdf_size x) as [x2|] eqn:Ex; [|discriminate]. cbn [bind]. destruct (reshape_to_pdf_size y) as [y2|] eqn:Ey; [|discriminate]. cbn [bind].
    intros H. injection H as <-. unfold r_npdf. cbn [r_xvals r_yvals r_shape].
    pose proof (reshape_rows_count _ _ Ex) as L1. pose proof (reshape_rows_count _ _ Ey) as L2. rewrite <- Es in L2.
    repeat split; auto. destruct chk; rewrite ?map2_count, ?L1, ?L2, ?Nat.min_id; reflexivity.
  Qed.
  Lemma irr_frozen k (i f : irregular T) : irr_freeze k i = Ok f -> length (r_xvals i) = length (r_yvals i) -> r_shape f = r_shape i /\ r_npdf f = r_npdf i /\
    forall s, irr_freeze k (mkirr (r_xvals i) (r_yvals i) s) = Ok (mkirr (r_xvals f) (r_yvals f) s).
  Proof.
    unfold irr_freeze. cbn [r_xvals r_yvals r_shape]. destruct (irr_init _ _ true) as [g|] eqn:E; [|discriminate]. cbn [bind].
    intros H L. injection H as <-. destruct (irr_init_count _ _ _ _ E) as (H1 & H2 & H3). rewrite H2 in H1. cbn [nd2 shp removelast] in H1. rewrite prod_single in H1.
    repeat split; auto. cbn [r_shape]. unfold r_npdf in *. cbn [r_yvals]. congruence.
  Qed.
  Lemma irr_count x y chk (i : irregular T) : irr_ctor x y chk = Ok i -> r_npdf i = prod (r_shape i) /\ r_shape i = removelast (shp x).
  Proof.
    unfold irr_ctor. destruct (irr_init x y chk) as [g|] eqn:E; [|discriminate]. cbn [bind]. intros H.
    destruct (irr_init_count _ _ _ _ E) as (H1 & H2 & H3). destruct (irr_frozen _ _ _ H) as (F1 & F2 & _); [unfold r_npdf in H1; congruence|]. rewrite F1, F2. auto.
  Qed.

  Lemma mixmod_init_count a b c (m : mixmod T) : mixmod_init a b c = Ok m -> m_npdf m = prod (m_shape m) /\ m_shape m = removelast (shp a).
  Proof.
    unfold mixmod_init. destruct (reshape_to_pdf_size a) as [a2|] eqn:E; [|discriminate]. cbn [bind].
    destruct (reshape_to_pdf_size b) as [b2|]; [|discriminate]. cbn [bind]. destruct (reshape_to_pdf_size c) as [c2|]; [|discriminate]. cbn [bind].
    destruct (existsb _ _); [discriminate|]. intros H. injection H as <-. unfold m_npdf. cbn [m_means m_shape]. split; auto. apply (reshape_rows_count _ _ E).
  Qed.
  Lemma mixmod_frozen k (m f : mixmod T) : mixmod_freeze k m = Ok f -> m_shape f = m_shape m /\ m_npdf f = m_npdf m /\
    forall s, mixmod_freeze k (mkmixmod (m_means m) (m_stds m) (m_weights m) s) = Ok (mkmixmod (m_means f) (m_stds f) (m_weights f) s).
  Proof.
    unfold mixmod_freeze. cbn [m_means m_stds m_weights m_shape]. destruct (mixmod_init _ _ _) as [g|] eqn:E; [|discriminate]. cbn [bind].
    intros H. injection H as <-. destruct (mixmod_init_count _ _ _ _ E) as (H1 & H2). rewrite H2 in H1. cbn [nd2 shp removelast] in H1. rewrite prod_single in H1.
    repeat split; auto.
  Qed.
  Lemma mixmod_count a b c (m : mixmod T) : mixmod_ctor a b c = Ok m -> m_npdf m = prod (m_shape m) /\ m_shape m = removelast (shp a).
  Proof.
    unfold mixmod_ctor. destruct (mixmod_init a b c) as [g|] eqn:E; [|discriminate]. cbn [bind]. intros H.
    destruct (mixmod_init_count _ _ _ _ E) as (H1 & H2). destruct (mixmod_frozen _ _ _ H) as (F1 & F2 & _). rewrite F1, F2. auto.
  Qed.

  Lemma quant_init_count qs p chk name (q : quant T) : quant_init qs p chk name = Ok q -> q_npdf q = prod (q_shape q) /\ q_shape q = removelast (shp p).
  Proof.
    unfold quant_init. destruct (reshape_to_pdf_size p) as [p2|] eqn:E; [|discriminate]. cbn [bind].
    destruct (_ =? 0)%nat; [discriminate|]. destruct (chk && _ && _)%bool; [discriminate|]. destruct (negb _); [discriminate|]. destruct (negb _); [discriminate|].
    intros H. injection H as <-. unfold q_npdf. cbn [q_locs q_shape]. split; auto. rewrite <- (reshape_rows_count _ _ E). destruct chk; rewrite ?map_length; reflexivity.
  Qed.
  Lemma quant_frozen (q f : quant T) : quant_freeze q = Ok f -> q_shape f = q_shape q /\ q_npdf f = q_npdf q /\
    forall s lo hi, quant_freeze (mkquant (q_quants q) (q_locs q) lo hi (q_ctor_name q) (q_check q) s) =
      Ok (mkquant (q_quants f) (q_locs f) (q_xmin f) (q_xmax f) (q_ctor_name f) (q_check f) s).
  Proof.
    unfold quant_freeze. cbn [q_quants q_locs q_shape q_check q_ctor_name]. destruct (quant_init _ _ _ _) as [g|] eqn:E; [|discriminate]. cbn [bind].
    intros H. injection H as <-. destruct (quant_init_count _ _ _ _ _ E) as (H1 & H2). rewrite H2 in H1. cbn [nd2 shp removelast] in H1. rewrite prod_single in H1.
    repeat split; auto.
  Qed.
  Lemma quant_count qs p chk name (q : quant T) : quant_ctor qs p chk name = Ok q -> q_npdf q = prod (q_shape q) /\ q_shape q = removelast (shp p).
  Proof.
    unfold quant_ctor. destruct (quant_init qs p chk name) as [g|] eqn:E; [|discriminate]. cbn [bind]. intros H.
    destruct (quant_init_count _ _ _ _ _ E) as (H1 & H2). destruct (quant_frozen _ _ H) as (F1 & F2 & _). rewrite F1, F2. auto.
  Qed.

  Lemma packed_init_count pow10 xs yp ym pt lf chk (k : packed T) : packed_init pow10 xs yp ym pt lf chk = Ok k ->
    k_npdf k = prod (i_shape (k_table k)) /\ i_shape (k_table k) = removelast (shp yp) /\ length (k_packed k) = k_npdf k.
  Proof.
    unfold packed_init. destruct (negb _); [discriminate|]. destruct (reshape_to_pdf_size ym) as [m2|]; [|discriminate]. cbn [bind].
    destruct (reshape_to_pdf_size yp) as [p2|] eqn:E; [|discriminate]. cbn [bind]. destruct (negb _); [discriminate|].
    destruct (unpack_array _ _ _ _ _) as [ys|]; [|discriminate]. cbn [bind]. destruct (interp_init _ _ _) as [t|] eqn:Et; [|discriminate]. cbn [bind].
    intros H. injection H as <-. cbn [k_table k_packed]. unfold k_npdf. cbn [k_table]. destruct (interp_init_count _ _ _ _ Et) as (H1 & H2 & _). cbn [shp] in H2.
    rewrite (reshape_rows_count _ _ E). repeat split; auto. rewrite H1, H2. reflexivity.
  Qed.
  Lemma packed_frozen pow10 (k f : packed T) : packed_freeze pow10 k = Ok f -> length (k_packed k) = k_npdf k ->
    i_shape (k_table f) = i_shape (k_table k) /\ k_npdf f = k_npdf k.
  Proof.
    unfold packed_freeze. destruct (packed_init _ _ _ _ _ _ _) as [g|] eqn:E; [|discriminate]. cbn [bind]. intros H L. injection H as <-.
    destruct (packed_init_count _ _ _ _ _ _ _ _ E) as (H1 & H2 & H3). rewrite H2 in H1. cbn [nd2 shp removelast] in H1. rewrite prod_single in H1.
    cbn [k_table i_shape]. split; auto. rewrite <- L, <- H1. reflexivity.
  Qed.
  Lemma packed_count pow10 xs yp ym pt lf chk (k : packed T) : packed_ctor pow10 xs yp ym pt lf chk = Ok k ->
    k_npdf k = prod (i_shape (k_table k)) /\ i_shape (k_table k) = removelast (shp yp).
  Proof.
    unfold packed_ctor. destruct (packed_init _ _ _ _ _ _ _) as [g|] eqn:E; [|discriminate]. cbn [bind]. intros H.
    destruct (packed_init_count _ _ _ _ _ _ _ _ E) as (H1 & H2 & H3). destruct (packed_frozen _ _ _ H H3) as (F1 & F2). rewrite F1, F2. auto.
  Qed.

  Lemma spline_init_count a b c (s : spline T) : spline_init a b c = Ok s -> sp_npdf s = prod (sp_shape s) /\ sp_shape s = removelast (shp a).
  Proof.
    unfold spline_init. destruct (negb _); [discriminate|]. destruct (Nat.eqb _ 0); [discriminate|].
    destruct (reshape_to_pdf_size a) as [a2|] eqn:E; [|discriminate]. cbn [bind].
    destruct (reshape_to_pdf_size b) as [b2|]; [|discriminate]. cbn [bind]. destruct (reshape_to_pdf_size c) as [c2|]; [|discriminate]. cbn [bind].
    intros H. injection H as <-. unfold sp_npdf. cbn [sp_x sp_shape]. split; auto. apply (reshape_rows_count _ _ E).
  Qed.
  Lemma spline_count a b c (s : spline T) : spline_ctor a b c = Ok s -> sp_npdf s = prod (sp_shape s) /\ sp_shape s = removelast (shp a).
  Proof.
    unfold spline_ctor. destruct (spline_init a b c) as [g|] eqn:E; [|discriminate]. cbn [bind]. unfold spline_freeze.
    destruct (spline_init _ _ _) as [f|] eqn:F in |- *; [|discriminate]. cbn [bind]. intros H. injection H as <-.
    destruct (spline_init_count _ _ _ _ E) as (H1 & H2). destruct (spline_init_count _ _ _ _ F) as (G1 & G2). rewrite G2 in G1. cbn [nd2 shp removelast] in G1. rewrite prod_single in G1.
    cbn [sp_shape]. split; auto. rewrite <- H1. exact G1.
  Qed.
End Freeze.
