(** Conversions: C33 (the entry points), C34, C35. *)
From Coq Require Import String List Arith ZArith Bool Lia Reals Lra.
From Coquelicot Require Import Coquelicot.
From Verif Require Import Num NumProofs Py NdArray NumpyLib Utils ScipyWrap Spec Values Ensemble Classes
  HistPdf InterpPdf QuantPdf MixmodPdf Packing PackedPdf Registry RegistryTheorems Convert
  SortProofs BinProofs EvalProofs NdProofs InterpProofs HistProofs HistTheorems TableProofs InterpPdfProofs GridTheorems IrrTheorems
  QuantTheorems MixmodTheorems PackingTheorems PackedTheorems Voigt Kinds KindProofs EnsembleProofs KindInputs ReachProofs AppendProofs EnsembleTheorems
  RowProofs IntegrateTheorems.
Import ListNotations.
Local Open Scope string_scope.
Local Open Scope list_scope.
Local Open Scope R_scope.

(** ** The entry points *)
Lemma c33_no_extraction : forall (H : hierarchy (mfunc (T := R))) w e name c kw m,
  dget String.eqb (w_registry w) name = Some c -> method_key kw = Ok m -> method_of H w Extraction c m = None ->
  factory_convert H w e name kw = Err KeyError /\ convert_to H w e c kw = Err KeyError.
Proof.
  intros H w e name c kw m Hc Hm Hx. unfold factory_convert, convert_to. rewrite Hc, Hm. cbn [bind]. rewrite Hx. split; [reflexivity|].
  destruct (method_of H w Creation c m); reflexivity.
Qed.
Lemma c33_no_class : forall (H : hierarchy (mfunc (T := R))) w e name kw,
  dget String.eqb (w_registry w) name = None -> factory_convert H w e name kw = Err KeyError.
Proof. intros H w e name kw Hc. unfold factory_convert. rewrite Hc. reflexivity. Qed.

Lemma c35_agree : forall (H : hierarchy (mfunc (T := R))) w e name c kw,
  dget String.eqb (w_registry w) name = Some c ->
  (forall m, method_key kw = Ok m -> method_of H w Creation c m <> None) ->
  factory_convert H w e name kw = convert_to H w e c kw.
Proof.
  intros H w e name c kw Hc Hm. unfold factory_convert, convert_to. rewrite Hc. destruct (method_key kw) as [m|]; [|reflexivity]. cbn [bind].
  specialize (Hm m eq_refl). destruct (method_of H w Creation c m) as [f|] eqn:Ef; [|congruence].
  destruct (method_of H w Extraction c m) as [x|]; [|reflexivity].
  destruct (call_extract x e (vremove kw "method")) as [data|]; [|reflexivity]. cbn [bind].
  unfold factory_create. rewrite Hc, Ef. reflexivity.
Qed.
(** a class that registers a default creation function, as all classes of qp do *)
Lemma c35_agree_default : forall (H : hierarchy (mfunc (T := R))) l c w l' name e kw, mro_ok H ->
  w = snd (add_class H (acts H (start _) l) c) -> fst (add_class H (acts H (start _) l) c) = Ok tt -> orderly H w l' ->
  h_name H c = Some name -> (exists r, In r (h_mappings H c) /\ r_which r = Creation /\ r_method r = None) ->
  factory_convert H (acts H w l') e name kw = convert_to H (acts H w l') e c kw.
Proof.
  intros H l c w l' name e kw HM Ew Eok Ho Hn (r & Hr & Hq & Hd). apply c35_agree.
  - pose proof (c32_add H HM (acts H (start _) l) c) as (_ & C2 & C3).
    destruct (dget String.eqb (w_registry (acts H (start _) l)) name) eqn:Ed.
    + rewrite (C2 name Hn) in Eok by congruence. discriminate.
    + destruct (C3 name Hn Ed) as (w' & Ew' & _ & _ & Hc). rewrite Ew' in Ew, Eok. cbn [snd fst] in Ew, Eok. subst w'.
      destruct (h_fails H c); [discriminate|]. destruct Hc as (_ & Hc & _). destruct (acts_registry H l' w) as (t & ->). apply dget_app. exact Hc.
  - intros m _ Hnone. pose proof (c33_resolution H HM l c w l' Ew Eok Ho Creation m) as R. rewrite Hnone in R. destruct R as [_ R].
    apply (R r); [apply in_or_app; left; exact Hr|split; auto].
Qed.

(** ** Tables as arrays *)
Lemma mapM_fin (l : list R) : mapM finite (map Fin l) = Ok l.
Proof. induction l; simpl; [reflexivity|]. rewrite IHl. reflexivity. Qed.
Lemma mapM_fins (l : list (list R)) : mapM (mapM finite) (map (map Fin) l) = Ok l.
Proof. induction l; simpl; [reflexivity|]. rewrite mapM_fin. cbn [bind]. rewrite IHl. reflexivity. Qed.
Lemma table_fin (e : ens R) w rows : g_shape (e_obj e) = [length rows] -> table_value e w (map (map Fin) rows) = Ok (VArr (nd2 w rows)).
Proof. intros H. unfold table_value. rewrite mapM_fins. cbn [bind]. rewrite H. reflexivity. Qed.
Lemma table_rows n (F : nat -> R -> R) l : table n (fin F) l = Ok (map (map Fin) (map (fun r => map (F r) l) (seq 0 n))).
Proof. unfold table. rewrite map_map. f_equal. apply map_ext. intros r. rewrite map_map. reflexivity. Qed.

(** ** The factory of qp *)
Section Qp.
  Variable X : scipy.
  Variables (hs mf xy : extractor (T := R)).
  Definition QH := qp_hierarchy (s_phi X) (s_Phi X) (s_quad X) (s_cubic X) (s_dspline X) log10R pow10R voigtR R_sqrt.sqrt (s_Phinv X) hs mf xy.
  Definition QW := qp_world (s_phi X) (s_Phi X) (s_quad X) (s_cubic X) (s_dspline X) log10R pow10R voigtR R_sqrt.sqrt (s_Phinv X) hs mf xy.
  Lemma QW_registry : w_registry QW = [("norm", 7); ("hist", 1); ("interp", 2); ("interp_irregular", 3); ("mixmod", 4); ("quant", 5); ("packed_interp", 6)]%nat.
  Proof using. reflexivity. Qed.
  Lemma conv_hist e bins : factory_convert QH QW e "hist" [("bins", VArr (nd1 bins))] =
    let* d := extract_hist_values e [("bins", VArr (nd1 bins))] in ens_new (create_of (qp X) "hist") d None.
  Proof using. reflexivity. Qed.
  Lemma conv_interp e xs : factory_convert QH QW e "interp" [("xvals", VArr (nd1 xs))] =
    let* d := extract_vals_at_x e [("xvals", VArr (nd1 xs))] in ens_new (create_of (qp X) "interp") d None.
  Proof using. reflexivity. Qed.
  Lemma conv_irr e xs : factory_convert QH QW e "interp_irregular" [("xvals", VArr (nd1 xs))] =
    let* d := extract_xy_vals e [("xvals", VArr (nd1 xs))] in ens_new (create_of (qp X) "interp_irregular") d None.
  Proof using. reflexivity. Qed.
  Lemma conv_quant e qs : factory_convert QH QW e "quant" [("quants", VArr (nd1 qs))] =
    let* d := extract_quantiles e [("quants", VArr (nd1 qs))] in ens_new (create_of (qp X) "quant") d None.
  Proof using. reflexivity. Qed.
  Lemma conv_norm e kw : method_key kw = Ok None -> factory_convert QH QW e "norm" kw = Err KeyError.
  Proof using. intros H. unfold factory_convert. rewrite QW_registry. cbn [dget String.eqb Ascii.eqb Bool.eqb]. rewrite H. reflexivity. Qed.

  (** ** C34: to a histogram *)
  Definition prob (F : nat -> R -> R) (bins : list R) (r i : nat) : R := F r (nth0 (S i) bins) - F r (nth0 i bins).
  Definition width (bins : list R) (i : nat) : R := nth0 (S i) bins - nth0 i bins.
  Definition prob_rows (F : nat -> R -> R) (bins : list R) (n : nat) : list (list R) :=
    map (fun r => map (prob F bins r) (seq 0 (pred (length bins)))) (seq 0 n).
  Lemma prob_at F bins n r i : (r < n)%nat -> (i < pred (length bins))%nat -> at2 (prob_rows F bins n) r i = prob F bins r i.
  Proof using.
    intros Hr Hi. unfold at2, prob_rows, nth0. rewrite (nth_map_in _ (seq 0 n) r [] 0%nat) by (rewrite seq_length; auto).
    rewrite seq_nth by auto. rewrite (nth_map_in _ (seq 0 (pred (length bins))) i _ 0%nat) by (rewrite seq_length; auto). rewrite seq_nth by auto. reflexivity.
  Qed.
  Lemma prob_sum F bins r : rsum (pred (length bins)) (prob F bins r) = F r (nlast bins) - F r (nth0 0 bins).
  Proof using. unfold prob. rewrite (telescope (fun i => F r (nth0 i bins))), nlast_nth0. reflexivity. Qed.
  Lemma rsum_pos_weights n (p v : nat -> R) : (forall i, (i < n)%nat -> 0 <= p i) -> (forall i, (i < n)%nat -> 0 < v i) -> 0 < rsum n p -> 0 < rsum n (fun i => p i * v i).
  Proof using.
    intros Hp Hv Hs. destruct (Rlt_or_le 0 (rsum n (fun i => p i * v i))) as [H|H]; [exact H|exfalso].
    assert (Hz : forall i, (i < n)%nat -> p i <= 0).
    { intros i Hi. pose proof (rsum_term n (fun i => p i * v i) i (fun j Hj => Rmult_le_pos _ _ (Hp j Hj) (Rlt_le _ _ (Hv j Hj))) Hi) as Ht. cbv beta in Ht.
      pose proof (Hp i Hi). pose proof (Hv i Hi). nra. }
    assert (rsum n p <= rsum n (fun _ => 0)) by (apply rsum_le; exact Hz).
    assert (rsum n (fun _ => 0) = 0) by (clear; induction n; simpl; lra). lra.
  Qed.
  Lemma width_pos bins i : increasing bins -> (i < pred (length bins))%nat -> 0 < width bins i.
  Proof using. intros Hs Hi. unfold width. assert (nth0 i bins < nth0 (S i) bins) by (apply inc_lt; auto; lia). lra. Qed.
  (** the source: an ensemble of any class with [n] PDFs in a row, whose cdf computes [F] *)
  Definition source (e : ens R) (n : nat) (F : nat -> R -> R) : Prop :=
    (0 < n)%nat /\ g_shape (e_obj e) = [n] /\ computes (ens_cdf e) n F.
  Lemma prob_input bins n F : increasing bins -> (2 <= length bins)%nat -> (0 < n)%nat ->
    (forall r x y, (r < n)%nat -> x <= y -> F r x <= F r y) -> (forall r, (r < n)%nat -> F r (nth0 0 bins) < F r (nlast bins)) ->
    hist_input bins (prob_rows F bins n).
  Proof using.
    intros Hs Hn Hpos Hm Hd. split; [exact Hs|]. split; [exact Hn|]. split; [destruct n; [lia|discriminate]|].
    intros row Hrow. apply in_map_iff in Hrow. destruct Hrow as (r & <- & Hr). apply in_seq in Hr.
    assert (E : forall i, (i < pred (length bins))%nat -> nth0 i (map (prob F bins r) (seq 0 (pred (length bins)))) = prob F bins r i).
    { intros i Hi. unfold nth0. rewrite (nth_map_in _ (seq 0 (pred (length bins))) i _ 0%nat) by (rewrite seq_length; auto). rewrite seq_nth by auto. reflexivity. }
    assert (Hp : forall i, (i < pred (length bins))%nat -> 0 <= prob F bins r i).
    { intros i Hi. unfold prob. assert (F r (nth0 i bins) <= F r (nth0 (S i) bins)); [|lra]. apply Hm; [lia|]. pose proof (width_pos bins i Hs Hi). unfold width in *. lra. }
    rewrite map_length, seq_length. split; [reflexivity|]. split; [intros i Hi; rewrite E by auto; auto|].
    rewrite (rsum_ext _ _ (fun i => prob F bins r i * width bins i)) by (intros i Hi; rewrite E by auto; reflexivity).
    apply rsum_pos_weights; [exact Hp|intros; apply width_pos; auto|]. rewrite prob_sum. specialize (Hd r ltac:(lia)). lra.
  Qed.
  Lemma extract_hist e n F bins : source e n F -> increasing bins -> bins <> [] ->
    extract_hist_values e [("bins", VArr (nd1 bins))] = Ok (input_dict (IHist bins (prob_rows F bins n))).
  Proof using.
    intros (Hn & Hshape & HF) Hs Hne. destruct (c36_any e n F HF) as (I & HI & _ & _ & Hh & _). destruct (Hh bins Hs Hne) as [E _].
    unfold extract_hist_values. change (grid_arg [("bins", VArr (nd1 bins))] "bins") with (Ok (A := list R) bins). cbn [bind]. rewrite E. cbn [bind].
    assert (Et : map (fun r => map (fun i => Fin (I r (nth0 i bins) (nth0 (S i) bins))) (seq 0 (pred (length bins)))) (seq 0 n) = map (map Fin) (prob_rows F bins n)).
    { unfold prob_rows. rewrite map_map. apply map_ext. intros r. rewrite map_map. apply map_ext. intros i. rewrite HI. reflexivity. }
    rewrite Et, table_fin; [reflexivity|]. unfold prob_rows. rewrite map_length, seq_length. exact Hshape.
  Qed.
  Lemma c34_convert : forall e n F bins, fill_outside X -> source e n F -> increasing bins -> (2 <= length bins)%nat ->
    (forall r x y, (r < n)%nat -> x <= y -> F r x <= F r y) -> (forall r, (r < n)%nat -> F r (nth0 0 bins) < F r (nlast bins)) ->
    exists e' G, factory_convert QH QW e "hist" [("bins", VArr (nd1 bins))] = Ok e' /\
      made X [MPdf; MCdf; MPpf] e' /\ g_name (e_obj e') = "hist" /\ source e' n G /\
      forall r i, (r < n)%nat -> (i < pred (length bins))%nat ->
        prob G bins r i * rsum (pred (length bins)) (fun j => prob F bins r j * width bins j) = prob F bins r i * width bins i.
  Proof.
    intros e n F bins HX Hsrc Hs Hn Hm Hd. pose proof Hsrc as (Hpos & _ & _).
    pose proof (prob_input bins n F Hs Hn Hpos Hm Hd) as Hi. set (P := prob_rows F bins n) in *.
    assert (Hlen : length P = n) by (unfold P, prob_rows; rewrite map_length, seq_length; reflexivity).
    destruct (c01_values bins P Hi) as (h & Eh & Hb & Hl & Hv). destruct (c03_cdf bins P h Hi Eh) as (G & EG & HG).
    assert (Ec : create_of (qp X) "hist" (input_dict (IHist bins P)) = Ok (hist_obj h)).
    { change (hist_create [("bins", VArr (nd1 bins)); ("pdfs", VArr (nd2 (pred (length bins)) P))] = Ok (hist_obj h)).
      rewrite (hist_create_eq bins (nd2 (pred (length bins)) P)) by (left; reflexivity). rewrite Eh. reflexivity. }
    assert (E : ens_new (create_of (qp X) "hist") (input_dict (IHist bins P)) None = Ok (mkens (create_of (qp X) "hist") (hist_obj h) None None)) by (unfold ens_new; rewrite Ec; reflexivity).
    exists (mkens (create_of (qp X) "hist") (hist_obj h) None None).
    assert (Hmade : made X [MPdf; MCdf; MPpf] (mkens (create_of (qp X) "hist") (hist_obj h) None None)) by exact (reach_new _ _ _ _ _ _ (IHist bins P) None _ Hi E).
    destruct (c36_reachable X _ _ HX Hmade) as (G' & HG').
    destruct (input_holds (s_phi X) (s_Phi X) (s_quad X) (s_cubic X) (s_dspline X) (s_Phinv X) HX (IHist bins P) Hi) as (_ & _ & g & Eg & (_ & _ & _ & Hsh & _) & _).
    change (create_of (qp X) "hist" (input_dict (IHist bins P)) = Ok g) in Eg. rewrite Ec in Eg. injection Eg as <-.
    cbn [input_rows] in Hsh. rewrite map_length, Hlen in Hsh.
    assert (Hnp : e_npdf (mkens (create_of (qp X) "hist") (hist_obj h) None None) = n) by (unfold e_npdf, g_npdf; cbn [e_obj]; rewrite Hsh; unfold NdArray.prod; simpl; lia).
    rewrite Hnp in HG'. exists G'.
    split; [rewrite conv_hist, (extract_hist e n F bins Hsrc Hs) by (destruct bins; [simpl in Hn; lia|discriminate]); cbn [bind]; exact E|].
    split; [exact Hmade|]. split; [reflexivity|]. split; [split; [exact Hpos|split; [exact Hsh|exact HG']]|].
    intros r i Hr Hi'. assert (Hr' : (r < length P)%nat) by lia.
    assert (EGG : forall x, G' r x = G r x).
    { intros x. destruct HG' as [HG' _]. specialize (HG' x). change (ens_cdf _ (PScalar x)) with (hist_ens_cdf h (PScalar x)) in HG'. rewrite EG, Hlen in HG'.
      injection HG' as HG'. assert (E2 : nth r (map (fun r => [Fin (G r x)]) (seq 0 n)) [] = nth r (map (fun r => [Fin (G' r x)]) (seq 0 n)) []) by (rewrite HG'; reflexivity).
      rewrite !(nth_map_in _ (seq 0 n) r [] 0%nat) in E2 by (rewrite seq_length; auto). rewrite !seq_nth in E2 by auto. cbn [Nat.add] in E2. congruence. }
    destruct (HG r Hr') as (_ & _ & _ & _ & Hlin & _). destruct (Hv r Hr') as ((k & Hk & Hk') & _ & Hmass).
    pose proof (width_pos bins i Hs Hi') as Hw. unfold width in Hw.
    assert (HP : prob G' bins r i = at2 (h_pdfs h) r i * width bins i).
    { unfold prob. rewrite !EGG. rewrite (Hlin i (nth0 (S i) bins)) by (try lia; lra). rewrite (Hlin i (nth0 i bins)) by (try lia; lra). unfold width. lra. }
    rewrite HP, (Hk' i Hi'). unfold P. rewrite (prob_at F bins n r i) by auto.
    assert (Hone : k * rsum (pred (length bins)) (fun j => prob F bins r j * width bins j) = 1).
    { rewrite <- Hmass, Rmult_comm, <- rsum_scale. apply rsum_ext. intros j Hj. rewrite (Hk' j Hj). unfold P. rewrite (prob_at F bins n r j) by auto. unfold width. lra. }
    transitivity (prob F bins r i * width bins i * (k * rsum (pred (length bins)) (fun j => prob F bins r j * width bins j))); [ring|]. rewrite Hone. ring.
  Qed.
  Lemma c34_uniform : forall e n F bins w, fill_outside X -> source e n F -> increasing bins -> (2 <= length bins)%nat ->
    (forall r x y, (r < n)%nat -> x <= y -> F r x <= F r y) ->
    (forall i, (i < pred (length bins))%nat -> width bins i = w) ->
    (forall r, (r < n)%nat -> F r (nth0 0 bins) = 0 /\ F r (nlast bins) = 1) ->
    exists e' G, factory_convert QH QW e "hist" [("bins", VArr (nd1 bins))] = Ok e' /\ source e' n G /\
      forall r i, (r < n)%nat -> (i < pred (length bins))%nat -> prob G bins r i = prob F bins r i.
  Proof.
    intros e n F bins w HX Hsrc Hs Hn Hm Hw Hc.
    destruct (c34_convert e n F bins HX Hsrc Hs Hn Hm) as (e' & G & E & _ & _ & HG & Hp); [intros r Hr; destruct (Hc r Hr); lra|].
    exists e', G. split; [exact E|]. split; [exact HG|]. intros r i Hr Hi. specialize (Hp r i Hr Hi).
    rewrite (rsum_ext _ _ (fun j => prob F bins r j * w)) in Hp by (intros j Hj; rewrite (Hw j Hj); reflexivity).
    rewrite rsum_scale, prob_sum, (Hw i Hi) in Hp. destruct (Hc r Hr) as [H0 H1]. rewrite H0, H1 in Hp.
    pose proof (width_pos bins i Hs Hi) as Hwp. rewrite (Hw i Hi) in Hwp. apply (Rmult_eq_reg_r w); [|lra]. rewrite <- Hp. ring.
  Qed.
End Qp.

(** ** C35: converting an ensemble to its own class on its own grid *)
Definition identical (e' e : ens R) : Prop :=
  g_name (e_obj e') = g_name (e_obj e) /\ g_shape (e_obj e') = g_shape (e_obj e) /\ metadata e' = metadata e /\ objdata e' = objdata e /\
  forall m x, evaluate m e' x = evaluate m e x.
Definition normal_row (k : kind) (d : row) : Prop :=
  match k with
  | KHist bins => hist_input bins [num_at 0 d] /\ mass bins (num_at 0 d) = 1
  | KInterp xs => interp_input xs [num_at 0 d]
  | _ => True
  end.
Lemma inputs_normal : forall i, input_ok i -> List.Forall (normal_row (input_kind i)) (input_rows i).
Proof.
  intros i Hi. apply Forall_forall. intros d Hd. destruct i; cbn [input_kind normal_row]; auto; cbn [input_rows] in Hd; apply in_map_iff in Hd; destruct Hd as (row & <- & Hin);
    cbn [num_at cell_at nth nums]; destruct Hi as (Hs & Hn & Hne & Hr).
  - destruct (Hr row Hin) as (Hl & Hp & Hm). assert (Hmass : mass bins (hist_norm_row (bin_widths bins) row) = 1) by (apply mass_norm; auto; unfold mass; lra).
    split; [|exact Hmass]. split; [exact Hs|]. split; [exact Hn|]. split; [discriminate|]. intros r [<-|[]].
    assert (L : length (hist_norm_row (bin_widths bins) row) = pred (length bins)) by (apply norm_row_length; auto).
    split; [exact L|]. split; [|unfold mass in Hmass; lra]. intros i Hi. rewrite norm_row_nth by (auto; lia). apply Rmult_le_pos; [apply Hp; lia|]. left. apply Rinv_0_lt_compat. exact Hm.
  - apply inorm_input. split; [exact Hs|]. split; [exact Hn|]. split; [discriminate|]. intros r [<-|[]]. apply Hr. exact Hin.
Qed.
Lemma same_rows X k D e i : fill_outside X -> represents_in X k D e -> is_quant k = false -> input_ok i -> input_kind i = k -> input_rows i = D ->
  exists e', ens_new (create_of (qp X) (input_name i)) (input_dict i) None = Ok e' /\ made X (input_methods i) e' /\ identical e' e.
Proof.
  intros HX HD Hq Hi Ek ED. destruct (input_holds (s_phi X) (s_Phi X) (s_quad X) (s_cubic X) (s_dspline X) (s_Phinv X) HX i Hi) as (_ & _ & g & Eg & (H1 & H2 & H3 & H4 & _) & (g1 & Eg1 & S1)).
  rewrite Ek, ED in *. unfold Kinds.kind_create in Eg. rewrite <- Ek, input_kind_name in Eg.
  exists (mkens (create_of (qp X) (input_name i)) g None None).
  assert (E : ens_new (create_of (qp X) (input_name i)) (input_dict i) None = Ok (mkens (create_of (qp X) (input_name i)) g None None)).
  { change (create_of (qp X) (input_name i) (input_dict i) = Ok g) in Eg. unfold ens_new. rewrite Eg. reflexivity. }
  split; [exact E|]. split; [exact (reach_new _ _ _ _ _ _ i None _ Hi E)|].
  pose proof HD as (_ & _ & _ & (_ & (g0 & Eg0 & S0)) & (H1' & H2' & H3' & H4' & _)). rewrite Eg0 in Eg1. injection Eg1 as <-.
  split; [cbn [e_obj]; congruence|]. split; [cbn [e_obj]; congruence|]. split; [unfold metadata; cbn [e_obj]; congruence|]. split; [unfold objdata; cbn [e_obj]; congruence|].
  intros m x. assert (Ee : forall e0, evaluate m e0 x = g_eval m (e_obj e0) x) by (intros; destruct m; reflexivity). rewrite !Ee. cbn [e_obj].
  rewrite <- (S0 m x), <- (S1 m x) by (intros _; exact Hq). reflexivity.
Qed.
Lemma own_bins X k D e bins : represents_in X k D e -> vget (metadata e) "bins" = Some (VArr (mknd [1; length bins]%nat bins)) -> k = KHist bins.
Proof.
  intros HD. destruct (rep_meta X k D e HD) as (-> & _). destruct k; cbn; try discriminate.
  all: intros E; first [injection E as _ <-; reflexivity | repeat (match type of E with context [match ?p with _ => _ end] => destruct p end; try discriminate)].
Qed.
Lemma own_grid X k D e xs : represents_in X k D e -> g_name (e_obj e) = "interp" -> vget (metadata e) "xvals" = Some (VArr (mknd [1; length xs]%nat xs)) -> k = KInterp xs.
Proof.
  intros HD. destruct (rep_meta X k D e HD) as (-> & _ & ->). destruct k; cbn; try discriminate. intros _ E. injection E as _ <-. reflexivity.
Qed.
Lemma one_cell n w d : row_fits [(n, NumCol [w])] d -> d = [Nums (num_at 0 d)] /\ length (num_at 0 d) = w.
Proof.
  intros H. inversion H as [|? c ? d' Hc Hd]; subst. inversion Hd; subst. destruct c; cbn in Hc; try contradiction. cbn. split; [reflexivity|]. unfold prod in Hc. simpl in Hc. lia.
Qed.
Lemma cell_rows k n w (f : row -> list R) D : kind_layout k = [(n, NumCol [w])] -> List.Forall (good_row k) D ->
  (forall d, In d D -> f d = num_at 0 d) -> map (fun d => [Nums (f d)]) D = D.
Proof.
  intros Hk HD Hf. rewrite <- (map_id D) at 2. apply map_ext_in. intros d Hd. rewrite Forall_forall in HD. destruct (HD d Hd) as [H _].
  rewrite Hk in H. destruct (one_cell _ _ _ H) as [E _]. rewrite (Hf d Hd). symmetry. exact E.
Qed.
Lemma nth0_ext (l l' : list R) : length l = length l' -> (forall i, (i < length l)%nat -> nth0 i l = nth0 i l') -> l = l'.
Proof. intros L H. apply (nth_ext _ _ 0 0 L). exact H. Qed.
Lemma nth0_tabulate (f : nat -> R) n i : (i < n)%nat -> nth0 i (map f (seq 0 n)) = f i.
Proof. intros H. unfold nth0. rewrite (nth_map_in _ (seq 0 n) i _ 0%nat) by (rewrite seq_length; auto). rewrite seq_nth by auto. reflexivity. Qed.
Lemma c35_hist X hs mf xy : forall M e bins w, fill_outside X -> made X M e ->
  vget (metadata e) "bins" = Some (VArr (mknd [1; length bins]%nat bins)) -> (forall i, (i < pred (length bins))%nat -> width bins i = w) ->
  exists e', factory_convert (QH X hs mf xy) (QW X hs mf xy) e "hist" [("bins", VArr (nd1 bins))] = Ok e' /\ identical e' e.
Proof.
  intros M e bins w HX He Hb Hw. destruct (made_rows X HX normal_row inputs_normal M e He) as (k & D & HD & Hp).
  pose proof (own_bins X k D e bins HD Hb) as ->. pose proof HD as ((Hs & Hn) & Hne & HG & _ & (_ & _ & _ & Hsh & _)).
  set (F := fun r => cdf_of X (KHist bins) (nth r D [])).
  assert (Hsrc : source e (length D) F).
  { split; [destruct D; [congruence|simpl; lia]|]. split; [exact Hsh|]. rewrite <- (rep_npdf' X _ D e HD). exact (rep_computes X _ D e MCdf _ HD (cdf_in _) (cdf_fin X _)). }
  assert (HF : forall r i, (r < length D)%nat -> (i < pred (length bins))%nat -> prob F bins r i = nth0 i (num_at 0 (nth r D [])) * width bins i).
  { intros r i Hr Hi. rewrite Forall_forall in Hp. destruct (Hp _ (nth_In D [] Hr)) as ((_ & _ & _ & Hrow) & _). destruct (Hrow _ (or_introl eq_refl)) as (L & _).
    pose proof (width_pos bins i Hs Hi) as Hwp. unfold width in Hwp. unfold prob, F, cdf_of. cbn [val].
    rewrite !(c_interp bins (num_at 0 (nth r D [])) Hs Hn L i) by (try lia; lra). unfold width. lra. }
  set (rows := prob_rows F bins (length D)).
  assert (Hmass : forall r, (r < length D)%nat -> rsum (pred (length bins)) (fun i => nth0 i (num_at 0 (nth r D [])) * width bins i) = 1).
  { intros r Hr. rewrite Forall_forall in Hp. exact (proj2 (Hp _ (nth_In D [] Hr))). }
  assert (Hlen : forall r, (r < length D)%nat -> length (num_at 0 (nth r D [])) = pred (length bins)).
  { intros r Hr. rewrite Forall_forall in Hp. destruct (Hp _ (nth_In D [] Hr)) as ((_ & _ & _ & Hrow) & _). destruct (Hrow _ (or_introl eq_refl)) as (L & _). exact L. }
  assert (Hwp : 0 < w) by (rewrite <- (Hw 0%nat) by lia; apply width_pos; auto; lia).
  assert (Hin : hist_input bins rows).
  { split; [exact Hs|]. split; [exact Hn|]. split; [destruct D; [congruence|discriminate]|].
    intros row Hrow. apply in_map_iff in Hrow. destruct Hrow as (r & <- & Hr). apply in_seq in Hr. rewrite map_length, seq_length. split; [reflexivity|].
    assert (Hr' : (r < length D)%nat) by lia. rewrite Forall_forall in Hp. destruct (Hp _ (nth_In D [] Hr')) as ((_ & _ & _ & Hrow) & _). destruct (Hrow _ (or_introl eq_refl)) as (L & Hpos & _).
    split; [intros i Hi; rewrite nth0_tabulate, HF, (Hw i Hi) by auto; apply Rmult_le_pos; [apply Hpos; lia|lra]|].
    rewrite (rsum_ext _ _ (fun i => nth0 i (num_at 0 (nth r D [])) * width bins i * w)).
    - rewrite rsum_scale, Hmass by auto. lra.
    - intros i Hi. rewrite nth0_tabulate, HF by auto. change (nth0 (S i) bins - nth0 i bins) with (width bins i). rewrite (Hw i Hi). reflexivity. }
  assert (ED : input_rows (IHist bins rows) = D).
  { cbn [input_rows]. unfold rows, prob_rows. rewrite map_map. rewrite <- (map_id D) at 2. rewrite (map_rows (fun d => d) D). apply map_ext_in. intros r Hr. apply in_seq in Hr.
    assert (Hr' : (r < length D)%nat) by lia. rewrite Forall_forall in HG. destruct (HG _ (nth_In D [] Hr')) as [Hfit _]. destruct (one_cell _ _ _ Hfit) as [E _]. symmetry; etransitivity; [exact E|symmetry]. do 2 f_equal.
    set (row := map (prob F bins r) (seq 0 (pred (length bins)))). assert (Lr : length row = pred (length bins)) by (unfold row; rewrite map_length, seq_length; reflexivity).
    apply nth0_ext; [rewrite norm_row_length, Hlen by auto; reflexivity|]. intros i Hi. rewrite norm_row_length in Hi by auto. rewrite norm_row_nth by auto.
    assert (Em : mass bins row = w).
    { unfold mass. rewrite (rsum_ext _ _ (fun i => nth0 i (num_at 0 (nth r D [])) * width bins i * w)); [rewrite rsum_scale, Hmass by auto; lra|].
      intros j Hj. unfold row. rewrite nth0_tabulate, HF by auto. change (nth0 (S j) bins - nth0 j bins) with (width bins j). rewrite (Hw j Hj). reflexivity. }
    rewrite Em. unfold row. rewrite nth0_tabulate, HF, (Hw i Hi) by auto. field. lra. }
  destruct (same_rows X (KHist bins) D e (IHist bins rows) HX HD eq_refl Hin eq_refl ED) as (e' & E & _ & Hid).
  exists e'. split; [|exact Hid]. rewrite conv_hist, (extract_hist e (length D) F bins Hsrc Hs) by (destruct bins; [simpl in Hn; lia|discriminate]). exact E.
Qed.
Lemma extract_vals e n f xs : (0 < n)%nat -> g_shape (e_obj e) = [n] -> computes (ens_pdf e) n f -> increasing xs ->
  extract_vals_at_x e [("xvals", VArr (nd1 xs))] = Ok (input_dict (IInterp xs (map (fun r => map (f r) xs) (seq 0 n)))).
Proof.
  intros Hn Hsh [_ Hf] Hs. unfold extract_vals_at_x. change (grid_arg [("xvals", VArr (nd1 xs))] "xvals") with (Ok (A := list R) xs). cbn [bind].
  rewrite Hf by auto. rewrite table_rows. cbn [bind]. rewrite table_fin; [reflexivity|]. rewrite map_length, seq_length. exact Hsh.
Qed.
Lemma c35_interp X hs mf xy : forall M e xs, fill_outside X -> made X M e -> g_name (e_obj e) = "interp" ->
  vget (metadata e) "xvals" = Some (VArr (mknd [1; length xs]%nat xs)) ->
  exists e', factory_convert (QH X hs mf xy) (QW X hs mf xy) e "interp" [("xvals", VArr (nd1 xs))] = Ok e' /\ identical e' e.
Proof.
  intros M e xs HX He Hname Hb. destruct (made_rows X HX normal_row inputs_normal M e He) as (k & D & HD & Hp).
  pose proof (own_grid X k D e xs HD Hname Hb) as ->. pose proof HD as ((Hs & Hn) & Hne & HG & _ & (_ & _ & _ & Hsh & _)).
  set (f := fun r => pdf_of X (KInterp xs) (nth r D [])).
  assert (Hf : computes (ens_pdf e) (length D) f).
  { rewrite <- (rep_npdf' X _ D e HD). apply (rep_computes X _ D e MPdf _ HD); [left; reflexivity|apply pdf_fin]. }
  assert (Hrow : forall r, (r < length D)%nat -> map (f r) xs = num_at 0 (nth r D [])).
  { intros r Hr. rewrite Forall_forall in HG. destruct (HG _ (nth_In D [] Hr)) as [Hfit Hnorm]. destruct (one_cell _ _ _ Hfit) as [_ L].
    apply nth0_ext; [rewrite map_length; congruence|]. rewrite map_length. intros i Hi. rewrite nth0_map by auto. unfold f, pdf_of. cbn [val interp_val]. rewrite Hnorm. apply interp1d_knot; auto. }
  set (rows := map (fun r => map (f r) xs) (seq 0 (length D))).
  assert (Er : rows = map (fun r => num_at 0 (nth r D [])) (seq 0 (length D))).
  { unfold rows. apply map_ext_in. intros r Hr. apply in_seq in Hr. apply Hrow. lia. }
  assert (Hin : interp_input xs rows).
  { split; [exact Hs|]. split; [exact Hn|]. split; [destruct D; [congruence|discriminate]|].
    intros row Hi. rewrite Er in Hi. apply in_map_iff in Hi. destruct Hi as (r & <- & Hr). apply in_seq in Hr.
    assert (Hr' : (r < length D)%nat) by lia. rewrite Forall_forall in Hp. destruct (Hp _ (nth_In D [] Hr')) as (_ & _ & _ & H). apply H. left. reflexivity. }
  assert (ED : input_rows (IInterp xs rows) = D).
  { cbn [input_rows]. rewrite Er, map_map. rewrite <- (map_id D) at 2. rewrite (map_rows (fun d => d) D). apply map_ext_in. intros r Hr. apply in_seq in Hr.
    assert (Hr' : (r < length D)%nat) by lia. rewrite Forall_forall in HG. destruct (HG _ (nth_In D [] Hr')) as [Hfit Hnorm]. destruct (one_cell _ _ _ Hfit) as [E _]. symmetry; etransitivity; [exact E|symmetry]. rewrite Hnorm. reflexivity. }
  destruct (same_rows X (KInterp xs) D e (IInterp xs rows) HX HD eq_refl Hin eq_refl ED) as (e' & E & _ & Hid).
  assert (Hpos : (0 < length D)%nat) by (destruct D; [congruence|simpl; lia]).
  exists e'. split; [|exact Hid]. rewrite conv_interp, (extract_vals e (length D) f xs) by auto. exact E.
Qed.

(** ** Conversions produce reachable ensembles with the values of the source *)
Lemma created X i : fill_outside X -> input_ok i ->
  exists e, ens_new (create_of (qp X) (input_name i)) (input_dict i) None = Ok e /\ made X (input_methods i) e /\
    represents_in X (input_kind i) (input_rows i) e /\ g_shape (e_obj e) = [input_npdf i] /\ g_name (e_obj e) = input_name i /\
    create_of (qp X) (input_name i) (input_dict i) = Ok (e_obj e).
Proof.
  intros HX Hi. destruct (input_holds (s_phi X) (s_Phi X) (s_quad X) (s_cubic X) (s_dspline X) (s_Phinv X) HX i Hi) as (Hk & HD & g & Eg & Hg & Hc).
  unfold Kinds.kind_create in Eg. rewrite input_kind_name in Eg. change (create_of (qp X) (input_name i) (input_dict i) = Ok g) in Eg.
  exists (mkens (create_of (qp X) (input_name i)) g None None).
  assert (E : ens_new (create_of (qp X) (input_name i)) (input_dict i) None = Ok (mkens (create_of (qp X) (input_name i)) g None None)) by (unfold ens_new; rewrite Eg; reflexivity).
  split; [exact E|]. split; [exact (reach_new _ _ _ _ _ _ i None _ Hi E)|]. pose proof Hg as (H1 & _ & _ & H4 & _).
  split; [|split; [cbn [e_obj]; rewrite H4, input_rows_length by auto; reflexivity|split; [cbn [e_obj]; rewrite H1, input_kind_name; reflexivity|exact Eg]]].
  split; [exact Hk|]. split; [apply rows_ne; auto|]. split; [exact HD|]. split; [split; [|exact Hc]|exact Hg].
  cbn [e_func]. unfold Kinds.kind_create. rewrite input_kind_name. reflexivity.
Qed.
(** an ensemble of [n] PDFs in a row whose densities are [f] *)
Definition densities (e : ens R) (n : nat) (f : nat -> R -> R) : Prop := (0 < n)%nat /\ g_shape (e_obj e) = [n] /\ computes (ens_pdf e) n f.
Lemma rep_densities X k D e : represents_in X k D e -> (forall q nm, k <> KQuant q nm) -> densities e (length D) (fun r => pdf_of X k (nth r D [])).
Proof.
  intros HD Hk. pose proof HD as (_ & Hne & _ & _ & (_ & _ & _ & Hsh & _)). split; [destruct D; [congruence|simpl; lia]|]. split; [exact Hsh|].
  rewrite <- (rep_npdf' X k D e HD). apply (rep_computes X _ D e MPdf _ HD); [apply pdf_in; auto|apply pdf_fin].
Qed.
Definition at_grid (f : nat -> R -> R) (xs : list R) (n : nat) : list (list R) := map (fun r => map (f r) xs) (seq 0 n).
Lemma at_grid_nth f xs n r : (r < n)%nat -> nth r (at_grid f xs n) [] = map (f r) xs.
Proof. intros H. unfold at_grid. rewrite (nth_map_in _ (seq 0 n) r _ 0%nat) by (rewrite seq_length; auto). rewrite seq_nth by auto. reflexivity. Qed.
(** the trapezium rule for [g] on the grid *)
Definition trapezium (g : R -> R) (xs : list R) : R :=
  rsum (pred (length xs)) (fun i => (nth0 (S i) xs - nth0 i xs) * (g (nth0 i xs) + g (nth0 (S i) xs)) / 2).
(** the rule with the value at the right end of each interval *)
Definition right_rule (g : R -> R) (xs : list R) : R :=
  rsum (pred (length xs)) (fun i => (nth0 (S i) xs - nth0 i xs) * g (nth0 (S i) xs)).
Lemma convert_interp X hs mf xy : forall e n f xs, fill_outside X -> densities e n f -> increasing xs -> (2 <= length xs)%nat ->
  (forall r x, (r < n)%nat -> In x xs -> 0 <= f r x) -> (forall r, (r < n)%nat -> 0 < trapezium (f r) xs) ->
  exists e' g, factory_convert (QH X hs mf xy) (QW X hs mf xy) e "interp" [("xvals", VArr (nd1 xs))] = Ok e' /\
    made X [MPdf; MCdf; MPpf] e' /\ g_name (e_obj e') = "interp" /\ densities e' n g /\
    forall r x, (r < n)%nat -> In x xs -> g r x * trapezium (f r) xs = f r x.
Proof.
  intros e n f xs HX (Hpos & Hsh & Hf) Hs Hn H0 Ha. set (rows := at_grid f xs n).
  assert (L : length rows = n) by (unfold rows, at_grid; rewrite map_length, seq_length; reflexivity).
  assert (Hin : interp_input xs rows).
  { split; [exact Hs|]. split; [exact Hn|]. split; [destruct rows; [simpl in L; lia|discriminate]|].
    intros row Hr. apply in_map_iff in Hr. destruct Hr as (r & <- & Hr). apply in_seq in Hr. rewrite map_length. split; [reflexivity|]. split.
    - intros i Hi. rewrite nth0_map by auto. apply H0; [lia|apply nth_In; auto].
    - rewrite (rsum_ext _ _ (fun i => (nth0 (S i) xs - nth0 i xs) * (f r (nth0 i xs) + f r (nth0 (S i) xs)) / 2)); [apply Ha; lia|]. intros i Hi. rewrite !nth0_map by lia. reflexivity. }
  destruct (created X (IInterp xs rows) HX Hin) as (e' & E & Hm & HD & Hsh' & Hname & _).
  exists e', (fun r => pdf_of X (KInterp xs) (nth r (input_rows (IInterp xs rows)) [])).
  split; [rewrite conv_interp, (extract_vals e n f xs) by auto; exact E|]. split; [exact Hm|]. split; [exact Hname|].
  assert (LD : length (input_rows (IInterp xs rows)) = n) by (cbn [input_rows]; rewrite map_length; exact L).
  split; [pose proof (rep_densities X _ _ e' HD ltac:(discriminate)) as Hd; rewrite LD in Hd; exact Hd|].
  intros r x Hr Hx. apply (In_nth _ _ 0) in Hx. destruct Hx as (i & Hi & <-). change (nth i xs 0) with (nth0 i xs).
  assert (En : nth r (input_rows (IInterp xs rows)) [] = [Nums (inorm xs (map (f r) xs))]).
  { cbn [input_rows]. etransitivity; [apply (nth_map_in (fun l => [Nums (inorm xs l)]) rows r [] []); rewrite L; exact Hr|]. unfold rows. rewrite at_grid_nth by auto. reflexivity. }
  rewrite En. unfold pdf_of. cbn [val num_at cell_at nth nums interp_val].
  assert (Hone : interp_input xs [map (f r) xs]).
  { split; [exact Hs|]. split; [exact Hn|]. split; [discriminate|]. intros row [<-|[]]. apply Hin. rewrite <- (at_grid_nth f xs n r Hr). apply nth_In. fold rows. rewrite L. exact Hr. }
  assert (Htwo := inorm_input _ _ Hone).
  assert (T1 : trapezium (f r) xs = area xs (map (f r) xs)).
  { unfold trapezium, area. apply rsum_ext. intros j Hj. unfold trap. rewrite !nth0_map by lia. reflexivity. }
  rewrite interp1d_knot by auto.
  pose proof (inorm_nth xs [inorm xs (map (f r) xs)] Htwo 0%nat ltac:(simpl; lia) i) as N2. unfold irow in N2; cbn [nth] in N2. rewrite N2.
  pose proof (inorm_nth xs [map (f r) xs] Hone 0%nat ltac:(simpl; lia) i) as N1. unfold irow in N1; cbn [nth] in N1. rewrite N1.
  pose proof (total_one xs [map (f r) xs] Hone 0%nat ltac:(simpl; lia)) as T2. unfold irow in T2; cbn [nth] in T2.
  unfold area at 2. rewrite T2, nth0_map, <- T1 by auto. specialize (Ha r Hr). field. lra.
Qed.
Lemma extract_xy e n f xs : densities e n f -> increasing xs ->
  extract_xy_vals e [("xvals", VArr (nd1 xs))] = Ok (input_dict (IIrr (length xs) (map (fun _ => xs) (seq 0 n)) (at_grid f xs n))).
Proof.
  intros (Hn & Hsh & [_ Hf]) Hs. unfold extract_xy_vals. change (grid_arg [("xvals", VArr (nd1 xs))] "xvals") with (Ok (A := list R) xs). cbn [bind].
  rewrite Hf by auto. rewrite table_rows. cbn [bind]. rewrite table_fin by (rewrite map_length, seq_length; exact Hsh). cbn [bind].
  cbn [input_dict]. unfold nd2 at 2. rewrite map_length, seq_length, Hsh. rewrite !map_map. reflexivity.
Qed.
Lemma convert_irregular X hs mf xy : forall e n f xs, fill_outside X -> densities e n f -> increasing xs -> (2 <= length xs)%nat ->
  (forall r x, (r < n)%nat -> In x xs -> 0 <= f r x) -> (forall r, (r < n)%nat -> 0 < right_rule (f r) xs) ->
  exists e' g, factory_convert (QH X hs mf xy) (QW X hs mf xy) e "interp_irregular" [("xvals", VArr (nd1 xs))] = Ok e' /\
    made X [MPdf; MCdf; MPpf] e' /\ g_name (e_obj e') = "interp_irregular" /\ densities e' n g /\
    forall r x, (r < n)%nat -> In x xs -> g r x * right_rule (f r) xs = f r x.
Proof.
  intros e n f xs HX Hden Hs Hn H0 Ha. pose proof Hden as (Hpos & Hsh & Hf). set (yr := at_grid f xs n). set (xr := map (fun _ => xs) (seq 0 n)).
  assert (L : length yr = n) by (unfold yr, at_grid; rewrite map_length, seq_length; reflexivity).
  assert (Lx : length xr = n) by (unfold xr; rewrite map_length, seq_length; reflexivity).
  assert (Hx : forall r, (r < n)%nat -> nth r xr [] = xs).
  { intros r Hr. unfold xr. rewrite (nth_map_in _ (seq 0 n) r _ 0%nat) by (rewrite seq_length; auto). reflexivity. }
  assert (Hy : forall r, (r < n)%nat -> nth r yr [] = map (f r) xs) by (intros; apply at_grid_nth; auto).
  assert (Hrule : forall r, (r < n)%nat -> rsumr xs (map (f r) xs) = right_rule (f r) xs).
  { intros r Hr. unfold rsumr, right_rule. apply rsum_ext. intros i Hi. unfold rect. rewrite nth0_map by lia. reflexivity. }
  assert (Hin : irr_input (length xs) xr yr).
  { split; [exact Hn|]. split; [destruct xr; [simpl in Lx; lia|discriminate]|]. split; [congruence|]. split; [|split].
    - intros l Hl. apply in_map_iff in Hl. destruct Hl as (r & <- & _). auto.
    - intros l Hl. apply in_map_iff in Hl. destruct Hl as (r & <- & Hr). apply in_seq in Hr. split; [apply map_length|].
      intros i Hi. rewrite nth0_map by auto. apply H0; [lia|apply nth_In; auto].
    - rewrite Lx. intros r Hr. unfold at2. rewrite Hx, Hy by auto. specialize (Ha r Hr). rewrite <- Hrule in Ha by auto. exact Ha. }
  destruct (created X (IIrr (length xs) xr yr) HX Hin) as (e' & E & Hm & HD & Hsh' & Hname & _).
  exists e', (fun r => pdf_of X (KIrr (length xs)) (nth r (input_rows (IIrr (length xs) xr yr)) [])).
  split; [rewrite conv_irr, (extract_xy e n f xs) by auto; exact E|]. split; [exact Hm|]. split; [exact Hname|].
  assert (LD : length (input_rows (IIrr (length xs) xr yr)) = n) by (rewrite input_rows_length by exact Hin; exact Lx).
  split; [pose proof (rep_densities X _ _ e' HD ltac:(discriminate)) as Hd; rewrite LD in Hd; exact Hd|].
  intros r x Hr Hxin. apply (In_nth _ _ 0) in Hxin. destruct Hxin as (i & Hi & <-). change (nth i xs 0) with (nth0 i xs).
  assert (En : nth r (input_rows (IIrr (length xs) xr yr)) [] = [Nums xs; Nums (normalize_interp1d_row xs (map (f r) xs))]).
  { cbn [input_rows]. etransitivity; [apply (map2_nth (fun x y => [Nums x; Nums (normalize_interp1d_row x y)]) xr yr r [] [] []); lia|]. rewrite Hx, Hy by auto. reflexivity. }
  rewrite En. unfold pdf_of. cbn [val num_at cell_at nth nums].
  rewrite interp1d_knot by auto.
  pose proof (ry_nth (length xs) xr yr Hin r ltac:(congruence) i) as N1. unfold ry, rx, ry0 in N1. rewrite Hx, Hy in N1 by auto. rewrite N1, Hrule, nth0_map by auto.
  specialize (Ha r Hr). field. lra.
Qed.

Lemma grid_from_points X k D e m l (G : nat -> R -> R) : represents_in X k D e -> In m (methods k) -> increasing l ->
  (forall x, In x l -> evaluate m e (PScalar x) = Ok (map (fun r => [Fin (G r x)]) (seq 0 (length D)))) ->
  evaluate m e (PGrid l) = table (length D) (fin G) l.
Proof.
  intros HD Hm Hl Hs. rewrite (rep_answers X k D e m (PGrid l) HD Hm Hl). unfold table. f_equal. rewrite map_rows. apply map_ext_in. intros r Hr. apply in_seq in Hr.
  unfold row_answer. apply map_ext_in. intros x Hx. specialize (Hs x Hx). rewrite (rep_answers X k D e m (PScalar x) HD Hm I) in Hs.
  destruct (read_rows D (fun d => val (s_phi X) (s_Phi X) (s_quad X) (s_Phinv X) k m d x) (fun r => Fin (G r x)) (length D) Hs) as [_ H]. apply H. lia.
Qed.
(** an ensemble of [n] PDFs in a row whose quantiles, strictly between 0 and 1, are [Q] *)
Definition inside (l : list R) : Prop := forall p, In p l -> 0 < p < 1.
Definition quantiles (e : ens R) (n : nat) (Q : nat -> R -> R) : Prop :=
  (0 < n)%nat /\ g_shape (e_obj e) = [n] /\ forall l, increasing l -> inside l -> ens_ppf e (PGrid l) = table n (fin Q) l.
Lemma extract_quants e n Q qs : quantiles e n Q -> increasing qs -> inside qs ->
  extract_quantiles e [("quants", VArr (nd1 qs))] = Ok [("quants", VArr (nd1 qs)); ("locs", VArr (nd2 (length qs) (at_grid Q qs n)))].
Proof.
  intros (Hn & Hsh & Hq) Hs Hi. unfold extract_quantiles. change (grid_arg [("quants", VArr (nd1 qs))] "quants") with (Ok (A := list R) qs). cbn [bind].
  rewrite Hq by auto. rewrite table_rows. cbn [bind]. rewrite table_fin by (rewrite map_length, seq_length; exact Hsh). reflexivity.
Qed.
Lemma float_eps_R : float_eps = / 2 ^ 52.
Proof. unfold float_eps, nfrac. numR. change (2 ^ 52)%Z with 4503599627370496%Z. lra. Qed.
Lemma convert_quant X hs mf xy : forall e n Q qs, fill_outside X -> interpolates (s_quad X) -> quantiles e n Q -> increasing qs -> (2 <= length qs)%nat ->
  inside qs -> / 2 ^ 52 < nth0 0 qs -> (forall r, (r < n)%nat -> increasing (map (Q r) qs)) ->
  exists e' F Q', factory_convert (QH X hs mf xy) (QW X hs mf xy) e "quant" [("quants", VArr (nd1 qs))] = Ok e' /\
    made X [MPdf; MCdf; MPpf] e' /\ g_name (e_obj e') = "quant" /\ source e' n F /\ quantiles e' n Q' /\
    forall r p, (r < n)%nat -> In p qs -> Q' r p = Q r p /\ F r (Q r p) = p.
Proof.
  intros e n Q qs HX HI Hq Hs Hn Hins He Hinc. pose proof Hq as (Hpos & Hsh & _). set (rows := at_grid Q qs n).
  assert (L : length rows = n) by (unfold rows, at_grid; rewrite map_length, seq_length; reflexivity).
  assert (H0 : 0 < nth0 0 qs < 1) by (apply Hins; apply nth_In; lia).
  assert (H1 : 0 < nlast qs < 1) by (rewrite IntegrateTheorems.nlast_nth0; apply Hins; apply nth_In; lia).
  assert (Hqi : quant_input qs rows).
  { split; [exact Hs|]. split; [exact Hn|]. split; [lra|]. split; [lra|]. split; [destruct rows; [simpl in L; lia|discriminate]|].
    intros row Hr. apply in_map_iff in Hr. destruct Hr as (r & <- & Hr). apply in_seq in Hr. split; [apply map_length|apply Hinc; lia]. }
  assert (Hnm : In "piecewise_linear" pdf_constructor_names) by (vm_compute; tauto).
  assert (Hin : input_ok (IQuant qs rows "piecewise_linear")).
  { split; [exact Hqi|]. split; [exact Hnm|]. rewrite float_eps_R. split; [right; exact He|right; left; exact He]. }
  destruct (created X _ HX Hin) as (e' & E & Hm & HD & Hsh' & Hname & Eobj). set (k := input_kind _) in HD. set (D := input_rows _) in HD.
  assert (LD : length D = n) by (unfold D; rewrite input_rows_length by exact Hin; exact L).
  cbn [input_npdf] in Hsh'. rewrite L in Hsh'.
  destruct (c12 qs rows "piecewise_linear" Hqi Hnm) as (q & Eq & _).
  assert (Edat : length (dat (nd2 (length qs) rows)) <> 0%nat).
  { cbn [nd2 dat]. destruct rows as [|r0 rows0] eqn:Erows; [simpl in L; lia|]. destruct Hqi as (_ & _ & _ & _ & _ & Hr). cbn [concat]. rewrite app_length. destruct (Hr r0 (or_introl eq_refl)) as [-> _]. lia. }
  assert (Eo : e_obj e' = quant_obj (s_quad X) (s_cubic X) (s_dspline X) q).
  { change (quant_create (s_quad X) (s_cubic X) (s_dspline X) (input_dict (IQuant qs rows "piecewise_linear")) = Ok (e_obj e')) in Eobj.
    cbn [input_dict] in Eobj. rewrite (quant_create_eq _ _ _ qs "piecewise_linear" _ _ Edat (or_intror (or_intror (or_intror eq_refl)))), Eq in Eobj. cbn [bind] in Eobj. congruence. }
  assert (H3 : (3 <= length (q_quants q))%nat).
  { pose proof HD as ((_ & H3 & _) & _). rewrite (quant_build qs rows "piecewise_linear" Hqi Hnm) in Eq. injection Eq as <-. exact H3. }
  destruct (c13 (s_quad X) HI qs rows "piecewise_linear" q Hqi Hnm Eq H3) as (F & Q' & EF & EQ & Hv). rewrite L in EF, EQ, Hv.
  assert (EF' : evaluates (ens_cdf e') n F) by (unfold ens_cdf; rewrite Eo; exact EF).
  assert (EQ' : evaluates_on 0 1 (ens_ppf e') n Q') by (unfold ens_ppf; rewrite Eo; exact EQ).
  exists e', F, Q'. split.
  { rewrite conv_quant, (extract_quants e n Q qs Hq Hs Hins). cbn [bind]. rewrite <- E. reflexivity. }
  split; [exact Hm|]. split; [exact Hname|]. split.
  { split; [exact Hpos|]. split; [exact Hsh'|]. split; [exact EF'|]. intros l Hl. rewrite <- LD. apply (grid_from_points X k D e' MCdf l F HD (cdf_in k) Hl). rewrite LD. intros x _. apply EF'. }
  split.
  { split; [exact Hpos|]. split; [exact Hsh'|]. intros l Hl Hil. rewrite <- LD. apply (grid_from_points X k D e' MPpf l Q' HD); [vm_compute; tauto|exact Hl|]. rewrite LD. intros x Hx. apply EQ'. apply Hil. exact Hx. }
  intros r p Hr Hp. destruct (Hv r Hr) as (V1 & V2 & _). apply (In_nth _ _ 0) in Hp. destruct Hp as (i & Hi & <-). change (nth i qs 0) with (nth0 i qs).
  assert (Ea : at2 rows r i = Q r (nth0 i qs)) by (unfold at2, rows; rewrite at_grid_nth by auto; apply nth0_map; auto).
  rewrite <- Ea. split; [apply V2; auto; apply Hins; apply nth_In; auto|apply V1; auto].
Qed.

(** ** The hypotheses hold for reachable ensembles *)
Lemma made_shape X M e : fill_outside X -> made X M e -> g_shape (e_obj e) = [e_npdf e] /\ (0 < e_npdf e)%nat.
Proof.
  intros HX He. destruct (made_rep X M e HX He) as (k & D & HD & _). rewrite (rep_npdf' X k D e HD). pose proof HD as (_ & Hne & _ & _ & (_ & _ & _ & Hsh & _)).
  split; [exact Hsh|destruct D; [congruence|simpl; lia]].
Qed.
Lemma source_reachable : forall X M e, fill_outside X -> made X M e -> exists F, source e (e_npdf e) F.
Proof.
  intros X M e HX He. destruct (made_shape X M e HX He) as [H1 H2]. destruct (c36_reachable X M e HX He) as (F & HF). exists F. split; [exact H2|]. split; [exact H1|exact HF].
Qed.
Lemma proper_reachable : forall X M e, fill_outside X -> normal_laws (s_phi X) (s_Phi X) -> made X M e -> proper_class e ->
  exists f F, densities e (e_npdf e) f /\ source e (e_npdf e) F /\ forall r, (r < e_npdf e)%nat -> distribution (f r) (F r).
Proof.
  intros X M e HX HN He Hq. destruct (made_shape X M e HX He) as [H1 H2]. destruct (c81_proper X M e HX HN He Hq) as (f & F & Hf & HF & Hp).
  exists f, F. split; [split; [exact H2|split; [exact H1|exact Hf]]|]. split; [split; [exact H2|split; [exact H1|exact HF]]|exact Hp].
Qed.
(** ** What qp's own classes register *)
Lemma qp_mro X hs mf xy : mro_ok (QH X hs mf xy).
Proof. intros c. exists [0%nat]. reflexivity. Qed.
Lemma qp_creation X hs mf xy c m : (1 <= c <= 7)%nat -> exists f, method_of (QH X hs mf xy) (QW X hs mf xy) Creation c m = Some f.
Proof.
  intros Hc. assert (G : forall c, In c (seq 1 7) -> exists f, method_of (QH X hs mf xy) (QW X hs mf xy) Creation c m = Some f).
  { apply Forall_forall. repeat constructor; eexists; destruct m; reflexivity. }
  apply G. apply in_seq. lia.
Qed.
Lemma qp_agree X hs mf xy : forall e name c kw, dget String.eqb (w_registry (QW X hs mf xy)) name = Some c ->
  factory_convert (QH X hs mf xy) (QW X hs mf xy) e name kw = convert_to (QH X hs mf xy) (QW X hs mf xy) e c kw.
Proof.
  intros e name c kw Hc. apply c35_agree; [exact Hc|]. intros m _.
  assert (Hr : (1 <= c <= 7)%nat).
  { rewrite QW_registry in Hc. apply dget_in in Hc. repeat (destruct Hc as [Hc|Hc]; [injection Hc as _ <-; lia|]). destruct Hc. }
  destruct (qp_creation X hs mf xy c m Hr) as (f & ->). discriminate.
Qed.
Lemma qp_extraction X hs mf xy : forall m,
  let H := QH X hs mf xy in let w := QW X hs mf xy in
  method_of H w Extraction 1 m = Some (ExtractFun (match m with Some s => if String.eqb s "samples" then hs else extract_hist_values | None => extract_hist_values end)) /\
  method_of H w Extraction 2 m = Some (ExtractFun extract_vals_at_x) /\
  method_of H w Extraction 3 m = Some (ExtractFun extract_xy_vals) /\
  method_of H w Extraction 4 m = Some (ExtractFun mf) /\
  method_of H w Extraction 5 m = Some (ExtractFun extract_quantiles) /\
  method_of H w Extraction 6 m = Some (ExtractFun (extract_and_pack log10R pow10R)) /\
  method_of H w Extraction 7 m = None.
Proof.
  intros m. cbv zeta. split; [|repeat split; destruct m; reflexivity].
  assert (E : forall m, method_of (QH X hs mf xy) (QW X hs mf xy) Extraction 1 m = get_val_or_default [(None, ExtractFun extract_hist_values); (Some "samples", ExtractFun hs)] m) by reflexivity.
  rewrite E. destruct m as [s|]; [|reflexivity]. unfold get_val_or_default. cbn [dget okey_eqb]. destruct (String.eqb s "samples"); reflexivity.
Qed.
(** ** The ppf at 0 and 1 *)
Lemma infinite_ends : forall X M e, fill_outside X -> made X M e -> g_name (e_obj e) <> "mixmod" -> g_name (e_obj e) <> "norm" -> g_name (e_obj e) <> "spline" ->
  ens_ppf e (PScalar 0) = Ok (map (fun _ => [NInf]) (seq 0 (e_npdf e))) /\ ens_ppf e (PScalar 1) = Ok (map (fun _ => [PInf]) (seq 0 (e_npdf e))).
Proof.
  intros X M e HX He H1 H2 H3. destruct (made_rep X M e HX He) as (k & D & HD & _). destruct (rep_meta X k D e HD) as (_ & _ & Hn). rewrite Hn in H1, H2, H3.
  assert (Hm : In MPpf (methods k)).
  { destruct k; cbn; auto; try (exfalso; apply H3; reflexivity); try (exfalso; apply H1; reflexivity); destruct (String.eqb _ _ || String.eqb _ _); cbn; auto. }
  rewrite (rep_npdf' X k D e HD).
  assert (E0 : forall Q, ends Q 0 = NInf) by (intros Q; unfold ends, with_ends; destruct (Rlt_dec 0 0); [lra|]; destruct (Req_EM_T 0 0); [reflexivity|congruence]).
  assert (E1 : forall Q, ends Q 1 = PInf) by (intros Q; unfold ends, with_ends; destruct (Rlt_dec 0 1); [|lra]; destruct (Rlt_dec 1 1); [lra|]; destruct (Req_EM_T 1 1); [reflexivity|congruence]).
  assert (Ev : forall d, exists Q, forall p, val (s_phi X) (s_Phi X) (s_quad X) (s_Phinv X) k MPpf d p = ends Q p).
  { intros d. destruct k; try (eexists; intros p; reflexivity); exfalso; [apply H1|apply H3|apply H2]; reflexivity. }
  assert (Hp : forall p, ens_ppf e (PScalar p) = Ok (map (fun r => [val (s_phi X) (s_Phi X) (s_quad X) (s_Phinv X) k MPpf (nth r D []) p]) (seq 0 (length D)))).
  { intros p. change (ens_ppf e (PScalar p)) with (evaluate MPpf e (PScalar p)). rewrite (rep_answers X k D e MPpf (PScalar p) HD Hm I), map_rows. reflexivity. }
  split; rewrite Hp; f_equal; apply map_ext; intros r; destruct (Ev (nth r D [])) as (Q & ->); [rewrite E0|rewrite E1]; reflexivity.
Qed.
