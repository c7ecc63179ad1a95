(** What Ensemble.plot_native draws for quantiles (C165). *)
From Coq Require Import String List Arith ZArith Bool Lia Reals Lra.
From Verif Require Import Num NumProofs Py NdArray NumpyLib Utils ScipyWrap QuantPdf Spec Values Ensemble Classes
  SortProofs BinProofs EvalProofs NdProofs InterpProofs QuantTheorems Kinds KindProofs EnsembleProofs KindInputs ReachProofs RowProofs EnsembleTheorems IntegrateTheorems ConvertTheorems
  MetricsProofs MetricsExamples CommuteTheorems Plotting PlottingTheorems PlotNativeTheorems PlotHist PlotHistTheorems PlotQuant.
From Verif Require AllocTheorems.
Import ListNotations.
Local Open Scope string_scope.
Local Open Scope list_scope.
Local Open Scope R_scope.

(** ** Specification *)
(** the user's keywords with defaults for label and colour *)
Definition quant_keywords (kw : kwargs R) : kwargs R :=
  let kw := others kw in
  let kw := match kget kw "label" with Some _ => kw | None => kw ++ [("label", PText "Quantiles")] end in
  match kget kw "color" with Some _ => kw | None => kw ++ [("color", PText "blueviolet")] end.
(** the marks: the locations given by the user, and at most one more on either side *)
Definition marks_of (given marks : list R) : Prop := exists front back, marks = front ++ given ++ back /\ (length front <= 1)%nat /\ (length back <= 1)%nat.

Lemma kget_app (kw : kwargs R) k v name : kget (kw ++ [(k, v)]) name = match kget kw name with Some u => Some u | None => if String.eqb k name then Some v else None end.
Proof.
  unfold kget. induction kw as [|[a b] kw IH]; [cbn [app find fst]; destruct (String.eqb k name); reflexivity|]. cbn [app find fst]. destruct (String.eqb a name); [reflexivity|exact IH].
Qed.
(** there is always a label already *)
Lemma labelled kw : exists v, kget (quant_keywords kw) "label" = Some v /\ (kget kw "label" = None -> v = PText "Quantiles").
Proof.
  unfold quant_keywords. set (k1 := match kget (others kw) "label" with Some _ => others kw | None => others kw ++ [("label", PText "Quantiles")] end).
  assert (L : kget (others kw) "label" = kget kw "label") by (rewrite <- others_del, !kget_del by discriminate; reflexivity).
  assert (H : exists v, kget k1 "label" = Some v /\ (kget kw "label" = None -> v = PText "Quantiles")).
  { unfold k1. destruct (kget (others kw) "label") as [v|] eqn:E; [exists v; split; [exact E|congruence]|]. exists (PText "Quantiles"). split; [|reflexivity]. rewrite kget_app, E. reflexivity. }
  destruct H as (v & H & Hv). exists v. split; [|exact Hv]. destruct (kget k1 "color"); [exact H|]. rewrite kget_app, H. reflexivity.
Qed.

(** C165 *)
Lemma c165_native : forall X quants rows name e key p mark_kw line_kw kw lo hi n c, fill_outside X -> KindInputs.input_ok (IQuant quants rows name) -> name = "piecewise_linear" \/ name = "piecewise_constant" ->
  ens_new (create_of (qp X) "quant") (input_dict (IQuant quants rows name)) None = Ok e -> picks (length rows) key [p] ->
  told kw "axes" PNone -> told kw "xlim" (PLim lo hi) -> lo < hi -> counted kw n -> (2 <= n)%nat -> (forall kv, In kv (quant_keywords kw) -> mark_kw (fst kv) = true /\ line_kw (fst kv) = true) ->
  exists f marks xlabel ylabel, has_density X e (length rows) f /\ marks_of (nth p rows []) marks /\
    quant_plot_native mark_kw line_kw c (getitem (qp X) e key) kw = (c ++ [mkaxes (lo, hi) xlabel ylabel []], Ok (length c, mkqdrawn marks (quant_keywords kw) [curve (f p) lo hi n] (quant_keywords kw))).
Proof.
  intros X quants rows name e key p mark_kw line_kw kw lo hi n c HX Hok Hname E Hp Tx Tl Hlo Hc Hn Hd. set (i := IQuant quants rows name) in *.
  assert (HM : In MPdf (input_methods i)) by (destruct Hname as [->| ->]; cbn; auto).
  destruct (new_density X i HX Hok HM) as (e1 & E1 & M1 & A1 & D1 & _). change (ens_new (create_of (qp X) (input_name i)) (input_dict i) None) with (ens_new (create_of (qp X) "quant") (input_dict i) None) in E1. rewrite E in E1. injection E1 as <-.
  destruct (created X i HX Hok) as (e1 & E1 & _ & R1 & _). change (ens_new (create_of (qp X) (input_name i)) (input_dict i) None) with (ens_new (create_of (qp X) "quant") (input_dict i) None) in E1. rewrite E in E1. injection E1 as <-.
  pose proof (proj2 (picks_iff _ _ _) Hp) as Hk. change (length rows) with (input_npdf i) in Hk. rewrite <- (input_rows_length i Hok) in Hk. assert (Hlt : (p < length (input_rows i))%nat) by (eapply key_positions_lt; [exact Hk|left; reflexivity]).
  destruct (getitem_rep (s_phi X) (s_Phi X) (s_quad X) (s_cubic X) (s_dspline X) (s_Phinv X) HX _ _ e key [p] None R1 Hk ltac:(discriminate) (proj1 A1) I ltac:(intros _; exact I)) as (part & Ep & RP & _).
  change (getitem (qp X) e key = Ok part) in Ep. assert (Hr : (p < length rows)%nat) by (cbn [i input_rows] in Hlt; rewrite map_length in Hlt; exact Hlt).
  set (w := pad_locs quants (nth p rows [])). assert (Hrow : nth p (input_rows i) [] = [Nums w]).
  { cbn [i input_rows]. rewrite (nth_indep _ [] ((fun r => [Nums (pad_locs quants r)]) [])) by (rewrite map_length; exact Hr). rewrite (map_nth (fun r => [Nums (pad_locs quants r)])). reflexivity. }
  change (input_npdf i) with (length rows) in D1. set (f := fun j => pdf_of X (input_kind i) (nth j (input_rows i) [])) in *.
  destruct (selected_pdf X e (length rows) f key [p] None (np_linspace lo hi n) HX D1 Hp ltac:(discriminate) A1 ltac:(intros _; exact I) (spots_inc _ _ _ Hlo Hn)) as (part' & Ep' & Ev). rewrite Ep in Ep'. injection Ep' as <-.
  exists f, w. do 2 eexists. split; [exact D1|]. split.
  - unfold w, pad_locs. do 2 eexists. split; [reflexivity|]. split; [destruct (pad_lo quants); cbn; lia|destruct (pad_hi quants); cbn; lia].
  - rewrite Ep. unfold told, counted in *. unfold quant_plot_native, get_axes_and_xlims. rewrite Tx, kpop_del, Tl by discriminate. unfold make_figure_axes. cbn [bind]. rewrite (kpop_del _ "xlim" "npts"), (kpop_del _ "axes" "npts") by discriminate. rewrite Hc, others_del.
    destruct (rep_meta X _ _ _ RP) as (_ & Eo & _). unfold dist_locs. rewrite Eo. assert (Es : select [] (input_rows i) [p] = [[Nums w]]) by (unfold select; cbn [map]; f_equal; exact Hrow). rewrite Es.
    change (vget (cols (input_kind i) [[Nums w]]) "locs") with (Some (VArr (mknd [1; length (pad_quants quants)]%nat (w ++ [])))). cbn [dat bind]. rewrite app_nil_r, Ev. cbn [map bind]. unfold plot_pdf_quantiles_on_axes.
    change (ksetdefault (ksetdefault (others kw) "label" (PText "Quantiles")) "color" (PText "blueviolet")) with (quant_keywords kw).
    replace (forallb (fun kv => mark_kw (fst kv)) (quant_keywords kw)) with true by (symmetry; apply forallb_forall; intros kv Hin; apply (Hd kv Hin)). cbn [negb mpl_lines bind].
    unfold ksetdefault. destruct (labelled kw) as (v & -> & _).
    replace (forallb (fun kv => line_kw (fst kv)) (quant_keywords kw)) with true by (symmetry; apply forallb_forall; intros kv Hin; apply (Hd kv Hin)). cbn [bind]. rewrite one_line by exact Hn. reflexivity.
Qed.
(** on axes given by the user: the same drawing over the limits of these axes, and no new axes *)
Lemma c165_axes : forall X quants rows name e key p mark_kw line_kw kw j ax n c, fill_outside X -> KindInputs.input_ok (IQuant quants rows name) -> name = "piecewise_linear" \/ name = "piecewise_constant" ->
  ens_new (create_of (qp X) "quant") (input_dict (IQuant quants rows name)) None = Ok e -> picks (length rows) key [p] ->
  told kw "axes" (PAxes j) -> told kw "xlim" PNone -> nth_error c j = Some ax -> fst (a_lim ax) < snd (a_lim ax) -> counted kw n -> (2 <= n)%nat -> (forall kv, In kv (quant_keywords kw) -> mark_kw (fst kv) = true /\ line_kw (fst kv) = true) ->
  exists f marks, has_density X e (length rows) f /\ marks_of (nth p rows []) marks /\
    quant_plot_native mark_kw line_kw c (getitem (qp X) e key) kw = (c, Ok (j, mkqdrawn marks (quant_keywords kw) [curve (f p) (fst (a_lim ax)) (snd (a_lim ax)) n] (quant_keywords kw))).
Proof.
  intros X quants rows name e key p mark_kw line_kw kw j ax n c HX Hok Hname E Hp Tx Tl Hax Hlo Hc Hn Hd. set (lo := fst (a_lim ax)) in *. set (hi := snd (a_lim ax)) in *. destruct (unplaced_told kw lo hi) as (Ux & Ul).
  assert (Eo : others (unplaced kw lo hi) = others kw) by (rewrite <- !others_del; fold (native_others (unplaced kw lo hi)); rewrite unplaced_others; reflexivity).
  assert (Eb : quant_keywords (unplaced kw lo hi) = quant_keywords kw) by (unfold quant_keywords; rewrite Eo; reflexivity).
  assert (Uc : counted (unplaced kw lo hi) n).
  { unfold counted, kpop in *. change (kget (unplaced kw lo hi) "npts") with (kget (native_others kw) "npts"). unfold native_others. rewrite !kget_del by discriminate. exact Hc. }
  destruct (c165_native X quants rows name e key p mark_kw line_kw (unplaced kw lo hi) lo hi n c HX Hok Hname E Hp Ux Ul Hlo Uc Hn ltac:(rewrite Eb; exact Hd)) as (f & marks & xl & yl & D1 & Hm & H). rewrite Eb in H.
  exists f, marks. split; [exact D1|]. split; [exact Hm|].
  unfold quant_plot_native in *. destruct (getitem (qp X) e key) as [part|]; [|discriminate]. destruct (axes_made kw lo hi c) as (ax' & Em). rewrite Em in H. rewrite (axes_given kw j ax c Tx Tl Hax). rewrite (surjective_pairing (a_lim ax)). fold lo hi. f_equal. injection H as _ H. cbn [bind] in *.
  destruct (kpop (native_others kw) "npts" _); try discriminate. destruct (dist_locs part) as [l|]; [|discriminate]. cbn [bind] in *. destruct (ens_pdf part _) as [t|]; [|discriminate]. cbn [bind] in *. destruct (plot_pdf_quantiles_on_axes _ _ _ _ _ _) as [d|]; [|discriminate]. cbn [bind] in *. congruence.
Qed.
(** the default label of the curve is that of the marks; the one meant for the curve is never used *)
Lemma c165_label : forall mark_kw line_kw c selected kw c' j d, kget kw "label" = None -> quant_plot_native (T := R) mark_kw line_kw c selected kw = (c', Ok (j, d)) -> kget (q_curves_kw d) "label" = Some (PText "Quantiles").
Proof.
  intros mark_kw line_kw c selected kw c' j d Hl. unfold quant_plot_native. destruct selected as [e|x]; [|discriminate]. destruct (get_axes_and_xlims c kw) as [c1 r] eqn:G. intros H. injection H as _ H.
  assert (K : forall i l k, r = Ok (i, l, k) -> k = kdel (kdel kw "axes") "xlim").
  { intros i l k ->. unfold get_axes_and_xlims in G. destruct (kpop kw "axes" PNone); try discriminate; destruct (kpop (kdel kw "axes") "xlim" PNone); try discriminate; cbn in G; try (destruct (nth_error c _)); try discriminate; congruence. }
  destruct r as [[[i [lo hi]] k]|x]; [|discriminate]. cbn [bind] in H. rewrite (K _ _ _ eq_refl) in H. clear K G. destruct (kpop _ "npts" _); try discriminate. rewrite others_del in H.
  destruct (dist_locs e) as [locs|]; [|discriminate]. cbn [bind] in H. destruct (ens_pdf e _) as [t|]; [|discriminate]. cbn [bind] in H. unfold plot_pdf_quantiles_on_axes in H.
  change (ksetdefault (ksetdefault (others kw) "label" (PText "Quantiles")) "color" (PText "blueviolet")) with (quant_keywords kw) in H. destruct (labelled kw) as (v & Ev & Hv). specialize (Hv Hl). subst v. unfold ksetdefault in H. rewrite Ev in H.
  destruct (negb _); [discriminate|]. destruct (mpl_lines _ t) as [ls|]; [|discriminate]. cbn [bind] in H. destruct (forallb _ _); [|discriminate]. cbn [bind] in H. injection H as _ <-. exact Ev.
Qed.

(** ** Example *)
Lemma c165_example : exists X quants rows name e mark_kw line_kw (kw ka : kwargs R) lo hi n (c : canvas R) ax, fill_outside X /\ KindInputs.input_ok (IQuant quants rows name) /\ name = "piecewise_linear" /\ ens_new (create_of (qp X) "quant") (input_dict (IQuant quants rows name)) None = Ok e /\ length rows = 2%nat /\
  picks (length rows) (KInt 1) [1%nat] /\ told kw "axes" PNone /\ told kw "xlim" (PLim lo hi) /\ lo < hi /\ counted kw n /\ (2 <= n)%nat /\ (forall kv, In kv (quant_keywords kw) -> mark_kw (fst kv) = true /\ line_kw (fst kv) = true) /\ kget kw "label" = None /\
  told ka "axes" (PAxes 0) /\ told ka "xlim" PNone /\ nth_error c 0 = Some ax /\ fst (a_lim ax) < snd (a_lim ax) /\ counted ka n /\ (forall kv, In kv (quant_keywords ka) -> mark_kw (fst kv) = true /\ line_kw (fst kv) = true).
Proof.
  destruct (created scipy0 _ scipy0_fill AllocTheorems.quant1_ok) as (e & E & _). do 4 eexists. exists e, line_kw0, line_kw0, [("xlim", PLim 0 2); ("npts", PCount 11); ("color", PText "k")], [("axes", PAxes 0); ("npts", PCount 11)], 0, 2, 11%nat, [mkaxes (0, 2) (PText "x") (PText "y") []], (mkaxes (0, 2) (PText "x") (PText "y") []). split; [exact scipy0_fill|]. split; [exact AllocTheorems.quant1_ok|].
  split; [reflexivity|]. split; [exact E|]. split; [reflexivity|]. split; [apply picks_iff; reflexivity|]. split; [reflexivity|]. split; [reflexivity|]. split; [lra|]. split; [reflexivity|]. split; [lia|]. split; [intros kv [<-|[<-|[]]]; split; reflexivity|]. split; [reflexivity|].
  split; [reflexivity|]. split; [reflexivity|]. split; [reflexivity|]. split; [cbn; lra|]. split; [reflexivity|]. intros kv [<-|[<-|[]]]; split; reflexivity.
Qed.
