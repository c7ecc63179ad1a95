(** What Ensemble.plot_native draws for histograms (C164). *)
From Coq Require Import String List Arith ZArith Bool Lia Reals Lra.
From Verif Require Import Num NumProofs Py NdArray NumpyLib Utils ScipyWrap HistPdf Spec Values Ensemble Classes
  SortProofs BinProofs EvalProofs NdProofs InterpProofs HistProofs HistTheorems Kinds KindProofs EnsembleProofs KindInputs ReachProofs RowProofs EnsembleTheorems IntegrateTheorems ConvertTheorems
  MetricsProofs MetricsExamples BrierProofs SplitBinTheorems CommuteTheorems Plotting PlottingTheorems PlotNative PlotNativeTheorems PlotHist.
From Verif Require DigestTheorems InterpPdfProofs.
Import ListNotations.
Local Open Scope string_scope.
Local Open Scope list_scope.
Local Open Scope R_scope.

(** ** Specification *)
Definition bar_area (b : R * R * R) : R := let '(lo, hi, h) := b in h * (hi - lo).
(** the keywords with the defaults for the colour and the label *)
Definition bar_keywords (kw : kwargs R) : kwargs R :=
  let kw := native_others kw in
  let kw := match kget kw "color" with Some _ => kw | None => kw ++ [("color", PText "darkorange")] end in
  match kget kw "label" with Some _ => kw | None => kw ++ [("label", PText "Histogram Interpolated PDF")] end.

(** ** The bars *)
Lemma centers_map (bins : list R) : bin_centers bins = map (fun j => (nth0 j bins + nth0 (S j) bins) / 2) (seq 0 (pred (length bins))).
Proof. exact (DigestTheorems.map2_adj (fun a b => (a + b) / 2) bins). Qed.
Lemma centers_length (bins : list R) : length (bin_centers bins) = pred (length bins).
Proof. rewrite centers_map, map_length, seq_length. reflexivity. Qed.
Lemma centers_nth (bins : list R) j : (S j < length bins)%nat -> nth0 j (bin_centers bins) = (nth0 j bins + nth0 (S j) bins) / 2.
Proof.
  intros Hj. rewrite centers_map. set (g := fun j => (nth0 j bins + nth0 (S j) bins) / 2). unfold nth0 at 1. rewrite (nth_indep _ 0 (g 0%nat)) by (rewrite map_length, seq_length; lia). rewrite (map_nth g), seq_nth by lia. reflexivity.
Qed.
Lemma center_bin bins i j : increasing bins -> (S i < length bins)%nat -> (S j < length bins)%nat -> in_bin bins i (nth0 j (bin_centers bins)) = Nat.eqb j i.
Proof.
  intros Hs Hi Hj. rewrite centers_nth by exact Hj. assert (Lj : nth0 j bins < nth0 (S j) bins) by (apply inc_lt; auto; lia). unfold in_bin.
  destruct (Nat.eqb_spec j i) as [->|Hne].
  - destruct (nleb_reflect (nth0 i bins) ((nth0 i bins + nth0 (S i) bins) / 2)) as [L|L]; cbn in L; [|lra]. destruct (nltb_reflect ((nth0 i bins + nth0 (S i) bins) / 2) (nth0 (S i) bins)) as [L'|L']; cbn in L'; [|lra]. reflexivity.
  - destruct (Nat.lt_ge_cases j i) as [H|H].
    + assert (nth0 (S j) bins <= nth0 i bins) by (apply inc_le; auto; lia). destruct (nleb_reflect (nth0 i bins) ((nth0 j bins + nth0 (S j) bins) / 2)) as [L|L]; cbn in L; [lra|]. reflexivity.
    + assert (nth0 (S i) bins <= nth0 j bins) by (apply inc_le; auto; lia). destruct (nltb_reflect ((nth0 j bins + nth0 (S j) bins) / 2) (nth0 (S i) bins)) as [L|L]; cbn in L; [lra|].
      destruct (neqb_reflect ((nth0 j bins + nth0 (S j) bins) / 2) (nth0 (S i) bins)) as [L'|L']; cbn in L'; [lra|]. rewrite andb_false_r. cbn [orb]. apply andb_false_r.
Qed.
Lemma filtered_sum (f : R * R -> bool) l : nsum (map snd (filter f l)) = rsum (length l) (fun k => if f (nth k l (0, 0)) then snd (nth k l (0, 0)) else 0).
Proof.
  induction l as [|p l IH]; [reflexivity|]. cbn [filter length]. rewrite rsum_S_l. cbn [nth]. rewrite <- IH. destruct (f p); [cbn [map]; apply nsum_cons|lra].
Qed.
(** every bin has one centre, so its bar has the height of its weight *)
Lemma heights bins w : increasing bins -> length w = pred (length bins) -> weighted_histogram (bin_centers bins) w bins = w.
Proof.
  intros Hs Hl. apply (nth_ext _ _ 0 0); unfold weighted_histogram; rewrite map_length, seq_length; [lia|]. intros i Hi.
  match goal with |- nth i (map ?g _) 0 = _ => rewrite (nth_indep _ 0 (g 0%nat)) by (rewrite map_length, seq_length; exact Hi); rewrite (map_nth g) end. rewrite seq_nth by exact Hi. cbn [plus].
  rewrite filtered_sum. rewrite combine_length, centers_length, Hl, Nat.min_id.
  rewrite (rsum_ext _ _ (fun k => if Nat.eqb k i then nth i w 0 else 0)).
  - rewrite rsum_delta. destruct (Nat.ltb_spec i (pred (length bins))); [reflexivity|lia].
  - intros k Hk. rewrite combine_nth by (rewrite centers_length; lia). cbn [fst snd]. change (nth k (bin_centers bins) 0) with (nth0 k (bin_centers bins)). rewrite center_bin by (auto; lia). destruct (Nat.eqb_spec k i) as [->|]; reflexivity.
Qed.
Definition bars_of (bins w : list R) : list (R * R * R) := combine (combine bins (tl bins)) w.
Lemma bars_length bins w : length w = pred (length bins) -> length (bars_of bins w) = pred (length bins).
Proof. intros H. unfold bars_of. rewrite !combine_length, H. destruct bins; cbn [tl length pred]; lia. Qed.
Lemma bars_nth bins w j : length w = pred (length bins) -> (S j < length bins)%nat -> nth_error (bars_of bins w) j = Some (nth0 j bins, nth0 (S j) bins, nth0 j w).
Proof.
  intros Hl Hj. rewrite (nth_error_nth' _ (0, 0, 0)) by (rewrite bars_length; auto; lia). unfold bars_of.
  destruct bins as [|a l]; [cbn in Hj; lia|]. cbn [tl length pred] in *. f_equal. revert a w j Hl Hj. induction l as [|b l IH]; intros a w j Hl Hj; [cbn in Hj; lia|]. destruct w as [|u w]; [discriminate|]. destruct j; [reflexivity|].
  change (nth j (combine (combine (b :: l) l) w) (0, 0, 0) = (nth0 j (b :: l), nth0 (S j) (b :: l), nth0 j w)). apply IH; cbn in *; lia.
Qed.
Lemma bars_area bins w : length w = pred (length bins) -> nsum (map bar_area (bars_of bins w)) = rsum (pred (length bins)) (fun i => nth0 i w * (nth0 (S i) bins - nth0 i bins)).
Proof.
  intros Hl. rewrite nsum_rsum, map_length, bars_length by exact Hl. apply rsum_ext. intros i Hi. unfold nth0 at 1. pose proof (bars_nth bins w i Hl ltac:(lia)) as E. erewrite nth_error_nth; [reflexivity|]. rewrite nth_error_map, E. reflexivity.
Qed.

(** C164 *)
Lemma c164_native : forall X bins rows e key p bar_kw kw lo hi c, fill_outside X -> hist_input bins rows -> (3 <= length bins)%nat -> ens_new (create_of (qp X) "hist") (input_dict (IHist bins rows)) None = Ok e -> picks (length rows) key [p] ->
  told kw "axes" PNone -> told kw "xlim" (PLim lo hi) -> (forall kv, In kv (bar_keywords kw) -> bar_kw (fst kv) = true) ->
  exists f bars xlabel ylabel, has_density X e (length rows) f /\
    hist_plot_native bar_kw c (getitem (qp X) e key) kw = (c ++ [mkaxes (lo, hi) xlabel ylabel []], Ok (length c, mkdrawn bins bars (bar_keywords kw))) /\
    length bars = pred (length bins) /\ (forall j b, nth_error bars j = Some b -> fst (fst b) = nth0 j bins /\ snd (fst b) = nth0 (S j) bins) /\
    nsum (map bar_area bars) = 1 /\
    (sound_bins bins -> (forall b x, In b bars -> fst (fst b) < x < snd (fst b) -> f p x = snd b) /\ (forall x, x < nth0 0 bins \/ nlast bins < x -> f p x = 0)).
Proof.
  intros X bins rows e key p bar_kw kw lo hi c HX Hi H3 E Hp Tx Tl Hd. set (i := IHist bins rows). assert (Hok : KindInputs.input_ok i) by exact Hi.
  destruct (new_density X i HX Hok ltac:(cbn; auto)) as (e1 & E1 & M1 & A1 & D1 & _). change (ens_new (create_of (qp X) (input_name i)) (input_dict i) None) with (ens_new (create_of (qp X) "hist") (input_dict (IHist bins rows)) None) in E1. rewrite E in E1. injection E1 as <-.
  destruct (created X i HX Hok) as (e1 & E1 & _ & R1 & _). change (ens_new (create_of (qp X) (input_name i)) (input_dict i) None) with (ens_new (create_of (qp X) "hist") (input_dict (IHist bins rows)) None) in E1. rewrite E in E1. injection E1 as <-.
  pose proof (proj2 (picks_iff _ _ _) Hp) as Hk. change (length rows) with (input_npdf i) in Hk. rewrite <- (input_rows_length i Hok) in Hk. assert (Hlt : (p < length (input_rows i))%nat) by (eapply key_positions_lt; [exact Hk|left; reflexivity]).
  destruct (getitem_rep (s_phi X) (s_Phi X) (s_quad X) (s_cubic X) (s_dspline X) (s_Phinv X) HX _ _ e key [p] None R1 Hk ltac:(discriminate) (proj1 A1) I ltac:(intros _; exact I)) as (part & Ep & RP & _).
  change (getitem (qp X) e key = Ok part) in Ep. assert (Hr : (p < length rows)%nat) by (cbn [i input_rows] in Hlt; rewrite map_length in Hlt; exact Hlt).
  set (w := hist_norm_row (bin_widths bins) (nth p rows [])). assert (Hrow : nth p (input_rows i) [] = [Nums w]).
  { cbn [i input_rows]. rewrite (nth_indep _ [] ((fun r => [Nums (hist_norm_row (bin_widths bins) r)]) [])) by (rewrite map_length; exact Hr). rewrite (map_nth (fun r => [Nums (hist_norm_row (bin_widths bins) r)])). reflexivity. }
  destruct Hi as (Hs & H2 & _ & Hrows). destruct (Hrows _ (nth_In rows [] Hr)) as (Hl & Hnn & Hpos). assert (Hw : length w = pred (length bins)) by (unfold w; rewrite hist_norm_row_len; exact Hl).
  set (f := fun j => pdf_of X (input_kind i) (nth j (input_rows i) [])) in *. exists f, (bars_of bins w). do 2 eexists. split; [exact D1|].
  assert (Ein : forall b, In b (bars_of bins w) -> exists j, (S j < length bins)%nat /\ b = (nth0 j bins, nth0 (S j) bins, nth0 j w)).
  { intros b Hb. destruct (In_nth_error _ _ Hb) as (j & Ej). assert (Hj : (j < length (bars_of bins w))%nat) by (apply nth_error_Some; congruence). rewrite bars_length in Hj by exact Hw. exists j. split; [lia|]. rewrite (bars_nth bins w j Hw) in Ej by lia. congruence. }
  split; [|split; [apply bars_length; exact Hw|split; [|split; [|intros Hb; split]]]].
  - rewrite Ep. unfold told in *. unfold hist_plot_native, get_axes_and_xlims. rewrite Tx, kpop_del, Tl by discriminate. unfold make_figure_axes. cbn [bind]. fold (native_others kw).
    destruct (rep_meta X _ _ _ RP) as (Em & Eo & _). unfold dist_weights, dist_bins. rewrite Em, Eo. assert (Es : select [] (input_rows i) [p] = [[Nums w]]) by (unfold select; cbn [map]; f_equal; exact Hrow). rewrite Es.
    change (vget (cols (input_kind i) [[Nums w]]) "pdfs") with (Some (VArr (mknd [1; pred (length bins)]%nat (w ++ [])))). change (vget (kind_meta (input_kind i)) "bins") with (Some (VArr (expand_first (nd1 bins)))). cbn [shp dat expand_first nd1]. rewrite app_nil_r.
    destruct (pred (length bins)) as [|[|n]] eqn:En; [lia|lia|]. cbn [bind]. unfold plot_pdf_histogram_on_axes. fold (bar_keywords kw).
    match goal with |- context[mpl_hist _ _ _ _ ?k] => change k with (bar_keywords kw) end. unfold mpl_hist. rewrite centers_length, En, <- Hw, Nat.eqb_refl. cbn [negb].
    replace (forallb (fun kv => bar_kw (fst kv)) (bar_keywords kw)) with true by (symmetry; apply forallb_forall; exact Hd). rewrite heights by (auto; lia). cbn [bind]. reflexivity.
  - intros j b Ej. assert (Hj : (j < length (bars_of bins w))%nat) by (apply nth_error_Some; congruence). rewrite bars_length in Hj by exact Hw. rewrite (bars_nth bins w j Hw) in Ej by lia. injection Ej as <-. split; reflexivity.
  - rewrite bars_area by exact Hw. rewrite (rsum_ext _ _ (fun i => nth0 i (nth p rows []) * (nth0 (S i) bins - nth0 i bins) * / mass bins (nth p rows []))).
    + rewrite InterpPdfProofs.rsum_scale. apply Rinv_r. unfold mass. lra.
    + intros j Hj. unfold w. rewrite norm_row_nth by (auto; lia). unfold Rdiv. ring.
  - intros b x Hin Hx. destruct (Ein b Hin) as (j & Hj & ->). cbn [fst snd] in *. unfold f, pdf_of. rewrite Hrow. cbn [input_kind i val]. unfold num_at, cell_at. cbn [nth nums]. apply hist_point_in; assumption.
  - intros x Hx. unfold f, pdf_of. rewrite Hrow. cbn [input_kind i val]. unfold num_at, cell_at. cbn [nth nums]. apply hist_point_out; assumption.
Qed.
(** ** On axes given by the user: the same drawing, and no new axes *)
Definition unplaced (kw : kwargs R) (lo hi : R) : kwargs R := ("xlim", PLim lo hi) :: native_others kw.
Lemma kget_kdel_same (kw : kwargs R) a : kget (kdel kw a) a = None.
Proof. unfold kget, kdel. induction kw as [|[k v] kw IH]; [reflexivity|]. cbn [filter fst]. destruct (String.eqb_spec k a) as [->|H]; cbn [negb]; [exact IH|]. cbn [find fst]. destruct (String.eqb_spec k a); [congruence|exact IH]. Qed.
Lemma kdel_idem (kw : kwargs R) a : kdel (kdel kw a) a = kdel kw a.
Proof. unfold kdel. induction kw as [|[k v] kw IH]; [reflexivity|]. cbn [filter fst]. destruct (String.eqb k a) eqn:H; cbn [negb]; [exact IH|]. cbn [filter fst]. rewrite H. cbn [negb]. f_equal. exact IH. Qed.
Lemma kdel_swap (kw : kwargs R) a b : kdel (kdel kw a) b = kdel (kdel kw b) a.
Proof. unfold kdel. induction kw as [|[k v] kw IH]; [reflexivity|]. cbn [filter fst]. destruct (String.eqb k a) eqn:Ha, (String.eqb k b) eqn:Hb; cbn [negb filter fst]; rewrite ?Ha, ?Hb; cbn [negb]; rewrite ?IH; reflexivity. Qed.
Lemma unplaced_others kw lo hi : native_others (unplaced kw lo hi) = native_others kw.
Proof.
  unfold unplaced, native_others. change (kdel (("xlim", PLim lo hi) :: kdel (kdel kw "axes") "xlim") "axes") with (("xlim", PLim lo hi : pval R) :: kdel (kdel (kdel kw "axes") "xlim") "axes").
  change (kdel (("xlim", PLim lo hi : pval R) :: kdel (kdel (kdel kw "axes") "xlim") "axes") "xlim") with (kdel (kdel (kdel (kdel kw "axes") "xlim") "axes") "xlim"). rewrite (kdel_swap (kdel (kdel kw "axes") "xlim") "axes" "xlim"), kdel_idem, (kdel_swap (kdel kw "axes") "xlim" "axes"), kdel_idem. reflexivity.
Qed.
Lemma unplaced_told kw lo hi : told (unplaced kw lo hi) "axes" PNone /\ told (unplaced kw lo hi) "xlim" (PLim lo hi).
Proof.
  split; [|reflexivity]. unfold told, kpop. change (kget (unplaced kw lo hi) "axes") with (kget (native_others kw) "axes"). unfold native_others. rewrite kget_del, kget_kdel_same by discriminate. reflexivity.
Qed.
Lemma axes_given (kw : kwargs R) j ax (c : canvas R) : told kw "axes" (PAxes j) -> told kw "xlim" PNone -> nth_error c j = Some ax -> get_axes_and_xlims c kw = (c, Ok (j, a_lim ax, native_others kw)).
Proof. intros Tx Tl Hax. unfold told in *. unfold get_axes_and_xlims. rewrite Tx, kpop_del, Tl by discriminate. rewrite Hax. reflexivity. Qed.
Lemma axes_made kw lo hi (c : canvas R) : exists ax, get_axes_and_xlims c (unplaced kw lo hi) = (c ++ [ax], Ok (length c, (lo, hi), native_others kw)).
Proof.
  destruct (unplaced_told kw lo hi) as (Tx & Tl). unfold told in *. unfold get_axes_and_xlims. rewrite Tx, kpop_del, Tl by discriminate. unfold make_figure_axes. cbn [bind]. fold (native_others (unplaced kw lo hi)). rewrite unplaced_others. eexists. reflexivity.
Qed.
Lemma c164_axes : forall X bins rows e key p bar_kw kw j ax c, fill_outside X -> hist_input bins rows -> (3 <= length bins)%nat -> ens_new (create_of (qp X) "hist") (input_dict (IHist bins rows)) None = Ok e -> picks (length rows) key [p] ->
  told kw "axes" (PAxes j) -> told kw "xlim" PNone -> nth_error c j = Some ax -> (forall kv, In kv (bar_keywords kw) -> bar_kw (fst kv) = true) ->
  exists f bars, has_density X e (length rows) f /\
    hist_plot_native bar_kw c (getitem (qp X) e key) kw = (c, Ok (j, mkdrawn bins bars (bar_keywords kw))) /\
    length bars = pred (length bins) /\ (forall j b, nth_error bars j = Some b -> fst (fst b) = nth0 j bins /\ snd (fst b) = nth0 (S j) bins) /\
    nsum (map bar_area bars) = 1 /\ (sound_bins bins -> forall b x, In b bars -> fst (fst b) < x < snd (fst b) -> f p x = snd b).
Proof.
  intros X bins rows e key p bar_kw kw j ax c HX Hi H3 E Hp Tx Tl Hax Hd. destruct (unplaced_told kw 0 1) as (Ux & Ul).
  assert (Eb : bar_keywords (unplaced kw 0 1) = bar_keywords kw) by (unfold bar_keywords; rewrite unplaced_others; reflexivity).
  destruct (c164_native X bins rows e key p bar_kw (unplaced kw 0 1) 0 1 c HX Hi H3 E Hp Ux Ul ltac:(rewrite Eb; exact Hd)) as (f & bars & xl & yl & D1 & Hn & Hl & Hb & Ha & Hv). rewrite Eb in Hn.
  exists f, bars. split; [exact D1|]. split; [|split; [exact Hl|]; split; [exact Hb|]; split; [exact Ha|]; intros Hs; apply (Hv Hs)].
  unfold hist_plot_native in *. destruct (getitem (qp X) e key) as [part|]; [|discriminate]. destruct (axes_made kw 0 1 c) as (ax' & Em). rewrite Em in Hn. rewrite (axes_given kw j ax c Tx Tl Hax). f_equal. injection Hn as _ Hn. cbn [bind] in *.
  destruct (dist_weights part) as [w|]; [|discriminate]. cbn [bind] in *. destruct (dist_bins part) as [b|]; [|discriminate]. cbn [bind] in *. destruct (plot_pdf_histogram_on_axes _ _ _ _) as [d|]; [|discriminate]. cbn [bind] in *. congruence.
Qed.
(** several PDFs are refused, after the axes have been made *)
Lemma c164_several : forall X bins rows e key ps bar_kw kw lo hi c, fill_outside X -> hist_input bins rows -> ens_new (create_of (qp X) "hist") (input_dict (IHist bins rows)) None = Ok e -> picks (length rows) key ps -> (2 <= length ps)%nat ->
  told kw "axes" PNone -> told kw "xlim" (PLim lo hi) ->
  exists xlabel ylabel, hist_plot_native bar_kw c (getitem (qp X) e key) kw = (c ++ [mkaxes (lo, hi) xlabel ylabel []], Err ValueError).
Proof.
  intros X bins rows e key ps bar_kw kw lo hi c HX Hi E Hp Hps Tx Tl. set (i := IHist bins rows). assert (Hok : KindInputs.input_ok i) by exact Hi.
  destruct (new_density X i HX Hok ltac:(cbn; auto)) as (e1 & E1 & M1 & A1 & D1 & _). change (ens_new (create_of (qp X) (input_name i)) (input_dict i) None) with (ens_new (create_of (qp X) "hist") (input_dict (IHist bins rows)) None) in E1. rewrite E in E1. injection E1 as <-.
  destruct (created X i HX Hok) as (e1 & E1 & _ & R1 & _). change (ens_new (create_of (qp X) (input_name i)) (input_dict i) None) with (ens_new (create_of (qp X) "hist") (input_dict (IHist bins rows)) None) in E1. rewrite E in E1. injection E1 as <-.
  pose proof (proj2 (picks_iff _ _ _) Hp) as Hk. change (length rows) with (input_npdf i) in Hk. rewrite <- (input_rows_length i Hok) in Hk.
  destruct (getitem_rep (s_phi X) (s_Phi X) (s_quad X) (s_cubic X) (s_dspline X) (s_Phinv X) HX _ _ e key ps None R1 Hk ltac:(intros ->; cbn in Hps; lia) (proj1 A1) I ltac:(intros _; exact I)) as (part & Ep & RP & _).
  change (getitem (qp X) e key = Ok part) in Ep. rewrite Ep. unfold told in *. unfold hist_plot_native, get_axes_and_xlims. rewrite Tx, kpop_del, Tl by discriminate. unfold make_figure_axes. cbn [bind].
  destruct (rep_meta X _ _ _ RP) as (_ & Eo & _). unfold dist_weights. rewrite Eo.
  match goal with |- context[cols (input_kind i) ?D] => set (L := D); assert (EL : length L = length ps) by (unfold L; apply select_length); clearbody L end.
  change (vget (cols (input_kind i) L) "pdfs") with (Some (VArr (mknd (length (map nums (map (cell_at 0) L)) :: [pred (length bins)])%nat (concat (map nums (map (cell_at 0) L)))))). cbn [shp]. rewrite !map_length. unfold row in *. rewrite EL.
  destruct (length ps) as [|[|n]]; [lia|lia|]. cbn [bind]. do 2 eexists. reflexivity.
Qed.

(** ** Example *)
Definition bar_kw0 (name : string) : bool := String.eqb name "label" || String.eqb name "color".
Lemma c164_example : exists X bins rows e bar_kw (kw ka : kwargs R) lo hi (c : canvas R) ax, fill_outside X /\ hist_input bins rows /\ sound_bins bins /\ (3 <= length bins)%nat /\ ens_new (create_of (qp X) "hist") (input_dict (IHist bins rows)) None = Ok e /\ length rows = 2%nat /\
  picks (length rows) (KInt 1) [1%nat] /\ picks (length rows) (KSlice 0 2) [0%nat; 1%nat] /\ told kw "axes" PNone /\ told kw "xlim" (PLim lo hi) /\ (forall kv, In kv (bar_keywords kw) -> bar_kw (fst kv) = true) /\ native_others kw <> [] /\ length (bar_keywords kw) = 2%nat /\
  told ka "axes" (PAxes 0) /\ told ka "xlim" PNone /\ nth_error c 0 = Some ax /\ (forall kv, In kv (bar_keywords ka) -> bar_kw (fst kv) = true).
Proof.
  pose proof hist_input_example as (Hi & Hb). destruct (created scipy0 (IHist [0; 1; 3] [[1; 2]; [0; 5]]) scipy0_fill Hi) as (e & E & _).
  exists scipy0, [0; 1; 3], [[1; 2]; [0; 5]], e, bar_kw0, [("xlim", PLim 0 2); ("label", PText "truth")], [("axes", PAxes 0); ("color", PText "k")], 0, 2, [mkaxes (0, 2) (PText "x") (PText "y") []], (mkaxes (0, 2) (PText "x") (PText "y") []). split; [exact scipy0_fill|]. split; [exact Hi|]. split; [exact Hb|]. split; [cbn; lia|]. split; [exact E|]. split; [reflexivity|].
  split; [apply picks_iff; reflexivity|]. split; [apply picks_iff; reflexivity|]. split; [reflexivity|]. split; [reflexivity|]. split; [intros kv [<-|[<-|[]]]; reflexivity|]. split; [discriminate|]. split; [reflexivity|].
  split; [reflexivity|]. split; [reflexivity|]. split; [reflexivity|]. intros kv [<-|[<-|[]]]; reflexivity.
Qed.
