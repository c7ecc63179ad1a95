(** What Ensemble.plot_native draws for grids (C163). *)
From Coq Require Import String List Arith ZArith Bool Lia Reals Lra.
From Verif Require Import Num NumProofs Py NdArray NumpyLib Utils ScipyWrap Spec Values Ensemble Classes Packing
  SortProofs BinProofs EvalProofs NdProofs InterpProofs HistProofs HistTheorems Kinds KindProofs EnsembleProofs KindInputs ReachProofs RowProofs EnsembleTheorems IntegrateTheorems ConvertTheorems
  MetricsProofs MetricsExamples ConvertExamples CommuteTheorems Plotting PlottingTheorems PlotNative.
Import ListNotations.
Local Open Scope string_scope.
Local Open Scope list_scope.
Local Open Scope R_scope.

(** ** Specification *)
(** the classes with one grid for all PDFs *)
Definition has_grid (i : input) (xs : list R) : Prop := match i with IInterp l _ => l = xs | IPacked l _ _ _ _ => l = xs | _ => False end.
(** the point (x, y) lies on the line drawn through the points *)
Definition on_drawing (pts : list (R * R)) (x y : R) : Prop :=
  exists j p q, nth_error pts j = Some p /\ nth_error pts (S j) = Some q /\ fst p <= x <= fst q /\ (y - snd p) * (fst q - fst p) = (snd q - snd p) * (x - fst p).
(** [plot_native] hands these keywords to matplotlib *)
Definition native_others (kw : kwargs R) : kwargs R := kdel (kdel kw "axes") "xlim".
Definition native_drawable (line_kw : string -> bool) (kw : kwargs R) : Prop := forall kv, In kv (native_others kw) -> line_kw (fst kv) = true.
Definition fin_pair (p : R * R) : xnum R * xnum R := (Fin (fst p), Fin (snd p)).

Lemma grid_kind i xs : has_grid i xs -> KindInputs.input_ok i -> increasing xs /\ (2 <= length xs)%nat /\ In MPdf (input_methods i) /\ vget (kind_meta (input_kind i)) "xvals" = Some (VArr (expand_first (nd1 xs))) /\
  forall X d, In d (input_rows i) -> exists ys, forall x, pdf_of X (input_kind i) d x = interp1d xs ys 0 0 x.
Proof.
  intros Hg Hi. destruct i; try destruct Hg; cbn [has_grid] in *.
  - destruct Hi as (H1 & H2 & _). split; [exact H1|]. split; [exact H2|]. split; [cbn; auto|]. split; [reflexivity|]. intros X d _. eexists. intros x. unfold pdf_of. cbn [input_kind val interp_val]. reflexivity.
  - destruct Hi as (H1 & H2 & _). split; [exact H1|]. split; [exact H2|]. split; [cbn; auto|]. split; [reflexivity|]. intros X d _. eexists. intros x. unfold pdf_of. cbn [input_kind val interp_val]. reflexivity.
Qed.
(** a piecewise linear density lies on the line through its values at the grid *)
Lemma exact_drawing xs ys (f : R -> R) x : increasing xs -> (2 <= length xs)%nat -> (forall x, f x = interp1d xs ys 0 0 x) -> nth0 0 xs <= x <= nlast xs -> on_drawing (map (fun x => (x, f x)) xs) x (f x).
Proof.
  intros Hs H2 Hf Hx. destruct (segment_exists_closed xs x (inc_nd _ Hs) H2 Hx) as (j & Hj & Hin). exists j, (nth0 j xs, f (nth0 j xs)), (nth0 (S j) xs, f (nth0 (S j) xs)).
  assert (E : forall k, (k < length xs)%nat -> nth_error (map (fun x => (x, f x)) xs) k = Some (nth0 k xs, f (nth0 k xs))) by (intros k Hk; rewrite nth_error_map, (nth_error_nth' xs 0 Hk); reflexivity).
  split; [apply E; lia|]. split; [apply E; lia|]. cbn [fst snd]. split; [exact Hin|]. rewrite !Hf. rewrite (interp1d_closed xs ys 0 0 x j Hs Hj Hin), !interp1d_knot by (auto; lia). unfold seg.
  assert (nth0 j xs < nth0 (S j) xs) by (apply ss_nth; auto). field. lra.
Qed.
Lemma native_label line_kw kw name d : native_drawable line_kw kw -> line_kw name = false -> name <> "axes" -> name <> "xlim" -> kpop kw name d = d.
Proof.
  intros Hd Hl H1 H2. unfold kpop. destruct (kget kw name) as [v|] eqn:E; [|reflexivity]. assert (E' : kget (native_others kw) name = Some v) by (unfold native_others; rewrite !kget_del by congruence; exact E).
  destruct (kget_in _ _ _ E') as (kv & Hin & <-). rewrite (Hd kv Hin) in Hl. discriminate.
Qed.
(** C163 *)
Lemma c163_native : forall X i xs e key p line_kw kw lo hi c, fill_outside X -> KindInputs.input_ok i -> has_grid i xs -> ens_new (create_of (qp X) (input_name i)) (input_dict i) None = Ok e -> picks (input_npdf i) key [p] -> lines_only line_kw ->
  told kw "axes" PNone -> told kw "xlim" (PLim lo hi) -> native_drawable line_kw kw ->
  exists f pts, has_density X e (input_npdf i) f /\
    grid_plot_native line_kw c (getitem (qp X) e key) kw = (c ++ [mkaxes (lo, hi) (PText "redshift") (PText "p(z)") [(map fin_pair pts, native_others kw)]], Ok (length c)) /\
    map fst pts = xs /\ (forall x y, In (x, y) pts -> y = f p x) /\ (forall x, nth0 0 xs <= x <= nlast xs -> on_drawing pts x (f p x)) /\ (forall x, x < nth0 0 xs \/ nlast xs < x -> f p x = 0).
Proof.
  intros X i xs e key p line_kw kw lo hi c HX Hi Hg E Hp [Lx Ly] Tx Tl Hd. destruct (grid_kind i xs Hg Hi) as (Hs & H2 & HM & Hmeta & Hpdf).
  destruct (new_density X i HX Hi HM) as (e1 & E1 & M1 & A1 & D1 & _). rewrite E in E1. injection E1 as <-. destruct (created X i HX Hi) as (e1 & E1 & _ & R1 & _). rewrite E in E1. injection E1 as <-.
  set (f := fun j => pdf_of X (input_kind i) (nth j (input_rows i) [])) in *.
  pose proof (proj2 (picks_iff _ _ _) Hp) as Hk. rewrite <- (input_rows_length i Hi) in Hk. assert (Hlt : (p < length (input_rows i))%nat) by (eapply key_positions_lt; [exact Hk|left; reflexivity]).
  destruct (getitem_rep (s_phi X) (s_Phi X) (s_quad X) (s_cubic X) (s_dspline X) (s_Phinv X) HX _ _ e key [p] None R1 Hk ltac:(discriminate) (proj1 A1) I ltac:(intros _; exact I)) as (part & Ep & RP & _).
  destruct (selected_pdf X e (input_npdf i) f key [p] None xs HX D1 Hp ltac:(discriminate) A1 ltac:(intros _; exact I) Hs) as (part' & Ep' & Ev). change (getitem (qp X) e key = Ok part) in Ep. rewrite Ep in Ep'. injection Ep' as <-.
  destruct (Hpdf X (nth p (input_rows i) []) (nth_In _ _ Hlt)) as (ys & Hys). change (forall x, f p x = interp1d xs ys 0 0 x) in Hys.
  exists f, (map (fun x => (x, f p x)) xs). split; [exact D1|]. split; [|split; [rewrite map_map; cbn [fst]; apply map_id|split; [|split]]].
  - rewrite Ep. unfold told in *. unfold grid_plot_native, get_axes_and_xlims. rewrite Tx, kpop_del, Tl by discriminate. unfold make_figure_axes. cbn [bind]. rewrite !kpop_del by discriminate. fold (native_others kw).
    rewrite (native_label line_kw kw "xlabel") by (auto; discriminate). rewrite (native_label line_kw kw "ylabel") by (auto; discriminate).
    unfold dist_xvals. destruct (rep_meta X _ _ _ RP) as (-> & _). rewrite Hmeta. cbn [expand_first nd1 dat]. unfold plot_pdf_on_axes. rewrite Ev. cbn [map]. unfold mpl_plot. cbn [mpl_lines].
    replace (forallb (fun kv => line_kw (fst kv)) (native_others kw)) with true by (symmetry; apply forallb_forall; exact Hd). rewrite combine_map.
    pose proof (at_end c (mkaxes (lo, hi) (PText "redshift") (PText "p(z)") []) (mkaxes (lo, hi) (PText "redshift") (PText "p(z)") [(map fin_pair (map (fun x => (x, f p x)) xs), native_others kw)])) as G.
    rewrite nth_error_app2, Nat.sub_diag in * by lia. cbn [nth_error a_lim a_xlabel a_ylabel a_lines app map bind] in *. rewrite map_map in *. unfold fin_pair in *. cbn [fst snd] in *. rewrite G. reflexivity.
  - intros x y Hin. apply in_map_iff in Hin. destruct Hin as (z & Ez & _). injection Ez as <- <-. reflexivity.
  - intros x Hx. apply (exact_drawing xs ys (f p) x Hs H2 Hys Hx).
  - intros x Hx. rewrite Hys. destruct Hx as [Hx|Hx]; [apply interp1d_below; exact Hx|]. apply interp1d_above; [|exact Hx]. rewrite nlast_nth0. destruct (Nat.eq_dec (pred (length xs)) 0) as [H0|H0]; [lia|]. left. apply ss_nth; [exact Hs|lia].
Qed.
(** the same line on axes given by the user; nothing else changes *)
Lemma c163_axes : forall X i xs e key p line_kw kw j ax c, fill_outside X -> KindInputs.input_ok i -> has_grid i xs -> ens_new (create_of (qp X) (input_name i)) (input_dict i) None = Ok e -> picks (input_npdf i) key [p] ->
  told kw "axes" (PAxes j) -> told kw "xlim" PNone -> nth_error c j = Some ax -> native_drawable line_kw kw ->
  exists f pts c', has_density X e (input_npdf i) f /\ grid_plot_native line_kw c (getitem (qp X) e key) kw = (c', Ok j) /\ length c' = length c /\
    nth_error c' j = Some (mkaxes (a_lim ax) (a_xlabel ax) (a_ylabel ax) (a_lines ax ++ [(map fin_pair pts, native_others kw)])) /\ (forall k, k <> j -> nth_error c' k = nth_error c k) /\
    map fst pts = xs /\ (forall x y, In (x, y) pts -> y = f p x) /\ (forall x, nth0 0 xs <= x <= nlast xs -> on_drawing pts x (f p x)).
Proof.
  intros X i xs e key p line_kw kw j ax c HX Hi Hg E Hp Tx Tl Hax Hd. destruct (grid_kind i xs Hg Hi) as (Hs & H2 & HM & Hmeta & Hpdf).
  destruct (new_density X i HX Hi HM) as (e1 & E1 & M1 & A1 & D1 & _). rewrite E in E1. injection E1 as <-. destruct (created X i HX Hi) as (e1 & E1 & _ & R1 & _). rewrite E in E1. injection E1 as <-.
  set (f := fun j => pdf_of X (input_kind i) (nth j (input_rows i) [])) in *.
  pose proof (proj2 (picks_iff _ _ _) Hp) as Hk. rewrite <- (input_rows_length i Hi) in Hk. assert (Hlt : (p < length (input_rows i))%nat) by (eapply key_positions_lt; [exact Hk|left; reflexivity]).
  destruct (getitem_rep (s_phi X) (s_Phi X) (s_quad X) (s_cubic X) (s_dspline X) (s_Phinv X) HX _ _ e key [p] None R1 Hk ltac:(discriminate) (proj1 A1) I ltac:(intros _; exact I)) as (part & Ep & RP & _).
  destruct (selected_pdf X e (input_npdf i) f key [p] None xs HX D1 Hp ltac:(discriminate) A1 ltac:(intros _; exact I) Hs) as (part' & Ep' & Ev). change (getitem (qp X) e key = Ok part) in Ep. rewrite Ep in Ep'. injection Ep' as <-.
  destruct (Hpdf X (nth p (input_rows i) []) (nth_In _ _ Hlt)) as (ys & Hys). change (forall x, f p x = interp1d xs ys 0 0 x) in Hys.
  assert (G : exists c', grid_plot_native line_kw c (getitem (qp X) e key) kw = (c', Ok j) /\ length c' = length c /\
    nth_error c' j = Some (mkaxes (a_lim ax) (a_xlabel ax) (a_ylabel ax) (a_lines ax ++ [(map fin_pair (map (fun x => (x, f p x)) xs), native_others kw)])) /\ forall k, k <> j -> nth_error c' k = nth_error c k).
  { rewrite Ep. unfold told in *. unfold grid_plot_native, get_axes_and_xlims. rewrite Tx, kpop_del, Tl by discriminate. rewrite Hax. fold (native_others kw).
    unfold dist_xvals. destruct (rep_meta X _ _ _ RP) as (-> & _). rewrite Hmeta. cbn [expand_first nd1 dat]. unfold plot_pdf_on_axes. rewrite Ev. cbn [map]. unfold mpl_plot. cbn [mpl_lines].
    replace (forallb (fun kv => line_kw (fst kv)) (native_others kw)) with true by (symmetry; apply forallb_forall; exact Hd). rewrite combine_map, map_map. cbn [map]. rewrite Hax. cbn [bind]. eexists. split; [reflexivity|]. exact (nth_replaced c j ax _ Hax). }
  destruct G as (c' & G1 & G2 & G3 & G4). exists f, (map (fun x => (x, f p x)) xs), c'. split; [exact D1|]. split; [exact G1|]. split; [exact G2|]. split; [exact G3|]. split; [exact G4|]. split; [rewrite map_map; cbn [fst]; apply map_id|]. split.
  - intros x y Hin. apply in_map_iff in Hin. destruct Hin as (z & Ez & _). injection Ez as <- <-. reflexivity.
  - intros x Hx. apply (exact_drawing xs ys (f p) x Hs H2 Hys Hx).
Qed.
(** [npts], which [plot] takes, makes [plot_native] fail after the axes have been made *)
Lemma c163_npts : forall X i xs e key p line_kw kw lo hi c v, fill_outside X -> KindInputs.input_ok i -> has_grid i xs -> ens_new (create_of (qp X) (input_name i)) (input_dict i) None = Ok e -> picks (input_npdf i) key [p] -> line_kw "npts" = false ->
  told kw "axes" PNone -> told kw "xlim" (PLim lo hi) -> kget kw "npts" = Some v ->
  exists xlabel ylabel, grid_plot_native line_kw c (getitem (qp X) e key) kw = (c ++ [mkaxes (lo, hi) xlabel ylabel []], Err AttributeError).
Proof.
  intros X i xs e key p line_kw kw lo hi c v HX Hi Hg E Hp Ln Tx Tl Hv. destruct (grid_kind i xs Hg Hi) as (Hs & H2 & HM & Hmeta & Hpdf).
  destruct (new_density X i HX Hi HM) as (e1 & E1 & M1 & A1 & D1 & _). rewrite E in E1. injection E1 as <-. destruct (created X i HX Hi) as (e1 & E1 & _ & R1 & _). rewrite E in E1. injection E1 as <-.
  pose proof (proj2 (picks_iff _ _ _) Hp) as Hk. rewrite <- (input_rows_length i Hi) in Hk.
  destruct (getitem_rep (s_phi X) (s_Phi X) (s_quad X) (s_cubic X) (s_dspline X) (s_Phinv X) HX _ _ e key [p] None R1 Hk ltac:(discriminate) (proj1 A1) I ltac:(intros _; exact I)) as (part & Ep & RP & _).
  destruct (selected_pdf X e (input_npdf i) _ key [p] None xs HX D1 Hp ltac:(discriminate) A1 ltac:(intros _; exact I) Hs) as (part' & Ep' & Ev). change (getitem (qp X) e key = Ok part) in Ep. rewrite Ep in Ep'. injection Ep' as <-.
  rewrite Ep. unfold told in *. unfold grid_plot_native, get_axes_and_xlims. rewrite Tx, kpop_del, Tl by discriminate. unfold make_figure_axes. cbn [bind]. fold (native_others kw).
  unfold dist_xvals. destruct (rep_meta X _ _ _ RP) as (-> & _). rewrite Hmeta. cbn [expand_first nd1 dat]. unfold plot_pdf_on_axes. rewrite Ev. cbn [map]. unfold mpl_plot. cbn [mpl_lines].
  assert (F : forallb (fun kv => line_kw (fst kv)) (native_others kw) = false).
  { destruct (forallb (fun kv => line_kw (fst kv)) (native_others kw)) eqn:G; [|reflexivity]. rewrite forallb_forall in G. assert (E' : kget (native_others kw) "npts" = Some v) by (unfold native_others; rewrite !kget_del by discriminate; exact Hv).
    destruct (kget_in _ _ _ E') as (kv & Hin & En). specialize (G kv Hin). rewrite En, Ln in G. discriminate. }
  rewrite F. cbn [bind]. do 2 eexists. reflexivity.
Qed.

(** several PDFs, but not as many as grid points: refused after the axes have been made *)
Lemma c163_several : forall X i xs e key ps line_kw kw lo hi c, fill_outside X -> KindInputs.input_ok i -> has_grid i xs -> ens_new (create_of (qp X) (input_name i)) (input_dict i) None = Ok e -> picks (input_npdf i) key ps -> (2 <= length ps)%nat -> length ps <> length xs ->
  told kw "axes" PNone -> told kw "xlim" (PLim lo hi) ->
  exists xlabel ylabel, grid_plot_native line_kw c (getitem (qp X) e key) kw = (c ++ [mkaxes (lo, hi) xlabel ylabel []], Err ValueError).
Proof.
  intros X i xs e key ps line_kw kw lo hi c HX Hi Hg E Hp H2p Hne Tx Tl. assert (Hnil : ps <> []) by (intros ->; cbn in H2p; lia). destruct (grid_kind i xs Hg Hi) as (Hs & H2 & HM & Hmeta & Hpdf).
  destruct (new_density X i HX Hi HM) as (e1 & E1 & M1 & A1 & D1 & _). rewrite E in E1. injection E1 as <-. destruct (created X i HX Hi) as (e1 & E1 & _ & R1 & _). rewrite E in E1. injection E1 as <-.
  pose proof (proj2 (picks_iff _ _ _) Hp) as Hk. rewrite <- (input_rows_length i Hi) in Hk.
  destruct (getitem_rep (s_phi X) (s_Phi X) (s_quad X) (s_cubic X) (s_dspline X) (s_Phinv X) HX _ _ e key ps None R1 Hk Hnil (proj1 A1) I ltac:(intros _; exact I)) as (part & Ep & RP & _).
  destruct (selected_pdf X e (input_npdf i) _ key ps None xs HX D1 Hp Hnil A1 ltac:(intros _; exact I) Hs) as (part' & Ep' & Ev). change (getitem (qp X) e key = Ok part) in Ep. rewrite Ep in Ep'. injection Ep' as <-.
  rewrite Ep. unfold told in *. unfold grid_plot_native, get_axes_and_xlims. rewrite Tx, kpop_del, Tl by discriminate. unfold make_figure_axes. cbn [bind].
  unfold dist_xvals. destruct (rep_meta X _ _ _ RP) as (-> & _). rewrite Hmeta. cbn [expand_first nd1 dat]. unfold plot_pdf_on_axes. rewrite Ev. unfold mpl_plot. rewrite several_lines by lia.
  destruct (Nat.eqb_spec (length ps) (length xs)) as [H|_]; [congruence|]. cbn [bind]. do 2 eexists. reflexivity.
Qed.

(** ** Example *)
Lemma c163_example : exists X i xs e line_kw (kw kw' ka : kwargs R) lo hi (c : canvas R) ax, fill_outside X /\ KindInputs.input_ok i /\ has_grid i xs /\ ens_new (create_of (qp X) (input_name i)) (input_dict i) None = Ok e /\ input_npdf i = 2%nat /\ xs = [0; 1; 3] /\
  picks (input_npdf i) (KInt 1) [1%nat] /\ lines_only line_kw /\ line_kw "npts" = false /\ told kw "axes" PNone /\ told kw "xlim" (PLim lo hi) /\ native_drawable line_kw kw /\ native_others kw <> [] /\
  told kw' "axes" PNone /\ told kw' "xlim" (PLim lo hi) /\ kget kw' "npts" = Some (PCount 5) /\
  told ka "axes" (PAxes 0) /\ told ka "xlim" PNone /\ nth_error c 0 = Some ax /\ native_drawable line_kw ka /\ picks (input_npdf i) (KSlice 0 2) [0%nat; 1%nat] /\ length xs = 3%nat.
Proof.
  assert (Hi : KindInputs.input_ok (IInterp [0; 1; 3] [[1; 2; 0]; [0; 5; 5]])) by exact ConvertExamples.interp1_ok.
  destruct (created scipy0 _ scipy0_fill Hi) as (e & E & _). exists scipy0, (IInterp [0; 1; 3] [[1; 2; 0]; [0; 5; 5]]), [0; 1; 3], e, line_kw0, [("xlim", PLim 0 2); ("label", PText "truth")], [("xlim", PLim 0 2); ("npts", PCount 5)], [("axes", PAxes 0); ("color", PText "k")], 0, 2, [mkaxes (0, 2) (PText "x") (PText "y") []], (mkaxes (0, 2) (PText "x") (PText "y") []).
  split; [exact scipy0_fill|]. split; [exact Hi|]. split; [reflexivity|]. split; [exact E|]. split; [reflexivity|]. split; [reflexivity|]. split; [apply picks_iff; reflexivity|]. split; [exact line_kw0_ok|]. split; [reflexivity|].
  split; [reflexivity|]. split; [reflexivity|]. split; [intros kv [<-|[]]; reflexivity|]. split; [discriminate|]. split; [reflexivity|]. split; [reflexivity|]. split; [reflexivity|].
  split; [reflexivity|]. split; [reflexivity|]. split; [reflexivity|]. split; [intros kv [<-|[]]; reflexivity|]. split; [apply picks_iff; reflexivity|reflexivity].
Qed.
