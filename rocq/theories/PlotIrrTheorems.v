(** What Ensemble.plot_native draws for irregular grids (C166). *)
From Coq Require Import String List Arith ZArith Bool Lia Reals Lra.
From Verif Require Import Num NumProofs Py NdArray NumpyLib Utils ScipyWrap InterpPdf Spec Values Ensemble Classes
  SortProofs BinProofs EvalProofs NdProofs InterpProofs IrrTheorems Kinds KindProofs EnsembleProofs KindInputs ReachProofs RowProofs EnsembleTheorems IntegrateTheorems ConvertTheorems
  MetricsProofs MetricsExamples CommuteTheorems Plotting PlottingTheorems PlotNative PlotNativeTheorems PlotHistTheorems PlotIrr.
Import ListNotations.
Local Open Scope string_scope.
Local Open Scope list_scope.
Local Open Scope R_scope.

(** for one PDF a table with one row of points is a grid *)
Lemma one_row X n d e xs : represents_in X (KIrr n) [d] e -> ens_pdf e (PMat [xs]) = ens_pdf e (PGrid xs).
Proof.
  intros (Hk & Hne & HD & (Hf & (g0 & E0 & S0)) & Hh). unfold ens_pdf. pose proof (S0 MPdf (PMat [xs]) ltac:(discriminate)) as S1. pose proof (S0 MPdf (PGrid xs) ltac:(discriminate)) as S2. cbn [g_eval] in S1, S2. rewrite <- S1, <- S2.
  inversion HD as [|? ? Hd _]; subst. destruct Hd as [Hfit _]. assert (L0 : length (num_at 0 d) = n) by (eapply row_fits_num; [exact Hfit|reflexivity]). assert (L1 : length (num_at 1 d) = n) by (eapply row_fits_num; [exact Hfit|reflexivity]).
  change (irr_create (T := R) [("xvals", VArr (nd2 n [num_at 0 d])); ("yvals", VArr (nd2 n [num_at 1 d]))] = Ok g0) in E0. cbn [good_kind] in Hk.
  rewrite (irr_create_eq n [num_at 0 d] [num_at 1 d]) in E0 by (try discriminate; try exact Hk; try reflexivity; intros l [<-|[]]; assumption).
  rewrite irr_build in E0 by (try exact Hk; try reflexivity; intros l [<-|[]]; assumption). cbn [bind] in E0. injection E0 as <-. reflexivity.
Qed.

(** C166 *)
Lemma c166_parts X n xr yr e key p kw lo hi : fill_outside X -> irr_input n xr yr -> ens_new (create_of (qp X) "interp_irregular") (input_dict (IIrr n xr yr)) None = Ok e -> picks (length xr) key [p] -> told kw "axes" PNone -> told kw "xlim" (PLim lo hi) ->
  exists f ys part xlabel ylabel, has_density X e (length xr) f /\ (p < length xr)%nat /\ (forall x, f p x = interp1d (nth p xr []) ys 0 0 x) /\ getitem (qp X) e key = Ok part /\ dist_xrows part = Ok [nth p xr []] /\
    ens_pdf part (PMat [nth p xr []]) = Ok [map (fun x => Fin (f p x)) (nth p xr [])] /\
    (forall c, get_axes_and_xlims c kw = (c ++ [mkaxes (lo, hi) xlabel ylabel []], Ok (length c, (lo, hi), native_others kw))) /\
    xlabel = kpop (native_others kw) "xlabel" (PText "redshift") /\ ylabel = kpop (kdel (native_others kw) "xlabel") "ylabel" (PText "p(z)").
Proof.
  intros HX Hi E Hp Tx Tl. set (i := IIrr n xr yr) in *. assert (Hok : KindInputs.input_ok i) by exact Hi.
  destruct (new_density X i HX Hok ltac:(cbn; auto)) as (e1 & E1 & M1 & A1 & D1 & _). change (ens_new (create_of (qp X) (input_name i)) (input_dict i) None) with (ens_new (create_of (qp X) "interp_irregular") (input_dict i) None) in E1. rewrite E in E1. injection E1 as <-.
  destruct (created X i HX Hok) as (e1 & E1 & _ & R1 & _). change (ens_new (create_of (qp X) (input_name i)) (input_dict i) None) with (ens_new (create_of (qp X) "interp_irregular") (input_dict i) None) in E1. rewrite E in E1. injection E1 as <-.
  pose proof (proj2 (picks_iff _ _ _) Hp) as Hk. change (length xr) with (input_npdf i) in Hk. rewrite <- (input_rows_length i Hok) in Hk. assert (Hlt : (p < length (input_rows i))%nat) by (eapply key_positions_lt; [exact Hk|left; reflexivity]).
  assert (Hr : (p < length xr)%nat) by (rewrite (input_rows_length i Hok) in Hlt; exact Hlt). destruct Hi as (Hn & _ & Hl & Hx & _).
  destruct (getitem_rep (s_phi X) (s_Phi X) (s_quad X) (s_cubic X) (s_dspline X) (s_Phinv X) HX _ _ e key [p] None R1 Hk ltac:(discriminate) (proj1 A1) I ltac:(intros _; exact I)) as (part & Ep & RP & _).
  change (getitem (qp X) e key = Ok part) in Ep. set (xs := nth p xr []). set (w := normalize_interp1d_row xs (nth p yr [])). destruct (Hx xs (nth_In xr [] Hr)) as (Lx & Hs).
  assert (Hrow : nth p (input_rows i) [] = [Nums xs; Nums w]) by (cbn [i input_rows]; rewrite (map2_nth (fun x y => [Nums x; Nums (normalize_interp1d_row x y)]) xr yr p [] []) by lia; reflexivity).
  assert (Es : select [] (input_rows i) [p] = [[Nums xs; Nums w]]) by (unfold select; cbn [map]; f_equal; exact Hrow). rewrite Es in RP.
  change (input_npdf i) with (length xr) in D1. set (f := fun j => pdf_of X (input_kind i) (nth j (input_rows i) [])) in *.
  destruct (selected_pdf X e (length xr) f key [p] None xs HX D1 Hp ltac:(discriminate) A1 ltac:(intros _; exact I) Hs) as (part' & Ep' & Ev). rewrite Ep in Ep'. injection Ep' as <-.
  exists f, w, part. do 2 eexists. split; [exact D1|]. split; [exact Hr|]. split; [intros x; unfold f, pdf_of; rewrite Hrow; reflexivity|]. split; [exact Ep|]. split; [|split; [|split; [|split; reflexivity]]].
  - destruct (rep_meta X _ _ _ RP) as (_ & Eo & _). unfold dist_xrows. rewrite Eo. change (vget (cols (input_kind i) [[Nums xs; Nums w]]) "xvals") with (Some (VArr (mknd [1; n]%nat (xs ++ [])))). cbn [shp dat chunks]. rewrite app_nil_r, <- Lx, firstn_all. reflexivity.
  - rewrite (one_row X n [Nums xs; Nums w] part xs RP). exact Ev.
  - intros c. unfold told in *. unfold get_axes_and_xlims. rewrite Tx, kpop_del, Tl by discriminate. unfold make_figure_axes. cbn [bind]. reflexivity.
Qed.
Lemma c166_native : forall X n xr yr e key p line_kw kw lo hi c, fill_outside X -> irr_input n xr yr -> ens_new (create_of (qp X) "interp_irregular") (input_dict (IIrr n xr yr)) None = Ok e -> picks (length xr) key [p] -> lines_only line_kw ->
  told kw "axes" PNone -> told kw "xlim" (PLim lo hi) -> native_drawable line_kw kw ->
  exists f pts, has_density X e (length xr) f /\
    irr_plot_native line_kw c (getitem (qp X) e key) kw = (c ++ [mkaxes (lo, hi) (PText "redshift") (PText "p(z)") [(map fin_pair pts, native_others kw)]], Ok (length c)) /\
    map fst pts = nth p xr [] /\ (forall x y, In (x, y) pts -> y = f p x) /\
    (forall x, nth0 0 (nth p xr []) <= x <= nlast (nth p xr []) -> on_drawing pts x (f p x)) /\ (forall x, x < nth0 0 (nth p xr []) \/ nlast (nth p xr []) < x -> f p x = 0).
Proof.
  intros X n xr yr e key p line_kw kw lo hi c HX Hi E Hp [Lx Ly] Tx Tl Hd. destruct (c166_parts X n xr yr e key p kw lo hi HX Hi E Hp Tx Tl) as (f & ys & part & xlabel & ylabel & D1 & Hr & Hys & Ep & Ex & Ev & Ea & El & Em).
  unfold native_others in El, Em. rewrite !kpop_del in El by discriminate. rewrite !kpop_del in Em by discriminate. rewrite (native_label line_kw kw "xlabel") in El by (auto; discriminate). rewrite (native_label line_kw kw "ylabel") in Em by (auto; discriminate). subst xlabel ylabel.
  destruct Hi as (Hn & _ & _ & Hx & _). destruct (Hx _ (nth_In xr [] Hr)) as (Hlen & Hs). set (xs := nth p xr []) in *. assert (H2 : (2 <= length xs)%nat) by lia.
  exists f, (map (fun x => (x, f p x)) xs). split; [exact D1|]. split; [|split; [rewrite map_map; cbn [fst]; apply map_id|split; [|split]]].
  - rewrite Ep. unfold irr_plot_native. rewrite Ea, Ex, Ev. unfold mpl_plot. cbn [mpl_lines].
    replace (forallb (fun kv => line_kw (fst kv)) (native_others kw)) with true by (symmetry; apply forallb_forall; exact Hd). rewrite combine_map.
    pose proof (at_end c (mkaxes (lo, hi) (PText "redshift") (PText "p(z)") []) (mkaxes (lo, hi) (PText "redshift") (PText "p(z)") [(map fin_pair (map (fun x => (x, f p x)) xs), native_others kw)])) as G.
    rewrite nth_error_app2, Nat.sub_diag in * by lia. cbn [nth_error a_lim a_xlabel a_ylabel a_lines app map bind] in *. rewrite map_map in *. unfold fin_pair in *. cbn [fst snd] in *. rewrite G. reflexivity.
  - intros x y Hin. apply in_map_iff in Hin. destruct Hin as (z & Ez & _). injection Ez as <- <-. reflexivity.
  - intros x Hxx. apply (exact_drawing xs ys (f p) x Hs H2 Hys Hxx).
  - intros x Hxx. rewrite Hys. destruct Hxx as [Hxx|Hxx]; [apply interp1d_below; exact Hxx|]. apply interp1d_above; [|exact Hxx]. rewrite nlast_nth0. destruct (Nat.eq_dec (pred (length xs)) 0) as [H0|H0]; [lia|]. left. apply ss_nth; [exact Hs|lia].
Qed.
(** on axes given by the user: the same curve beside what the axes show already, and no new axes *)
Lemma c166_axes : forall X n xr yr e key p line_kw kw j ax c, fill_outside X -> irr_input n xr yr -> ens_new (create_of (qp X) "interp_irregular") (input_dict (IIrr n xr yr)) None = Ok e -> picks (length xr) key [p] ->
  told kw "axes" (PAxes j) -> told kw "xlim" PNone -> nth_error c j = Some ax -> native_drawable line_kw kw ->
  exists f pts c', has_density X e (length xr) f /\ irr_plot_native line_kw c (getitem (qp X) e key) kw = (c', Ok j) /\ length c' = length c /\
    nth_error c' j = Some (mkaxes (a_lim ax) (a_xlabel ax) (a_ylabel ax) (a_lines ax ++ [(map fin_pair pts, native_others kw)])) /\ (forall k, k <> j -> nth_error c' k = nth_error c k) /\
    map fst pts = nth p xr [] /\ (forall x y, In (x, y) pts -> y = f p x) /\ (forall x, nth0 0 (nth p xr []) <= x <= nlast (nth p xr []) -> on_drawing pts x (f p x)).
Proof.
  intros X n xr yr e key p line_kw kw j ax c HX Hi E Hp Tx Tl Hax Hd. destruct (unplaced_told kw 0 1) as (Ux & Ul).
  destruct (c166_parts X n xr yr e key p (unplaced kw 0 1) 0 1 HX Hi E Hp Ux Ul) as (f & ys & part & xlabel & ylabel & D1 & Hr & Hys & Ep & Ex & Ev & _).
  destruct Hi as (Hn & _ & _ & Hx & _). destruct (Hx _ (nth_In xr [] Hr)) as (Hlen & Hs). set (xs := nth p xr []) in *. assert (H2 : (2 <= length xs)%nat) by lia.
  assert (G : exists c', irr_plot_native line_kw c (getitem (qp X) e key) kw = (c', Ok j) /\ length c' = length c /\
    nth_error c' j = Some (mkaxes (a_lim ax) (a_xlabel ax) (a_ylabel ax) (a_lines ax ++ [(map fin_pair (map (fun x => (x, f p x)) xs), native_others kw)])) /\ forall k, k <> j -> nth_error c' k = nth_error c k).
  { rewrite Ep. unfold irr_plot_native. rewrite (axes_given kw j ax c Tx Tl Hax), Ex, Ev. unfold mpl_plot. cbn [mpl_lines].
    replace (forallb (fun kv => line_kw (fst kv)) (native_others kw)) with true by (symmetry; apply forallb_forall; exact Hd). rewrite combine_map, map_map. cbn [map]. rewrite Hax. cbn [bind]. eexists. split; [reflexivity|]. exact (nth_replaced c j ax _ Hax). }
  destruct G as (c' & G1 & G2 & G3 & G4). exists f, (map (fun x => (x, f p x)) xs), c'. split; [exact D1|]. split; [exact G1|]. split; [exact G2|]. split; [exact G3|]. split; [exact G4|]. split; [rewrite map_map; cbn [fst]; apply map_id|]. split.
  - intros x y Hin. apply in_map_iff in Hin. destruct Hin as (z & Ez & _). injection Ez as <- <-. reflexivity.
  - intros x Hxx. apply (exact_drawing xs ys (f p) x Hs H2 Hys Hxx).
Qed.
Lemma c166_npts : forall X n xr yr e key p line_kw kw lo hi c v, fill_outside X -> irr_input n xr yr -> ens_new (create_of (qp X) "interp_irregular") (input_dict (IIrr n xr yr)) None = Ok e -> picks (length xr) key [p] -> line_kw "npts" = false ->
  told kw "axes" PNone -> told kw "xlim" (PLim lo hi) -> kget kw "npts" = Some v ->
  exists xlabel ylabel, irr_plot_native line_kw c (getitem (qp X) e key) kw = (c ++ [mkaxes (lo, hi) xlabel ylabel []], Err AttributeError).
Proof.
  intros X n xr yr e key p line_kw kw lo hi c v HX Hi E Hp Ln Tx Tl Hv. destruct (c166_parts X n xr yr e key p kw lo hi HX Hi E Hp Tx Tl) as (f & ys & part & xlabel & ylabel & D1 & Hr & Hys & Ep & Ex & Ev & Ea & _).
  exists xlabel, ylabel. rewrite Ep. unfold irr_plot_native. rewrite Ea, Ex, Ev. unfold mpl_plot. cbn [mpl_lines].
  assert (F : forallb (fun kv => line_kw (fst kv)) (native_others kw) = false).
  { destruct (forallb (fun kv => line_kw (fst kv)) (native_others kw)) eqn:G; [|reflexivity]. rewrite forallb_forall in G. assert (E' : kget (native_others kw) "npts" = Some v) by (unfold native_others; rewrite !kget_del by discriminate; exact Hv).
    destruct (kget_in _ _ _ E') as (kv & Hin & En). specialize (G kv Hin). rewrite En, Ln in G. discriminate. }
  rewrite F. reflexivity.
Qed.

(** ** Example *)
Lemma c166_example : exists X n xr yr e line_kw (kw kw' ka : kwargs R) lo hi (c : canvas R) ax, fill_outside X /\ irr_input n xr yr /\ ens_new (create_of (qp X) "interp_irregular") (input_dict (IIrr n xr yr)) None = Ok e /\ length xr = 2%nat /\ nth 1 xr [] = [1; 2; 5] /\
  picks (length xr) (KInt 1) [1%nat] /\ lines_only line_kw /\ line_kw "npts" = false /\ told kw "axes" PNone /\ told kw "xlim" (PLim lo hi) /\ native_drawable line_kw kw /\ native_others kw <> [] /\
  told kw' "axes" PNone /\ told kw' "xlim" (PLim lo hi) /\ kget kw' "npts" = Some (PCount 5) /\
  told ka "axes" (PAxes 0) /\ told ka "xlim" PNone /\ nth_error c 0 = Some ax /\ a_lines ax <> [] /\ native_drawable line_kw ka.
Proof.
  pose proof irr_input_example as Hi. destruct (created scipy0 (IIrr 3 [[0; 1; 3]; [1; 2; 5]] [[1; 2; 0]; [0; 5; 5]]) scipy0_fill Hi) as (e & E & _).
  exists scipy0, 3%nat, [[0; 1; 3]; [1; 2; 5]], [[1; 2; 0]; [0; 5; 5]], e, line_kw0, [("xlim", PLim 0 2); ("label", PText "truth")], [("xlim", PLim 0 2); ("npts", PCount 5)], [("axes", PAxes 0); ("label", PText "truth")], 0, 2, [mkaxes (0, 2) (PText "x") (PText "y") [([], [])]], (mkaxes (0, 2) (PText "x") (PText "y") [([], [])]).
  split; [exact scipy0_fill|]. split; [exact Hi|]. split; [exact E|]. split; [reflexivity|]. split; [reflexivity|]. split; [apply picks_iff; reflexivity|]. split; [exact line_kw0_ok|]. split; [reflexivity|].
  split; [reflexivity|]. split; [reflexivity|]. split; [intros kv [<-|[]]; reflexivity|]. split; [discriminate|]. split; [reflexivity|]. split; [reflexivity|]. split; [reflexivity|].
  split; [reflexivity|]. split; [reflexivity|]. split; [reflexivity|]. split; [discriminate|]. intros kv [<-|[]]; reflexivity.
Qed.
