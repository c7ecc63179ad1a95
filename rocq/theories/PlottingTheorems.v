(** What Ensemble.plot draws (C162). *)
From Coq Require Import String List Arith ZArith Bool Lia Reals Lra.
From Verif Require Import Num NumProofs Py NdArray NumpyLib Utils ScipyWrap Spec Values Ensemble Classes
  SortProofs BinProofs EvalProofs NdProofs InterpProofs HistProofs HistTheorems MixmodTheorems Kinds KindProofs EnsembleProofs KindInputs ReachProofs RowProofs EnsembleTheorems IntegrateTheorems ConvertTheorems
  MetricsProofs MetricsExamples CommuteTheorems Plotting.
Import ListNotations.
Local Open Scope string_scope.
Local Open Scope list_scope.
Local Open Scope R_scope.

(** ** Specification *)
(** the points: [n] equally spaced ones from [lo] to [hi] *)
Definition spot (lo hi : R) (n i : nat) : R := lo + INR i * ((hi - lo) / INR (n - 1)).
(** the curve of a density over these points *)
Definition curve (f : R -> R) (lo hi : R) (n : nat) : list (xnum R * xnum R) := map (fun i => (Fin (spot lo hi n i), Fin (f (spot lo hi n i)))) (seq 0 n).
(** the keywords that are not read by qp; they are handed to matplotlib *)
Definition own (name : string) : bool := String.eqb name "axes" || String.eqb name "xlim" || String.eqb name "npts".
Definition others (kw : kwargs R) : kwargs R := filter (fun kv => negb (own (fst kv))) kw.
(** matplotlib knows them all *)
Definition drawable (line_kw : string -> bool) (kw : kwargs R) : Prop := forall kv, In kv (others kw) -> line_kw (fst kv) = true.
(** labels of axes are no properties of lines *)
Definition lines_only (line_kw : string -> bool) : Prop := line_kw "xlabel" = false /\ line_kw "ylabel" = false.
(** the keyword has this value (None: missing or given as None) *)
Definition told (kw : kwargs R) (name : string) (v : pval R) : Prop := kpop kw name PNone = v.
(** the keyword for the number of points; 101 if missing *)
Definition counted (kw : kwargs R) (n : nat) : Prop := kpop kw "npts" (PCount 101) = PCount n.

(** ** Keywords *)
Lemma kget_del (kw : kwargs R) a b : a <> b -> kget (kdel kw a) b = kget kw b.
Proof.
  intros H. unfold kget, kdel. f_equal. induction kw as [|[k v] kw IH]; [reflexivity|]. cbn [filter fst find].
  destruct (String.eqb_spec k a) as [->|Ha]; cbn [negb].
  - destruct (String.eqb_spec a b); [contradiction|exact IH].
  - cbn [find fst]. destruct (String.eqb k b); [reflexivity|exact IH].
Qed.
Lemma kpop_del (kw : kwargs R) a b d : a <> b -> kpop (kdel kw a) b d = kpop kw b d.
Proof. intros H. unfold kpop. rewrite kget_del by exact H. reflexivity. Qed.
Lemma others_del (kw : kwargs R) : kdel (kdel (kdel kw "axes") "xlim") "npts" = others kw.
Proof.
  unfold others, kdel, own. induction kw as [|[k v] kw IH]; [reflexivity|]. cbn [filter fst].
  destruct (String.eqb k "axes"); cbn [negb orb filter fst]; [exact IH|]. destruct (String.eqb k "xlim"); cbn [negb orb filter fst]; [exact IH|]. destruct (String.eqb k "npts"); cbn [negb orb filter fst]; [exact IH|]. f_equal. exact IH.
Qed.
Lemma kget_in (kw : kwargs R) name v : kget kw name = Some v -> exists kv, In kv kw /\ fst kv = name.
Proof.
  unfold kget. destruct (find _ kw) as [kv|] eqn:E; [|discriminate]. intros _. apply find_some in E. destruct E as [E1 E2]. exists kv. split; [exact E1|]. apply String.eqb_eq. exact E2.
Qed.
Lemma in_others (kw : kwargs R) name v : own name = false -> kget kw name = Some v -> exists kv, In kv (others kw) /\ fst kv = name.
Proof. intros Ho H. destruct (kget_in kw name v H) as (kv & H1 & <-). exists kv. split; [|reflexivity]. unfold others. apply filter_In. split; [exact H1|]. rewrite Ho. reflexivity. Qed.
Lemma no_label line_kw kw name d : drawable line_kw kw -> line_kw name = false -> own name = false -> kpop kw name d = d.
Proof.
  intros Hd Hl Ho. unfold kpop. destruct (kget kw name) as [v|] eqn:E; [|reflexivity]. destruct (in_others kw name v Ho E) as (kv & Hin & <-). rewrite (Hd kv Hin) in Hl. discriminate.
Qed.

(** ** Points *)
Lemma spots lo hi n : (2 <= n)%nat -> np_linspace lo hi n = map (spot lo hi n) (seq 0 n).
Proof.
  intros H. destruct n as [|[|m]]; [lia|lia|]. unfold np_linspace. apply map_ext. intros i. unfold spot. cbn [nadd nmul ndiv nsub nofZ RNum]. rewrite <- !INR_IZR_INZ. replace (S (S m) - 1)%nat with (S m) by lia. reflexivity.
Qed.
Lemma spots_inc lo hi n : lo < hi -> (2 <= n)%nat -> increasing (np_linspace lo hi n).
Proof. intros H H2. destruct n as [|[|m]]; [lia|lia|]. apply linspace_inc. exact H. Qed.
Lemma combine_map {A B C} (g : A -> B) (h : A -> C) l : combine (map g l) (map h l) = map (fun x => (g x, h x)) l.
Proof. induction l as [|x l IH]; [reflexivity|]. cbn [map combine]. f_equal. exact IH. Qed.
Lemma one_line lo hi n (f : R -> R) : (2 <= n)%nat -> combine (map Fin (np_linspace lo hi n)) (map (fun x => Fin (f x)) (np_linspace lo hi n)) = curve f lo hi n.
Proof. intros H. rewrite combine_map, spots by exact H. unfold curve. rewrite map_map. reflexivity. Qed.

(** ** The densities of the selected PDFs *)
Lemma selected_pdf X e m f key ps s xs : fill_outside X -> has_density X e m f -> picks m key ps -> ps <> [] -> has_ancil e s -> (is_int key = true -> anc_plain s) -> increasing xs ->
  exists part, getitem (qp X) e key = Ok part /\ ens_pdf part (PGrid xs) = Ok (map (fun p => map (fun x => Fin (f p x)) xs) ps).
Proof.
  intros HX ((M & He & HM) & <- & Hf) Hp Hne Ha Hi Hs. pose proof (made_shape X M e HX He) as [Hsh _]. destruct (c21_slice X M e key ps s HX He Hp Hne Ha Hi) as (part & E & _). exists part. split; [exact E|].
  destruct (picked_curves X M e key ps s MPdf f part HX He Hp Hne Ha Hi HM (conj Hsh Hf) E) as (Hn & _ & _ & _ & H). cbn [evaluate] in H. rewrite H by exact Hs. unfold table, fin. rewrite Hn. f_equal.
  apply (by_position (fun p => map (fun x => Fin (f p x)) xs) 0%nat).
Qed.
Lemma all_known line_kw kw : drawable line_kw kw -> forallb (fun kv => line_kw (fst kv)) (others kw) = true.
Proof. intros H. apply forallb_forall. exact H. Qed.
Lemma at_end {A} (c : list A) x y : (firstn (length c) (c ++ [x]) ++ match nth_error (c ++ [x]) (length c) with Some _ => [y] | None => [] end ++ skipn (S (length c)) (c ++ [x])) = c ++ [y].
Proof.
  rewrite firstn_app, Nat.sub_diag, firstn_all, firstn_O, app_nil_r. rewrite nth_error_app2, Nat.sub_diag by lia. cbn [nth_error]. rewrite skipn_all2 by (rewrite app_length; simpl; lia). rewrite app_nil_r. reflexivity.
Qed.

(** C162: one PDF on new axes *)
Lemma c162_new : forall X e m f key p s line_kw kw lo hi n c, fill_outside X -> has_density X e m f -> picks m key [p] -> has_ancil e s -> (is_int key = true -> anc_plain s) -> lines_only line_kw ->
  told kw "axes" PNone -> told kw "xlim" (PLim lo hi) -> lo < hi -> counted kw n -> (2 <= n)%nat -> drawable line_kw kw ->
  ens_plot line_kw c (getitem (qp X) e key) kw = (c ++ [mkaxes (lo, hi) (PText "redshift") (PText "p(z)") [(curve (f p) lo hi n, others kw)]], Ok (length c)).
Proof.
  intros X e m f key p s line_kw kw lo hi n c HX Hf Hp Ha Hi [Lx Ly] Tx Tl Hlo Hc Hn Hd. unfold told, counted in *. destruct (selected_pdf X e m f key [p] s (np_linspace lo hi n) HX Hf Hp ltac:(discriminate) Ha Hi (spots_inc _ _ _ Hlo Hn)) as (part & E & Ep).
  rewrite E. unfold ens_plot, plot_dist_pdf, get_axes_and_xlims. rewrite Tx, kpop_del, Tl by discriminate. unfold make_figure_axes. cbn [bind]. rewrite !kpop_del by discriminate. rewrite Hc, others_del.
  unfold plot_pdf_on_axes. rewrite Ep. cbn [map]. unfold mpl_plot. cbn [mpl_lines]. rewrite all_known by exact Hd. rewrite one_line by exact Hn. cbn [map].
  rewrite nth_error_app2, Nat.sub_diag by lia. cbn [nth_error a_lim a_xlabel a_ylabel a_lines app bind].
  rewrite (no_label line_kw kw "xlabel") by (auto; reflexivity). rewrite (no_label line_kw kw "ylabel") by (auto; reflexivity).
  pose proof (at_end c (mkaxes (lo, hi) (PText "redshift") (PText "p(z)") []) (mkaxes (lo, hi) (PText "redshift") (PText "p(z)") [(curve (f p) lo hi n, others kw)])) as G. rewrite nth_error_app2, Nat.sub_diag in G by lia. cbn [nth_error app] in G. rewrite G. reflexivity.
Qed.
(** C162: one PDF on axes given by the user *)
Lemma nth_replaced {A} (c : list A) i (x y : A) : nth_error c i = Some x ->
  let c' := firstn i c ++ [y] ++ skipn (S i) c in length c' = length c /\ nth_error c' i = Some y /\ forall j, j <> i -> nth_error c' j = nth_error c j.
Proof.
  intros H. revert i H. induction c as [|z c IH]; intros [|i] H; try discriminate; cbn [firstn skipn app length nth_error].
  - split; [reflexivity|]. split; [reflexivity|]. intros [|j] Hj; [congruence|reflexivity].
  - cbn [nth_error] in H. destruct (IH i H) as (H1 & H2 & H3). cbn [app] in *. split; [f_equal; exact H1|]. split; [exact H2|]. intros [|j] Hj; [reflexivity|]. cbn [nth_error]. apply H3. congruence.
Qed.
Lemma c162_axes : forall X e m f key p s line_kw kw i ax lo hi n c, fill_outside X -> has_density X e m f -> picks m key [p] -> has_ancil e s -> (is_int key = true -> anc_plain s) ->
  told kw "axes" (PAxes i) -> told kw "xlim" PNone -> nth_error c i = Some ax -> a_lim ax = (lo, hi) -> lo < hi -> counted kw n -> (2 <= n)%nat -> drawable line_kw kw ->
  exists c', ens_plot line_kw c (getitem (qp X) e key) kw = (c', Ok i) /\ length c' = length c /\
    nth_error c' i = Some (mkaxes (lo, hi) (a_xlabel ax) (a_ylabel ax) (a_lines ax ++ [(curve (f p) lo hi n, others kw)])) /\ forall j, j <> i -> nth_error c' j = nth_error c j.
Proof.
  intros X e m f key p s line_kw kw i ax lo hi n c HX Hf Hp Ha Hi Tx Tl Hax Hlim Hlo Hc Hn Hd. unfold told, counted in *. destruct (selected_pdf X e m f key [p] s (np_linspace lo hi n) HX Hf Hp ltac:(discriminate) Ha Hi (spots_inc _ _ _ Hlo Hn)) as (part & E & Ep).
  rewrite E. unfold ens_plot, plot_dist_pdf, get_axes_and_xlims. rewrite Tx, kpop_del, Tl by discriminate. rewrite Hax, Hlim. rewrite !kpop_del by discriminate. rewrite Hc, others_del.
  unfold plot_pdf_on_axes. rewrite Ep. cbn [map]. unfold mpl_plot. cbn [mpl_lines]. rewrite all_known by exact Hd. rewrite one_line by exact Hn. cbn [map]. rewrite Hax, Hlim. cbn [bind].
  eexists. split; [reflexivity|]. exact (nth_replaced c i ax _ Hax).
Qed.
(** C162: limits and axes exclude each other, and one of them is needed *)
Lemma c162_refuses : forall line_kw kw c part, (told kw "axes" PNone /\ told kw "xlim" PNone) \/ (exists i, told kw "axes" (PAxes i)) /\ ~ told kw "xlim" PNone ->
  ens_plot line_kw c (Ok part) kw = (c, Err ValueError).
Proof.
  intros line_kw kw c part H. unfold told in H. unfold ens_plot, plot_dist_pdf, get_axes_and_xlims. rewrite kpop_del by discriminate. destruct H as [[-> ->]|[[i ->] H]]; [reflexivity|]. destruct (kpop kw "xlim" PNone); try reflexivity. congruence.
Qed.
(** C162: several PDFs.  In general matplotlib refuses; if there are as many PDFs as points it draws lines through values of different PDFs at one point *)
Definition crossed (f : nat -> R -> R) (ps : list nat) (lo hi : R) (n j : nat) : list (xnum R * xnum R) := map (fun i => (Fin (spot lo hi n i), Fin (f (nth i ps 0%nat) (spot lo hi n j)))) (seq 0 n).
Lemma several_lines xs (f : nat -> R -> R) ps : length ps <> 1%nat ->
  mpl_lines xs (map (fun p => map (fun x => Fin (f p x)) xs) ps) =
    if (length ps =? length xs)%nat then Ok (map (fun j => combine (map Fin xs) (map (fun row : list (xnum R) => nth j row NaN) (map (fun p => map (fun x => Fin (f p x)) xs) ps))) (seq 0 (length xs))) else Err ValueError.
Proof. intros H. unfold mpl_lines. rewrite map_length. destruct ps as [|p [|q ps]]; [reflexivity|simpl in H; lia|reflexivity]. Qed.
Lemma cross_line lo hi n (f : nat -> R -> R) ps j : (2 <= n)%nat -> length ps = n -> (j < n)%nat ->
  combine (map Fin (np_linspace lo hi n)) (map (fun row : list (xnum R) => nth j row NaN) (map (fun p => map (fun x => Fin (f p x)) (np_linspace lo hi n)) ps)) = crossed f ps lo hi n j.
Proof.
  intros H2 HL Hj. rewrite map_map. rewrite <- (by_position (fun p => nth j (map (fun x => Fin (f p x)) (np_linspace lo hi n)) NaN) 0%nat ps). rewrite HL, spots, map_map, combine_map by exact H2. unfold crossed. apply map_ext. intros i. f_equal.
  rewrite map_map. rewrite (nth_map_in _ (seq 0 n) j _ 0%nat) by (rewrite seq_length; exact Hj). rewrite seq_nth by exact Hj. reflexivity.
Qed.
Lemma c162_several : forall X e m f key ps s line_kw kw lo hi n c, fill_outside X -> has_density X e m f -> picks m key ps -> (2 <= length ps)%nat -> has_ancil e s -> (is_int key = true -> anc_plain s) -> lines_only line_kw ->
  told kw "axes" PNone -> told kw "xlim" (PLim lo hi) -> lo < hi -> counted kw n -> (2 <= n)%nat -> drawable line_kw kw ->
  ens_plot line_kw c (getitem (qp X) e key) kw =
    if (length ps =? n)%nat then (c ++ [mkaxes (lo, hi) (PText "redshift") (PText "p(z)") (map (fun j => (crossed f ps lo hi n j, others kw)) (seq 0 n))], Ok (length c))
    else (c ++ [mkaxes (lo, hi) (PText "redshift") (PText "p(z)") []], Err ValueError).
Proof.
  intros X e m f key ps s line_kw kw lo hi n c HX Hf Hp H2 Ha Hi [Lx Ly] Tx Tl Hlo Hc Hn Hd. unfold told, counted in *. assert (Hne : ps <> []) by (destruct ps; [simpl in H2; lia|discriminate]).
  destruct (selected_pdf X e m f key ps s (np_linspace lo hi n) HX Hf Hp Hne Ha Hi (spots_inc _ _ _ Hlo Hn)) as (part & E & Ep).
  rewrite E. unfold ens_plot, plot_dist_pdf, get_axes_and_xlims. rewrite Tx, kpop_del, Tl by discriminate. unfold make_figure_axes. cbn [bind]. rewrite !kpop_del by discriminate. rewrite Hc, others_del.
  rewrite (no_label line_kw kw "xlabel") by (auto; reflexivity). rewrite (no_label line_kw kw "ylabel") by (auto; reflexivity).
  unfold plot_pdf_on_axes. rewrite Ep. unfold mpl_plot. rewrite several_lines, linspace_length by lia. destruct (Nat.eqb_spec (length ps) n) as [HL|HL]; [|reflexivity].
  rewrite (map_ext_in _ (crossed f ps lo hi n)) by (intros j Hj; apply in_seq in Hj; apply cross_line; [exact Hn|exact HL|lia]).
  rewrite all_known by exact Hd. rewrite map_map. pose proof (at_end c (mkaxes (lo, hi) (PText "redshift") (PText "p(z)") []) (mkaxes (lo, hi) (PText "redshift") (PText "p(z)") (map (fun j => (crossed f ps lo hi n j, others kw)) (seq 0 n)))) as G.
  rewrite nth_error_app2, Nat.sub_diag in * by lia. cbn [nth_error a_lim a_xlabel a_ylabel a_lines app] in *.
  destruct n as [|n]; [lia|]. cbn [seq map bind] in *. rewrite G. reflexivity.
Qed.
(** C162: with a label for an axis the call fails, after the labelled axes have been made *)
Lemma c162_label : forall X e m f key p s line_kw kw lo hi n c v, fill_outside X -> has_density X e m f -> picks m key [p] -> has_ancil e s -> (is_int key = true -> anc_plain s) -> lines_only line_kw ->
  told kw "axes" PNone -> told kw "xlim" (PLim lo hi) -> lo < hi -> counted kw n -> (2 <= n)%nat -> kget kw "xlabel" = Some v ->
  exists ylabel, ens_plot line_kw c (getitem (qp X) e key) kw = (c ++ [mkaxes (lo, hi) v ylabel []], Err AttributeError).
Proof.
  intros X e m f key p s line_kw kw lo hi n c v HX Hf Hp Ha Hi [Lx Ly] Tx Tl Hlo Hc Hn Hv. unfold told, counted in *. destruct (selected_pdf X e m f key [p] s (np_linspace lo hi n) HX Hf Hp ltac:(discriminate) Ha Hi (spots_inc _ _ _ Hlo Hn)) as (part & E & Ep).
  rewrite E. unfold ens_plot, plot_dist_pdf, get_axes_and_xlims. rewrite Tx, kpop_del, Tl by discriminate. unfold make_figure_axes. cbn [bind]. rewrite !kpop_del by discriminate. rewrite Hc, others_del.
  unfold plot_pdf_on_axes. rewrite Ep. cbn [map]. unfold mpl_plot. cbn [mpl_lines].
  assert (F : forallb (fun kv => line_kw (fst kv)) (others kw) = false).
  { destruct (forallb (fun kv => line_kw (fst kv)) (others kw)) eqn:G; [|reflexivity]. rewrite forallb_forall in G. destruct (in_others kw "xlabel" v eq_refl Hv) as (kv & Hin & En). specialize (G kv Hin). rewrite En, Lx in G. discriminate. }
  rewrite F. cbn [bind]. replace (kpop kw "xlabel" (PText "redshift")) with v by (unfold kpop; rewrite Hv; reflexivity). eexists. reflexivity.
Qed.

(** ** Examples *)
Definition line_kw0 (name : string) : bool := String.eqb name "label" || String.eqb name "color".
Lemma line_kw0_ok : lines_only line_kw0. Proof. split; reflexivity. Qed.
Lemma c162_example : exists X e m f s line_kw (kw kw' kw'' : kwargs R) lo hi (c : canvas R) i ax, fill_outside X /\ has_density X e m f /\ m = 2%nat /\ has_ancil e s /\ anc_plain s /\ lines_only line_kw /\ lo < hi /\
  picks m (KInt 1) [1%nat] /\ picks m (KSlice 0 2) [0%nat; 1%nat] /\
  told kw "axes" PNone /\ told kw "xlim" (PLim lo hi) /\ counted kw 101 /\ drawable line_kw kw /\ others kw <> [] /\
  told kw' "axes" (PAxes i) /\ told kw' "xlim" PNone /\ nth_error c i = Some ax /\ a_lim ax = (lo, hi) /\ counted kw' 2 /\ drawable line_kw kw' /\
  told kw'' "axes" PNone /\ told kw'' "xlim" (PLim lo hi) /\ counted kw'' 2 /\ kget kw'' "xlabel" = Some (PText "z").
Proof.
  destruct (new_density scipy0 (halves [3/4; 1/4]) scipy0_fill) as (p & E & Mp & Ap & Hp & _); [apply halves_ok; [discriminate|each]|cbn; tauto|].
  exists scipy0, p, 2%nat. eexists. exists None, line_kw0, [("xlim", PLim 0 2); ("label", PText "truth")], [("axes", PAxes 0); ("npts", PCount 2); ("color", PText "k")], [("xlim", PLim 0 2); ("npts", PCount 2); ("xlabel", PText "z")], 0, 2, [mkaxes (0, 2) (PText "x") (PText "y") []], 0%nat, (mkaxes (0, 2) (PText "x") (PText "y") []).
  split; [exact scipy0_fill|]. split; [exact Hp|]. split; [reflexivity|]. split; [exact Ap|]. split; [exact I|]. split; [exact line_kw0_ok|]. split; [lra|].
  split; [apply picks_iff; reflexivity|]. split; [apply picks_iff; reflexivity|].
  split; [reflexivity|]. split; [reflexivity|]. split; [reflexivity|]. split; [intros kv [<-|[]]; reflexivity|]. split; [discriminate|].
  split; [reflexivity|]. split; [reflexivity|]. split; [reflexivity|]. split; [reflexivity|]. split; [reflexivity|]. split; [intros kv [<-|[]]; reflexivity|].
  split; [reflexivity|]. split; [reflexivity|]. split; reflexivity.
Qed.
