(** Quantile tables in other units (C161). *)
From Coq Require Import String List Arith ZArith Bool Lia Reals Lra.
From Verif Require Import Num NumProofs Py NdArray NumpyLib Utils ScipyWrap Spec Values Ensemble Classes QuantPdf
  SortProofs BinProofs EvalProofs NdProofs InterpProofs HistProofs HistTheorems QuantTheorems Kinds KindProofs EnsembleProofs KindInputs ReachProofs RowProofs EnsembleTheorems IntegrateTheorems ConvertTheorems
  ScaleTheorems UnitTheorems UnitConvertTheorems.
Import ListNotations.
Local Open Scope string_scope.
Local Open Scope list_scope.
Local Open Scope R_scope.

(** the locations in the new units *)
Definition moved_rows (a b : R) (rows : list (list R)) : list (list R) := map (map (unit_of a b)) rows.
(** What is used of scipy's quadratic interpolation for the distribution function and the quantiles: it moves with the units of the abscissae and, inside the range of the abscissae, of the ordinates *)
Definition quad_moves (X : scipy) (a b : R) : Prop :=
  (forall xs ys lo hi x, xs <> [] -> s_quad X (map (unit_of a b) xs) ys lo hi (unit_of a b x) = s_quad X xs ys lo hi x) /\
  (forall xs ys lo hi x, xs <> [] -> length ys = length xs -> nhead xs <= x <= nlast xs -> s_quad X xs (map (unit_of a b) ys) lo hi x = unit_of a b (s_quad X xs ys lo hi x)).

Lemma rows_follow X k k' D e e' a b m (h : row -> row) : 0 < a -> represents_in X k D e -> represents_in X k' (map h D) e' -> In m (methods k) -> In m (methods k') ->
  (forall d x, In d D -> val (s_phi X) (s_Phi X) (s_quad X) (s_Phinv X) k' m (h d) (move_x a b m x) = moved_answer a b m (val (s_phi X) (s_Phi X) (s_quad X) (s_Phinv X) k m d x)) -> follows a b m e e'.
Proof.
  intros Ha HD HD' Hm Hm' H. split; [rewrite (rep_npdf' X _ _ _ HD), (rep_npdf' X _ _ _ HD'), map_length; reflexivity|]. intros p Hp.
  eexists. split; [apply (rep_answers X k D); assumption|]. rewrite (rep_answers X _ _ _ m (moved_points a b m p) HD') by (auto using moved_on). f_equal. rewrite !map_map. apply map_ext_in. intros d Hd.
  destruct p as [x|l|M]; [| |destruct Hp]; unfold row_answer.
  - destruct m; cbn [moved_points map]; rewrite <- H by exact Hd; reflexivity.
  - destruct m; cbn [moved_points]; rewrite ?map_map; apply map_ext; intros x; rewrite <- H by exact Hd; reflexivity.
Qed.
Lemma moved_quant_ok a b quants rows name : 0 < a -> KindInputs.input_ok (IQuant quants rows name) -> KindInputs.input_ok (IQuant quants (moved_rows a b rows) name).
Proof.
  intros Ha ((H1 & H2 & H3 & H4 & H5 & H6) & H). split; [|exact H]. split; [exact H1|]. split; [exact H2|]. split; [exact H3|]. split; [exact H4|]. split; [unfold moved_rows; destruct rows; [congruence|discriminate]|].
  intros row Hr. apply in_map_iff in Hr. destruct Hr as (r & <- & Hr). destruct (H6 r Hr). rewrite map_length. split; [assumption|apply g_increasing; assumption].
Qed.
Lemma moved_pad a b quants row : length row = length quants -> (2 <= length quants)%nat -> pad_locs quants (map (unit_of a b) row) = map (unit_of a b) (pad_locs quants row).
Proof.
  intros HL H2. unfold pad_locs. rewrite !map_app. assert (E : forall i, (i < length row)%nat -> nth0 i (map (unit_of a b) row) = unit_of a b (nth0 i row)) by (intros; apply g_nth; assumption).
  f_equal; [|f_equal].
  - destruct (pad_lo quants); [|reflexivity]. cbn [map]. rewrite !E by lia. f_equal. cbn. unfold unit_of, Rdiv. ring.
  - destruct (pad_hi quants); [|reflexivity]. cbn [map]. rewrite g_last by (destruct row; [simpl in HL; lia|discriminate]). unfold last2. rewrite map_length, !E by lia. f_equal. cbn. unfold unit_of, Rdiv. ring.
Qed.
Lemma moved_quant_rows a b quants rows name : KindInputs.input_ok (IQuant quants rows name) ->
  input_rows (IQuant quants (moved_rows a b rows) name) = map (map (fun c => match c with Nums l => Nums (map (unit_of a b) l) | other => other end)) (input_rows (IQuant quants rows name)).
Proof.
  intros ((_ & H2 & _ & _ & _ & H) & _). cbn [input_rows]. unfold moved_rows. rewrite !map_map. apply map_ext_in. intros r Hr. cbn [map]. rewrite moved_pad by (auto; apply H; exact Hr). reflexivity.
Qed.
Lemma moved_adjusted a b l : adjusted_locations (map (unit_of a b) l) = map (unit_of a b) (adjusted_locations l).
Proof.
  unfold adjusted_locations. rewrite g_ndiff, tl_map. unfold times. rewrite map2_map_l, map2_map_r, map_map2. apply map2_same. intros x y. cbn. unfold unit_of, Rdiv. ring.
Qed.
Lemma moved_derivatives a b quants l : cdf_derivatives quants (map (unit_of a b) l) = times (/ a) (cdf_derivatives quants l).
Proof.
  unfold cdf_derivatives. rewrite g_ndiff. unfold times. rewrite map2_map_r, map_map2. apply map2_same. intros x y. cbn. unfold Rdiv. rewrite Rinv_mult. ring.
Qed.
Lemma both_quant X a b quants rows name : fill_outside X -> 0 < a -> KindInputs.input_ok (IQuant quants rows name) ->
  exists e e', ens_new (create_of (qp X) "quant") (input_dict (IQuant quants rows name)) None = Ok e /\ ens_new (create_of (qp X) "quant") (input_dict (IQuant quants (moved_rows a b rows) name)) None = Ok e' /\
    represents_in X (KQuant (pad_quants quants) name) (input_rows (IQuant quants rows name)) e /\ represents_in X (KQuant (pad_quants quants) name) (input_rows (IQuant quants (moved_rows a b rows) name)) e'.
Proof.
  intros HX Ha Hi. destruct (created X _ HX Hi) as (e & E & _ & HD & _). destruct (created X _ HX (moved_quant_ok a b _ _ _ Ha Hi)) as (e' & E' & _ & HD' & _). exists e, e'. auto.
Qed.
Lemma padded_row quants rows name d : KindInputs.input_ok (IQuant quants rows name) -> In d (input_rows (IQuant quants rows name)) ->
  exists l, d = [Nums l] /\ length l = length (pad_quants quants) /\ (3 <= length l)%nat.
Proof.
  intros Hi Hd. destruct Hi as ((H1 & H2 & H3 & H4 & H5 & H6) & _ & _ & H). cbn [input_rows] in Hd. apply in_map_iff in Hd. destruct Hd as (r & <- & Hr). destruct (H6 r Hr) as [L _]. exists (pad_locs quants r).
  split; [reflexivity|]. rewrite pad_locs_length by exact L. split; [reflexivity|]. unfold pad_quants. rewrite !app_length. destruct H as [H|[H|H]]; [lia| |].
  - apply pad_lo_iff in H; auto. rewrite H. simpl. lia.
  - apply pad_hi_iff in H; auto. rewrite H. simpl. lia.
Qed.
(** C161: the density of the default constructor *)
Lemma c161_linear : forall X a b quants rows, fill_outside X -> 0 < a -> KindInputs.input_ok (IQuant quants rows "piecewise_linear") ->
  exists e e', ens_new (create_of (qp X) "quant") (input_dict (IQuant quants rows "piecewise_linear")) None = Ok e /\
    ens_new (create_of (qp X) "quant") (input_dict (IQuant quants (moved_rows a b rows) "piecewise_linear")) None = Ok e' /\ follows a b MPdf e e'.
Proof.
  intros X a b quants rows HX Ha Hi. destruct (both_quant X a b quants rows _ HX Ha Hi) as (e & e' & E & E' & HD & HD'). exists e, e'. split; [exact E|]. split; [exact E'|].
  rewrite moved_quant_rows in HD' by exact Hi. apply (rows_follow X _ _ _ e e' a b MPdf _ Ha HD HD'); [cbn; auto|cbn; auto|].
  intros d x Hd. destruct (padded_row _ _ _ d Hi Hd) as (l & -> & Hl & H3). cbn [val move_x moved_answer map String.eqb Ascii.eqb Bool.eqb]. unfold num_at, cell_at. cbn [nth nums].
  rewrite moved_adjusted, moved_derivatives, g_interp1d_x; [|assumption|].
  - f_equal. replace 0 with (/ a * 0) at 1 2 by ring. rewrite times_interp1d. unfold Rdiv. ring.
  - unfold adjusted_locations. destruct l as [|u [|v l]]; simpl in H3; try lia. discriminate.
Qed.
(** C161: distribution function and quantiles, for every constructor *)
Lemma c161_cdf_ppf : forall X a b quants rows name, fill_outside X -> 0 < a -> quad_moves X a b -> KindInputs.input_ok (IQuant quants rows name) ->
  exists e e', ens_new (create_of (qp X) "quant") (input_dict (IQuant quants rows name)) None = Ok e /\
    ens_new (create_of (qp X) "quant") (input_dict (IQuant quants (moved_rows a b rows) name)) None = Ok e' /\ follows a b MCdf e e' /\ follows a b MPpf e e'.
Proof.
  intros X a b quants rows name HX Ha [Q1 Q2] Hi. destruct (both_quant X a b quants rows _ HX Ha Hi) as (e & e' & E & E' & HD & HD'). exists e, e'. split; [exact E|]. split; [exact E'|].
  rewrite moved_quant_rows in HD' by exact Hi. pose proof HD as (Hk & _). destruct Hk as (_ & _ & K0 & K1 & _).
  assert (M : forall m, m = MCdf \/ m = MPpf -> In m (methods (KQuant (pad_quants quants) name))) by (intros m Hm; unfold methods; destruct (String.eqb name "piecewise_linear" || String.eqb name "piecewise_constant"); destruct Hm; subst; simpl; auto).
  split; apply (rows_follow X _ _ _ e e' a b _ _ Ha HD HD'); try (apply M; auto); intros d x Hd; destruct (padded_row _ _ _ d Hi Hd) as (l & -> & Hl & H3); cbn [val move_x moved_answer map]; unfold num_at, cell_at; cbn [nth nums].
  - f_equal. apply Q1. destruct l; [simpl in H3; lia|discriminate].
  - assert (Hne : pad_quants quants <> []) by (destruct (pad_quants quants); [simpl in Hl; lia|discriminate]).
    transitivity (ends (fun p => unit_of a b (s_quad X (pad_quants quants) l 0 0 p)) x).
    + apply ends_ext. intros Hp. apply Q2; [exact Hne|exact Hl|]. rewrite K1. replace (nhead (pad_quants quants)) with (nth0 0 (pad_quants quants)) by (destruct (pad_quants quants); reflexivity). rewrite K0. lra.
    + exact (g_ends a b (s_quad X (pad_quants quants) l 0 0) x).
Qed.
(** C161: the density of the piecewise-constant constructor does not move with the units *)
Lemma const_ok : KindInputs.input_ok (IQuant [0; 1/2; 3/4; 1] [[0; 1; 2; 4]] "piecewise_constant").
Proof.
  split; [|split; [vm_compute; tauto|split; [left; reflexivity|left; simpl; lia]]]. split; [repeat constructor; lra|]. split; [simpl; lia|]. split; [unfold nth0; simpl; lra|]. split; [unfold nlast; simpl; lra|]. split; [discriminate|].
  intros row [<-|[]]. split; [reflexivity|repeat constructor; lra].
Qed.
Lemma const_pad l : pad_locs [0; 1/2; 3/4; 1] l = l.
Proof.
  apply pad_locs_same.
  - unfold pad_lo. destruct (nltb_reflect float_eps (nhead [0; 1/2; 3/4; 1])) as [H|H]; [|reflexivity]. rewrite float_eps_R in H. change (/ 2 ^ 52 < 0) in H. pose proof (Rinv_0_lt_compat (2 ^ 52) ltac:(apply pow_lt; lra)). lra.
  - unfold pad_hi. destruct (nltb_reflect (nlast [0; 1/2; 3/4; 1]) (n1 : R)) as [H|H]; [|reflexivity]. unfold nlast in H. simpl in H. cbn in H. lra.
Qed.
Lemma const_pad_q : pad_quants [0; 1/2; 3/4; 1] = [0; 1/2; 3/4; 1].
Proof.
  apply pad_quants_same.
  - unfold pad_lo. destruct (nltb_reflect float_eps (nhead [0; 1/2; 3/4; 1])) as [H|H]; [|reflexivity]. rewrite float_eps_R in H. change (/ 2 ^ 52 < 0) in H. pose proof (Rinv_0_lt_compat (2 ^ 52) ltac:(apply pow_lt; lra)). lra.
  - unfold pad_hi. destruct (nltb_reflect (nlast [0; 1/2; 3/4; 1]) (n1 : R)) as [H|H]; [|reflexivity]. unfold nlast in H. simpl in H. cbn in H. lra.
Qed.
Lemma c161_constant : exists X a b quants rows e e' y y', fill_outside X /\ 0 < a /\ KindInputs.input_ok (IQuant quants rows "piecewise_constant") /\
  ens_new (create_of (qp X) "quant") (input_dict (IQuant quants rows "piecewise_constant")) None = Ok e /\ ens_new (create_of (qp X) "quant") (input_dict (IQuant quants (moved_rows a b rows) "piecewise_constant")) None = Ok e' /\
  evaluate MPdf e (PScalar 1) = Ok [[Fin y]] /\ evaluate MPdf e' (PScalar (unit_of a b 1)) = Ok [[Fin y']] /\ y = 3 / 8 /\ a = 2 /\ y' = 1 / 8.
Proof.
  destruct (both_quant scipy0 2 0 _ _ _ scipy0_fill Rlt_0_2 const_ok) as (e & e' & E & E' & HD & HD'). exists scipy0, 2, 0, [0; 1/2; 3/4; 1], [[0; 1; 2; 4]], e, e', (3 / 8), (1 / 8).
  split; [exact scipy0_fill|]. split; [lra|]. split; [exact const_ok|]. split; [exact E|]. split; [exact E'|]. rewrite const_pad_q in HD, HD'. cbn [input_rows moved_rows map] in HD, HD'. rewrite const_pad in HD, HD'.
  split; [|split; [|auto]].
  - rewrite (rep_answers _ _ _ _ MPdf (PScalar 1) HD) by (cbn; auto). unfold row_answer. cbn [map val String.eqb Ascii.eqb Bool.eqb]. unfold num_at, cell_at. cbn [nth nums]. unfold hist_multi_point. cbn [nth].
    rewrite (lookup_interior (adjusted_locations [0; 1; 2; 4]) 1 0).
    + unfold at2, nth0. cbn. do 4 f_equal. field.
    + apply adj_inc. repeat constructor; lra.
    + right. exists 1%nat. split; [simpl; lia|]. unfold nth0. cbn. rewrite !Rabs_pos_eq by lra. lra.
    + simpl. lia.
    + unfold nth0. cbn. lra.
  - rewrite (rep_answers _ _ _ _ MPdf (PScalar (unit_of 2 0 1)) HD') by (cbn; auto). unfold row_answer. cbn [map val String.eqb Ascii.eqb Bool.eqb]. unfold num_at, cell_at. cbn [nth nums]. unfold hist_multi_point. cbn [nth].
    rewrite (lookup_interior (adjusted_locations [unit_of 2 0 0; unit_of 2 0 1; unit_of 2 0 2; unit_of 2 0 4]) (unit_of 2 0 1) 0).
    + unfold at2, nth0, unit_of. cbn. do 4 f_equal. field.
    + apply adj_inc. unfold unit_of. repeat constructor; lra.
    + right. exists 1%nat. split; [simpl; lia|]. unfold nth0, unit_of. cbn. rewrite !Rabs_pos_eq by lra. lra.
    + simpl. lia.
    + unfold nth0, unit_of. cbn. lra.
Qed.

(** ** Example *)
Lemma c161_example : exists X a b quants rows, fill_outside X /\ 0 < a /\ a <> 1 /\ b <> 0 /\ quad_moves X a b /\ KindInputs.input_ok (IQuant quants rows "piecewise_linear") /\ length rows = 2%nat.
Proof.
  exists scipy0, 2, 5, [0; 1/2; 1], [[0; 1; 3]; [-1; 0; 1]]. split; [exact scipy0_fill|]. split; [lra|]. split; [lra|]. split; [lra|]. split.
  - split.
    + intros xs ys lo hi x Hx. apply g_interp1d_x; [lra|exact Hx].
    + intros xs ys lo hi x Hx HL Hin. cbn [s_quad scipy0]. rewrite <- (g_interp1d_y 2 5 xs ys lo hi x Hx HL). apply scipy0_fill. destruct xs; exact Hin.
  - split; [|reflexivity]. split; [|split; [vm_compute; tauto|split; [left; reflexivity|left; simpl; lia]]]. split; [repeat constructor; lra|]. split; [simpl; lia|]. split; [unfold nth0; simpl; lra|]. split; [unfold nlast; simpl; lra|]. split; [discriminate|].
    intros row [<-|[<-|[]]]; (split; [reflexivity|repeat constructor; lra]).
Qed.
