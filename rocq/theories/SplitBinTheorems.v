(** Histograms with a bin cut in two (C158). *)
From Coq Require Import String List Arith ZArith Bool Lia Reals Lra.
From Verif Require Import Num NumProofs PairwiseProofs Py NdArray NumpyLib Utils ScipyWrap Spec Values Ensemble Classes
  HistPdf SortProofs BinProofs EvalProofs NdProofs IntegralProofs TableProofs InterpProofs HistProofs HistTheorems
  Kinds KindProofs EnsembleProofs KindInputs ReachProofs RowProofs EnsembleTheorems IntegrateTheorems ConvertTheorems
  Hdf5 Hdf5Theorems MetricsProofs Profile ProfileTheorems KnotTheorems.
Import ListNotations.
Local Open Scope string_scope.
Local Open Scope list_scope.
Local Open Scope R_scope.

(** The values when the bin in front of edge [k] is cut in two: both parts get its value *)
Definition cut (k : nat) (row : list R) : list R := ins k (nth0 (pred k) row) row.
Lemma cut_lt k row i : (k <= length row)%nat -> (i < k)%nat -> nth0 i (cut k row) = nth0 i row.
Proof. apply ins_lt. Qed.
Lemma cut_cum bins row k z : increasing bins -> length row = pred (length bins) -> between bins k z ->
  hist_cdf_row (bin_widths (ins k z bins)) (cut k row) = ins k (on_line bins (hist_cdf_row (bin_widths bins) row) k z) (hist_cdf_row (bin_widths bins) row).
Proof.
  intros Hs Hl Hb. pose proof Hb as (Hk & Hz). set (c := hist_cdf_row (bin_widths bins) row). set (c' := hist_cdf_row (bin_widths (ins k z bins)) (cut k row)).
  assert (Lr : length (cut k row) = pred (length (ins k z bins))) by (unfold cut; rewrite !ins_length; cbn [pred]; lia). assert (Lc : length c = length bins) by (apply c_length; lia). assert (Lc' : length c' = S (length bins)) by (unfold c'; rewrite c_length by (rewrite ?ins_length in *; lia); apply ins_length).
  assert (St : forall j, (S j < length bins)%nat -> nth0 (S j) c = nth0 j c + nth0 j row * (nth0 (S j) bins - nth0 j bins)) by (intros; apply c_step; lia).
  assert (St' : forall j, (j < length bins)%nat -> nth0 (S j) c' = nth0 j c' + nth0 j (cut k row) * (nth0 (S j) (ins k z bins) - nth0 j (ins k z bins))) by (intros; apply c_step; rewrite ?ins_length in *; lia).
  assert (A : forall i, (i < k)%nat -> nth0 i c' = nth0 i c).
  { induction i as [|i IH]; intros Hi; [reflexivity|]. rewrite St, St', IH by lia. unfold cut. rewrite !ins_lt by lia. reflexivity. }
  assert (B : nth0 k c' = on_line bins c k z).
  { destruct k as [|k]; [lia|]. rewrite St', A by lia. unfold cut. rewrite (ins_lt _ _ row k), ins_eq, (ins_lt _ _ bins k) by lia. unfold on_line. cbn [pred] in *. rewrite St by lia. field. lra. }
  assert (C : forall i, (k <= i < length bins)%nat -> nth0 (S i) c' = nth0 i c).
  { intros i [H1 H2]. induction H1 as [|i Hi IH].
    - rewrite St', B by lia. destruct k as [|k]; [lia|]. unfold cut. rewrite !ins_eq by lia. rewrite ins_gt by lia. unfold on_line. cbn [pred] in *. rewrite St by lia. field. lra.
    - rewrite St', IH, St by lia. unfold cut. rewrite (ins_gt _ _ row i), (ins_gt _ _ bins (S i)), (ins_gt _ _ bins i) by lia. reflexivity. }
  apply (nth_ext _ _ 0 0); [rewrite ins_length; lia|]. intros i Hi. change (nth0 i c' = nth0 i (ins k (on_line bins c k z) c)).
  destruct (lt_eq_lt_dec i k) as [[H|H]|H]; [rewrite ins_lt by lia; apply A; lia|subst i; rewrite ins_eq by lia; exact B|destruct i as [|i]; [lia|]; rewrite ins_gt by lia; apply C; lia].
Qed.
Lemma cut_mass bins row k z : increasing bins -> length row = pred (length bins) -> between bins k z -> mass (ins k z bins) (cut k row) = mass bins row.
Proof.
  intros Hs Hl Hb. pose proof Hb as (Hk & _). rewrite <- (c_last bins row), <- (c_last (ins k z bins) (cut k row)) by (unfold cut; rewrite ?ins_length; cbn [pred]; lia). rewrite cut_cum by assumption. apply ins_last. rewrite c_length by lia. exact Hk.
Qed.
Lemma cut_input bins rows k z : hist_input bins rows -> between bins k z -> hist_input (ins k z bins) (map (cut k) rows).
Proof.
  intros (Hs & Hn & Hne & Hr) Hb. pose proof Hb as (Hk & _). split; [apply ins_inc; assumption|]. split; [rewrite ins_length; lia|]. split; [destruct rows; [congruence|discriminate]|].
  intros row' Hin. apply in_map_iff in Hin. destruct Hin as (row & <- & Hin). destruct (Hr row Hin) as (Hl & Hp & Hm). split; [unfold cut; rewrite !ins_length; cbn [pred]; lia|]. split.
  - intros i Hi. unfold cut in *. rewrite ins_length in Hi. destruct (lt_eq_lt_dec i k) as [[H|H]|H]; [rewrite ins_lt by lia; apply Hp; lia|subst i; rewrite ins_eq by lia; apply Hp; lia|destruct i as [|i]; [lia|]; rewrite ins_gt by lia; apply Hp; lia].
  - change (0 < mass (ins k z bins) (cut k row)). rewrite cut_mass by assumption. exact Hm.
Qed.
Lemma cut_norm bins row k z : increasing bins -> length row = pred (length bins) -> between bins k z ->
  hist_norm_row (bin_widths (ins k z bins)) (cut k row) = cut k (hist_norm_row (bin_widths bins) row).
Proof.
  intros Hs Hl Hb. pose proof Hb as (Hk & _). rewrite !hist_norm_row_R. rewrite (mass_sum (ins k z bins)), (mass_sum bins) by (unfold cut; rewrite ?ins_length; cbn [pred]; lia). rewrite cut_mass by assumption. unfold cut. rewrite map_ins, nth0_map by lia. reflexivity.
Qed.
Lemma hist_point_in bins row x i : increasing bins -> sound_bins bins -> (S i < length bins)%nat -> nth0 i bins < x < nth0 (S i) bins -> hist_point bins [row] x 0 = nth0 i row.
Proof. intros Hs Hb Hi Hx. unfold hist_point. rewrite (lookup_interior bins x i) by assumption. reflexivity. Qed.
Lemma hist_point_out bins row x : increasing bins -> sound_bins bins -> (2 <= length bins)%nat -> x < nth0 0 bins \/ nlast bins < x -> hist_point bins [row] x 0 = 0.
Proof. intros Hs Hb Hi Hx. unfold hist_point. pose proof (lookup_out bins x Hs Hb Hi Hx) as H. destruct (get_bin_indices bins x) as [j b]. cbn in H. subst b. reflexivity. Qed.
Lemma cut_point bins row k z x : increasing bins -> length row = pred (length bins) -> between bins k z -> sound_bins bins -> sound_bins (ins k z bins) -> ~ In x (ins k z bins) ->
  hist_point (ins k z bins) [cut k row] x 0 = hist_point bins [row] x 0.
Proof.
  intros Hs Hl Hb Hsb Hsb' Hx. pose proof Hb as (Hk & Hz). pose proof (ins_inc bins k z Hs Hb) as Hs'.
  assert (Ne : forall i, (i < length bins)%nat -> x <> nth0 i bins).
  { intros i Hi E. apply Hx. subst x. unfold ins. assert (Hin : In (nth0 i bins) bins) by (apply nth_In; exact Hi). rewrite <- (firstn_skipn k bins) in Hin at 2. apply in_app_or in Hin. apply in_or_app. destruct Hin; [left|right; right]; assumption. }
  assert (Nz : x <> z) by (intros ->; apply Hx; unfold ins; apply in_or_app; right; left; reflexivity).
  destruct (Rlt_le_dec x (nth0 0 bins)) as [H0|H0]; [rewrite !hist_point_out by (try assumption; rewrite ?ins_length, ?ins_lt by lia; (lia || auto)); reflexivity|].
  destruct (Rlt_le_dec (nlast bins) x) as [H1|H1]; [rewrite !hist_point_out by (try assumption; rewrite ?ins_length, ?ins_last by lia; (lia || auto)); reflexivity|].
  destruct (segment_exists_closed bins x (inc_nd _ Hs) ltac:(lia) (conj H0 H1)) as (j & Hj & Hxj). pose proof (Ne j ltac:(lia)) as N1. pose proof (Ne (S j) ltac:(lia)) as N2. rewrite (hist_point_in bins row x j) by (try assumption; lra).
  destruct (lt_eq_lt_dec (S j) k) as [[Hjk|Hjk]|Hjk].
  - rewrite (hist_point_in _ _ x j); try assumption; [apply cut_lt; lia|rewrite ins_length; lia|rewrite !ins_lt by lia; lra].
  - subst k. cbn [pred] in *. destruct (Rlt_le_dec x z) as [Hxz|Hxz].
    + rewrite (hist_point_in _ _ x j); try assumption; [apply cut_lt; lia|rewrite ins_length; lia|rewrite ins_lt, ins_eq by lia; lra].
    + rewrite (hist_point_in _ _ x (S j)); try assumption; [unfold cut; apply ins_eq; lia|rewrite ins_length; lia|rewrite (ins_gt _ _ bins (S j)), ins_eq by lia; lra].
  - rewrite (hist_point_in _ _ x (S j)); try assumption; [unfold cut; apply ins_gt; lia|rewrite ins_length; lia|rewrite !ins_gt by lia; lra].
Qed.
Lemma c158_row X bins rows k z : hist_input bins rows -> between bins k z -> forall row, In row rows ->
  let d := [Nums (hist_norm_row (bin_widths bins) row)] in let d' := [Nums (hist_norm_row (bin_widths (ins k z bins)) (cut k row))] in
  (forall x, val (s_phi X) (s_Phi X) (s_quad X) (s_Phinv X) (KHist (ins k z bins)) MCdf d' x = val (s_phi X) (s_Phi X) (s_quad X) (s_Phinv X) (KHist bins) MCdf d x) /\
  (forall x, sound_bins bins -> sound_bins (ins k z bins) -> ~ In x (ins k z bins) -> val (s_phi X) (s_Phi X) (s_quad X) (s_Phinv X) (KHist (ins k z bins)) MPdf d' x = val (s_phi X) (s_Phi X) (s_quad X) (s_Phinv X) (KHist bins) MPdf d x) /\
  (forall x, (forall v, In v row -> 0 < v) -> val (s_phi X) (s_Phi X) (s_quad X) (s_Phinv X) (KHist (ins k z bins)) MPpf d' x = val (s_phi X) (s_Phi X) (s_quad X) (s_Phinv X) (KHist bins) MPpf d x).
Proof.
  intros (Hs & Hn & Hne & Hr) Hb row Hin d d'. destruct (Hr row Hin) as (Hl & Hp & Hm). pose proof Hb as (Hk & Hz).
  assert (Ln : length (hist_norm_row (bin_widths bins) row) = pred (length bins)) by (apply norm_row_length; exact Hl).
  unfold d, d'. cbn [val]. unfold num_at, cell_at. cbn [nth nums]. rewrite cut_norm by assumption. set (nr := hist_norm_row (bin_widths bins) row) in *. rewrite cut_cum by assumption. set (c := hist_cdf_row (bin_widths bins) nr).
  assert (Lc : length c = length bins) by (apply c_length; lia). split; [|split].
  - intros x. f_equal. apply ins_interp; auto.
  - intros x S1 S2 Hx. f_equal. apply cut_point; assumption.
  - intros x Hpos. assert (Ic : increasing c).
    { apply step_increasing. intros j Hj. rewrite Lc in Hj. unfold c. rewrite c_step by lia. unfold nr. rewrite norm_row_nth by lia. assert (0 < nth0 j row) by (apply Hpos, nth_In; lia). assert (nth0 j bins < nth0 (S j) bins) by (apply inc_lt; auto; lia).
      assert (0 < nth0 j row / mass bins row) by (apply Rdiv_lt_0_compat; assumption). nra. }
    assert (Hb' : between c k (on_line bins c k z)).
    { split; [lia|]. assert (L : nth0 (pred k) c < nth0 k c) by (apply inc_lt; auto; lia). unfold on_line. set (t := (z - nth0 (pred k) bins) / (nth0 k bins - nth0 (pred k) bins)).
      assert (0 < t) by (apply Rdiv_lt_0_compat; lra). assert (t < 1) by (apply Rmult_lt_reg_r with (nth0 k bins - nth0 (pred k) bins); [lra|]; unfold t, Rdiv; rewrite Rmult_assoc, Rinv_l by lra; lra).
      replace ((nth0 k c - nth0 (pred k) c) * (z - nth0 (pred k) bins) / (nth0 k bins - nth0 (pred k) bins)) with ((nth0 k c - nth0 (pred k) c) * t) by (unfold t; field; lra). nra. }
    assert (Hz' : z = on_line c bins k (on_line bins c k z)) by (unfold on_line; assert (L : nth0 (pred k) c < nth0 k c) by (apply inc_lt; auto; lia); field; lra).
    assert (Hh : nhead (ins k z bins) = nhead bins) by (rewrite !nhead_nth0; apply ins_lt; lia). rewrite Hh, ins_last by exact Hk.
    assert (E : forall p, interp1d (ins k (on_line bins c k z) c) (ins k z bins) (nhead bins) (nlast bins) p = interp1d c bins (nhead bins) (nlast bins) p) by (intros p; apply ins_interp; auto).
    unfold ends, with_ends. rewrite !E. reflexivity.
Qed.
(** C158 *)
Lemma c158_split : forall X bins rows k z, fill_outside X -> hist_input bins rows -> between bins k z ->
  exists e e', ens_new (create_of (qp X) "hist") (input_dict (IHist bins rows)) None = Ok e /\ ens_new (create_of (qp X) "hist") (input_dict (IHist (ins k z bins) (map (cut k) rows))) None = Ok e' /\
    (forall p, on_points p -> ens_cdf e' p = ens_cdf e p) /\
    (sound_bins bins -> sound_bins (ins k z bins) -> forall x, ~ In x (ins k z bins) -> ens_pdf e' (PScalar x) = ens_pdf e (PScalar x)) /\
    ((forall row v, In row rows -> In v row -> 0 < v) -> forall p, on_points p -> ens_ppf e' p = ens_ppf e p).
Proof.
  intros X bins rows k z HX Hi Hb. pose proof (cut_input bins rows k z Hi Hb) as Hi'. destruct (created X (IHist bins rows) HX Hi) as (e & E & _ & HD & _). destruct (created X (IHist _ _) HX Hi') as (e' & E' & _ & HD' & _).
  exists e, e'. split; [exact E|]. split; [exact E'|]. pose proof (c158_row X bins rows k z Hi Hb) as G.
  assert (W : forall m p, In m [MPdf; MCdf; MPpf] -> on_points p ->
    (forall row x, In row rows -> (p = PScalar x \/ exists l, p = PGrid l /\ In x l) -> val (s_phi X) (s_Phi X) (s_quad X) (s_Phinv X) (KHist (ins k z bins)) m [Nums (hist_norm_row (bin_widths (ins k z bins)) (cut k row))] x = val (s_phi X) (s_Phi X) (s_quad X) (s_Phinv X) (KHist bins) m [Nums (hist_norm_row (bin_widths bins) row)] x) -> evaluate m e' p = evaluate m e p).
  { intros m p Hm Hp V. rewrite (rep_answers _ _ _ _ m p HD Hm Hp), (rep_answers _ _ _ _ m p HD' Hm Hp). f_equal. cbn [input_rows]. rewrite !map_map. apply map_ext_in. intros row Hin. destruct p as [x|l|M]; cbn [row_answer input_kind]; [rewrite V by auto; reflexivity|apply map_ext_in; intros x Hx; apply V; eauto|destruct Hp]. }
  split; [|split].
  - intros p Hp. apply (W MCdf); [cbn; auto|exact Hp|]. intros row x Hin _. apply (G row Hin).
  - intros S1 S2 x Hx. apply (W MPdf); [cbn; auto|exact I|]. intros row x' Hin [Ex|(l & Ex & _)]; [|discriminate]. injection Ex as <-. apply (G row Hin); assumption.
  - intros Hpos p Hp. apply (W MPpf); [cbn; auto|exact Hp|]. intros row x Hin _. apply (G row Hin). intros v Hv. exact (Hpos row v Hin Hv).
Qed.
(** At an edge the density may change: bins of equal width own their lower edge, others their upper edge. *)
Lemma c158_edge : exists X bins rows k z x e e' y y', fill_outside X /\ hist_input bins rows /\ between bins k z /\ sound_bins bins /\ sound_bins (ins k z bins) /\ In x bins /\
  ens_new (create_of (qp X) "hist") (input_dict (IHist bins rows)) None = Ok e /\ ens_new (create_of (qp X) "hist") (input_dict (IHist (ins k z bins) (map (cut k) rows))) None = Ok e' /\
  ens_pdf e (PScalar x) = Ok [[Fin y]] /\ ens_pdf e' (PScalar x) = Ok [[Fin y']] /\ y <> y'.
Proof.
  assert (Hi : hist_input [0; 1; 2] [[1; 3]]).
  { split; [repeat constructor; lra|]. split; [simpl; lia|]. split; [discriminate|]. intros row [<-|[]]; (split; [reflexivity|]; split; [intros [|[|j]] Hj; unfold nth0; simpl in *; try lra; lia|unfold nth0; simpl; lra]). }
  assert (U : equal_width [0; 1; 2]) by (exists 1; intros [|[|i]] Hi0; unfold nth0; simpl in *; try lia; lra).
  assert (Hb : between [0; 1; 2] 2 (3 / 2)) by (split; [simpl; lia|unfold nth0; simpl; lra]).
  assert (V : clearly_unequal (ins 2 (3 / 2) [0; 1; 2])) by (exists 1%nat; split; [simpl; lia|]; unfold ins, nth0; cbn [firstn skipn app nth]; rewrite Rabs_left by lra; rewrite !Rabs_pos_eq by lra; lra).
  pose proof (cut_input _ _ 2 (3 / 2) Hi Hb) as Hi'. destruct (created scipy0 (IHist _ _) scipy0_fill Hi) as (e & E & _ & HD & _). destruct (created scipy0 (IHist _ _) scipy0_fill Hi') as (e' & E' & _ & HD' & _).
  exists scipy0, [0; 1; 2], [[1; 3]], 2%nat, (3 / 2), 1, e, e', (3 / 4), (1 / 4). split; [exact scipy0_fill|]. split; [exact Hi|]. split; [exact Hb|]. split; [left; exact U|]. split; [right; exact V|]. split; [right; left; reflexivity|]. split; [exact E|]. split; [exact E'|]. split; [|split; [|lra]].
  - change (evaluate MPdf e (PScalar 1) = Ok [[Fin (3 / 4)]]). rewrite (rep_answers _ _ _ _ MPdf _ HD) by (cbn; auto). cbn [input_rows map row_answer input_kind val]. do 4 f_equal. unfold hist_point, num_at, cell_at. cbn [nth nums]. rewrite (lookup_uniform [0; 1; 2] 1 1); [|apply Hi|exact U|simpl; lia|unfold nth0; simpl; lra].
    unfold at2. cbn [nth]. unfold hist_norm_row. rewrite npsum_R. unfold nth0, bin_widths, ndiff. cbn. field.
  - change (evaluate MPdf e' (PScalar 1) = Ok [[Fin (1 / 4)]]). rewrite (rep_answers _ _ _ _ MPdf _ HD') by (cbn; auto). cbn [input_rows map row_answer input_kind val]. do 4 f_equal. unfold hist_point, num_at, cell_at. cbn [nth nums]. rewrite (lookup_irregular _ 1 0); [|apply Hi'|exact V|simpl; lia|unfold nth0; simpl; lra].
    unfold at2. cbn [nth]. unfold hist_norm_row. rewrite npsum_R. unfold cut, ins, nth0, bin_widths, ndiff. cbn. field.
Qed.

(** ** Example *)
Lemma c158_example : exists bins rows k z, hist_input bins rows /\ between bins k z /\ sound_bins bins /\ sound_bins (ins k z bins) /\ (forall row v, In row rows -> In v row -> 0 < v) /\ length rows = 2%nat /\ equal_width bins.
Proof.
  exists [0; 1; 2], [[1; 2]; [3; 1]], 2%nat, (3 / 2). split.
  { split; [repeat constructor; lra|]. split; [simpl; lia|]. split; [discriminate|]. intros row [<-|[<-|[]]]; (split; [reflexivity|]; split; [intros [|[|j]] Hj; unfold nth0; simpl in *; try lra; lia|unfold nth0; simpl; lra]). }
  assert (U : equal_width [0; 1; 2]) by (exists 1; intros [|[|i]] Hi; unfold nth0; simpl in *; try lia; lra).
  split; [split; [simpl; lia|unfold nth0; simpl; lra]|]. split; [left; exact U|]. split.
  { right. exists 1%nat. split; [simpl; lia|]. unfold ins, nth0. cbn [firstn skipn app nth]. rewrite Rabs_left by lra. rewrite !Rabs_pos_eq by lra. lra. }
  split; [intros row v [<-|[<-|[]]] Hv; repeat (destruct Hv as [<-|Hv]; [lra|]); destruct Hv|]. split; [reflexivity|exact U].
Qed.
