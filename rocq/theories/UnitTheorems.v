(** Change of units: grids, locations and widths under x -> a x + b (C154). *)
From Coq Require Import String List Arith ZArith Bool Lia Reals Lra.
From Verif Require Import Num NumProofs PairwiseProofs Py NdArray NumpyLib Utils ScipyWrap Spec Values Ensemble Classes
  HistPdf InterpPdf QuantPdf MixmodPdf Packing PackedPdf SplinePdf
  SortProofs BinProofs EvalProofs NdProofs InterpProofs HistProofs HistTheorems TableProofs InterpPdfProofs GridTheorems IrrTheorems
  EvalTheorems QuantTheorems MixmodTheorems PackingTheorems PackedTheorems
  Kinds KindProofs EnsembleProofs KindInputs ReachProofs RowProofs EnsembleTheorems IntegrateTheorems ConvertTheorems Profile ProfileTheorems ScaleTheorems.
Import ListNotations.
Local Open Scope string_scope.
Local Open Scope list_scope.
Local Open Scope R_scope.

(** the new number for an old one *)
Definition unit_of (a b x : R) : R := a * x + b.
(** the same ensemble in the new units: grids and locations move, widths stretch, values are given as before *)
Definition in_units (a b : R) (i : input) : input :=
  match i with
  | IHist bins rows => IHist (map (unit_of a b) bins) rows
  | IInterp xs rows => IInterp (map (unit_of a b) xs) rows
  | IIrr n xr yr => IIrr n (map (map (unit_of a b)) xr) yr
  | IMix n means stds weights => IMix n (map (map (unit_of a b)) means) (map (times a) stds) weights
  | IPacked xs packed maxs pt lf => IPacked (map (unit_of a b) xs) packed maxs pt lf
  | INorm locs scales => INorm (map (unit_of a b) locs) (times a scales)
  | other => other
  end.
(** classes with such parameters; for histograms numpy's closeness test answers the same for both lists of edges *)
Definition movable (a b : R) (i : input) : Prop :=
  match i with
  | IHist bins _ => looks_uniform (map (unit_of a b) bins) <-> looks_uniform bins
  | IInterp _ _ | IIrr _ _ _ | IMix _ _ _ _ | IPacked _ _ _ _ _ | INorm _ _ => True
  | _ => False
  end.
(** where to ask, and what becomes of the answer *)
Definition moved_points (a b : R) (m : method) (p : points R) : points R :=
  match m, p with
  | MPpf, _ => p
  | _, PScalar x => PScalar (unit_of a b x)
  | _, PGrid l => PGrid (map (unit_of a b) l)
  | _, PMat M => PMat (map (map (unit_of a b)) M)
  end.
Definition moved_answer (a b : R) (m : method) (y : xnum R) : xnum R :=
  match m, y with
  | MPdf, Fin y => Fin (y / a)
  | MPpf, Fin y => Fin (unit_of a b y)
  | _, _ => y
  end.

Section Units.
  Variables a b : R.
  Hypothesis Ha : 0 < a.
  Let g := unit_of a b.
  Lemma g_lt x y : x < y <-> g x < g y.
  Proof using Ha. unfold g, unit_of. split; intros; nra. Qed.
  Lemma g_le x y : x <= y <-> g x <= g y.
  Proof using Ha. unfold g, unit_of. split; intros; nra. Qed.
  Lemma g_nleb x y : nleb (g x) (g y) = nleb x y.
  Proof using Ha. numR. unfold Rleb. pose proof (g_le x y). destruct (Rle_dec (g x) (g y)), (Rle_dec x y); tauto. Qed.
  Lemma g_nltb x y : nltb (g x) (g y) = nltb x y.
  Proof using Ha. unfold nltb. rewrite g_nleb. reflexivity. Qed.
  Lemma g_inj x y : g x = g y <-> x = y.
  Proof using Ha. unfold g, unit_of. split; intros; [|congruence]. nra. Qed.
  Lemma g_neqb x y : neqb (g x) (g y) = neqb x y.
  Proof using Ha. unfold neqb. rewrite !g_nleb. reflexivity. Qed.
  Lemma g_increasing l : increasing l -> increasing (map g l).
  Proof using Ha.
    intros H. induction H as [|x l Hs IH Hf]; [constructor|]. cbn [map]. constructor; [exact IH|]. apply List.Forall_forall. intros y Hy. apply in_map_iff in Hy. destruct Hy as (z & <- & Hz).
    rewrite List.Forall_forall in Hf. exact (proj1 (g_lt x z) (Hf z Hz)).
  Qed.
  Lemma g_nth l i : (i < length l)%nat -> nth0 i (map g l) = g (nth0 i l).
  Proof using. intros. apply nth0_map. auto. Qed.
  Lemma g_right l x : searchsorted_right (map g l) (g x) = searchsorted_right l x.
  Proof using Ha. induction l as [|y l IH]; [reflexivity|]. cbn [map searchsorted_right]. rewrite g_nleb, IH. reflexivity. Qed.
  Lemma g_left l x : searchsorted_left (map g l) (g x) = searchsorted_left l x.
  Proof using Ha. induction l as [|y l IH]; [reflexivity|]. cbn [map searchsorted_left]. rewrite g_nltb, IH. reflexivity. Qed.
  Lemma right_le (l : list R) x : (searchsorted_right l x <= length l)%nat.
  Proof using. induction l as [|y l IH]; [reflexivity|]. cbn [searchsorted_right length]. destruct (nleb y x); lia. Qed.
  Lemma g_head l : l <> [] -> nhead (map g l) = g (nhead l).
  Proof using. destruct l; [congruence|reflexivity]. Qed.
  Lemma g_last l : l <> [] -> nlast (map g l) = g (nlast l).
  Proof using. intros H. rewrite !nlast_nth0, map_length. apply g_nth. destruct l; [congruence|simpl; lia]. Qed.
  Lemma g_interp1d_x xs ys lo hi x : xs <> [] -> interp1d (map g xs) ys lo hi (g x) = interp1d xs ys lo hi x.
  Proof using Ha.
    intros H. unfold interp1d. rewrite g_head, g_last, !g_nltb, g_right, map_length by exact H. destruct (nltb x (nhead xs)); [reflexivity|]. destruct (nltb (nlast xs) x); [reflexivity|].
    set (j := pred (searchsorted_right xs x)). destruct (Nat.eqb j (pred (length xs))) eqn:E; [reflexivity|]. apply Nat.eqb_neq in E. pose proof (right_le xs x) as Hle.
    assert (Hl : (0 < length xs)%nat) by (destruct xs; [congruence|simpl; lia]). rewrite !g_nth by (unfold j in *; lia). rewrite g_neqb. destruct (neqb (nth0 j xs) x); [reflexivity|].
    f_equal. unfold g, unit_of. numR. replace (a * nth0 (S j) xs + b - (a * nth0 j xs + b)) with (a * (nth0 (S j) xs - nth0 j xs)) by ring.
    replace (a * x + b - (a * nth0 j xs + b)) with (a * (x - nth0 j xs)) by ring. unfold Rdiv. rewrite Rinv_mult.
    transitivity ((a * / a) * ((nth0 (S j) ys - nth0 j ys) * / (nth0 (S j) xs - nth0 j xs) * (x - nth0 j xs))); [ring|]. rewrite Rinv_r by lra. ring.
  Qed.
  Lemma g_interp1d_y xs ys lo hi x : xs <> [] -> length ys = length xs -> interp1d xs (map g ys) (g lo) (g hi) x = g (interp1d xs ys lo hi x).
  Proof using.
    intros H Hl. unfold interp1d. destruct (nltb x (nhead xs)); [reflexivity|]. destruct (nltb (nlast xs) x); [reflexivity|].
    set (j := pred (searchsorted_right xs x)). pose proof (right_le xs x) as Hle. assert (H0 : (0 < length xs)%nat) by (destruct xs; [congruence|simpl; lia]).
    destruct (Nat.eqb j (pred (length xs))) eqn:E; [apply Nat.eqb_eq in E; apply g_nth; lia|]. apply Nat.eqb_neq in E. rewrite !g_nth by (unfold j in *; lia). destruct (neqb (nth0 j xs) x); [reflexivity|].
    unfold g, unit_of. numR. unfold Rdiv. ring.
  Qed.
  Lemma times_interp1d c xs ys lo hi x : interp1d xs (times c ys) (c * lo) (c * hi) x = c * interp1d xs ys lo hi x.
  Proof using.
    unfold interp1d. destruct (nltb x (nhead xs)); [reflexivity|]. destruct (nltb (nlast xs) x); [reflexivity|]. rewrite !times_nth.
    destruct (Nat.eqb _ _); [reflexivity|]. destruct (neqb _ x); [reflexivity|]. numR. unfold Rdiv. ring.
  Qed.
  Lemma g_ndiff l : ndiff (map g l) = times a (ndiff l).
  Proof using.
    unfold ndiff. rewrite tl_map, removelast_map. generalize (removelast l). induction (tl l) as [|x t IH]; intros [|y m]; try reflexivity.
    cbn [map map2 times]. fold (times a (map2 nsub t m)). rewrite <- IH. f_equal. unfold g, unit_of. numR. ring.
  Qed.
  (** gridded densities *)
  Lemma g_ycumul xs row : (2 <= length xs)%nat -> ycumul_row (map g xs) row = times a (ycumul_row xs row).
  Proof using.
    intros H. unfold ycumul_row, trapezoids. rewrite g_ndiff, !g_nth by lia.
    assert (E : map (fun d => nmul d nhalf) (times a (ndiff xs)) = times a (map (fun d => nmul d nhalf) (ndiff xs))) by (unfold times; rewrite !map_map; apply map_ext; intros d; numR; ring).
    rewrite E, map2_times_l, ncumsum_times. 
    set (t := ncumsum _). set (y := nmul nhalf _). change (times a (nmul y (nsub (nth0 1 xs) (nth0 0 xs)) :: t)) with (a * (y * (nth0 1 xs - nth0 0 xs)) :: times a t). f_equal. unfold g, unit_of. numR. ring.
  Qed.
  Lemma a_ne : a <> 0. Proof using Ha. lra. Qed.
  Lemma g_inorm xs row : (2 <= length xs)%nat -> inorm (map g xs) row = times (/ a) (inorm xs row).
  Proof using. intros H. unfold inorm. rewrite g_ycumul, nlast_times by exact H. apply div_by_times. Qed.
  Lemma g_icum xs row : (2 <= length xs)%nat -> icum (map g xs) row = icum xs row.
  Proof using Ha. intros H. unfold icum. rewrite g_ycumul, nlast_times by exact H. exact (div_times a _ _ a_ne). Qed.
  Definition move_x (m : method) (x : R) : R := match m with MPpf => x | _ => g x end.
  Lemma g_ends Q p : ends (fun q => g (Q q)) p = moved_answer a b MPpf (ends Q p).
  Proof using. unfold ends, with_ends. destruct (Rlt_dec 0 p); [destruct (Rlt_dec p 1); [reflexivity|destruct (Req_EM_T p 1); reflexivity]|destruct (Req_EM_T p 0); reflexivity]. Qed.
  Lemma ends_ext Q Q' p : (0 < p < 1 -> Q p = Q' p) -> ends Q p = ends Q' p.
  Proof using. intros H. unfold ends, with_ends. destruct (Rlt_dec 0 p); [destruct (Rlt_dec p 1); [rewrite H by lra; reflexivity|]|]; reflexivity. Qed.
  Lemma g_ppf c xs lo hi lo' hi' p : c <> [] -> length xs = length c -> (0 < p < 1 -> nhead c <= p <= nlast c \/ (lo' = g lo /\ hi' = g hi)) ->
    ends (interp1d c (map g xs) lo' hi') p = moved_answer a b MPpf (ends (interp1d c xs lo hi) p).
  Proof using.
    intros Hc Hl H. rewrite <- g_ends. apply ends_ext. intros Hp. rewrite <- g_interp1d_y by assumption. destruct (H Hp) as [[H1 H2]|[-> ->]]; [|reflexivity].
    unfold interp1d. unfold nltb. numR. unfold Rleb. destruct (Rle_dec (nhead c) p); [|lra]. destruct (Rle_dec p (nlast c)); [|lra]. reflexivity.
  Qed.
  Lemma ncumsum_length (l : list R) acc : length (ncumsum_from acc l) = length l.
  Proof using. revert acc. induction l as [|x l IH]; intros acc; [reflexivity|]. cbn [ncumsum_from length]. f_equal. apply IH. Qed.
  Lemma icum_len xs row : (2 <= length xs)%nat -> length row = length xs -> length (icum xs row) = length xs.
  Proof using. intros H E. unfold icum, ycumul_row, trapezoids, ncumsum. rewrite map_length. cbn [length]. rewrite ncumsum_length, map2_length, map_length, ndiff_length, map2_length, tl_length, removelast_length. lia. Qed.
  Lemma g_interp_val xs ys m x : (2 <= length xs)%nat -> length ys = length xs ->
    interp_val (map g xs) ys m (move_x m x) = moved_answer a b m (interp_val xs ys m x).
  Proof using Ha.
    intros H E. assert (Hn : xs <> []) by (destruct xs; [simpl in H; lia|discriminate]). assert (Hi : icum xs ys <> []) by (intros Z; pose proof (icum_len xs ys H E) as L; rewrite Z in L; simpl in L; lia).
    destruct m; cbn [move_x interp_val moved_answer].
    - rewrite g_inorm, g_interp1d_x by assumption. do 1 f_equal. replace 0 with (/ a * 0) at 1 2 by ring. rewrite times_interp1d. unfold Rdiv. ring.
    - rewrite g_icum, g_interp1d_x by assumption. reflexivity.
    - rewrite g_icum by assumption. apply g_ppf; [exact Hi|symmetry; apply icum_len; assumption|]. intros _. right. rewrite g_head, g_last by exact Hn. split; reflexivity.
  Qed.
  (** histograms *)
  Lemma g_bins bins x : (2 <= length bins)%nat -> (looks_uniform (map g bins) <-> looks_uniform bins) -> get_bin_indices (map g bins) (g x) = get_bin_indices bins x.
  Proof using Ha.
    intros H Hu. assert (Hn : bins <> []) by (destruct bins; [simpl in H; lia|discriminate]).
    assert (E : get_bin_index_raw (map g bins) (g x) = get_bin_index_raw bins x).
    { unfold get_bin_index_raw. rewrite g_left. pose proof (allclose_looks bins H) as A1. pose proof (allclose_looks (map g bins) ltac:(rewrite map_length; exact H)) as A2.
      assert (B : np_allclose_scalar (bin_widths (map g bins)) (nhead (bin_widths (map g bins))) = np_allclose_scalar (bin_widths bins) (nhead (bin_widths bins)))
        by (destruct (np_allclose_scalar (bin_widths (map g bins)) _), (np_allclose_scalar (bin_widths bins) _); tauto || (exfalso; intuition discriminate) || reflexivity).
      rewrite B. destruct (np_allclose_scalar _ _); [|reflexivity]. f_equal. rewrite g_head by exact Hn. unfold bin_widths. rewrite g_ndiff, !nhead_nth0, times_nth. unfold g, unit_of. numR.
      replace (a * x + b - (a * nth0 0 bins + b)) with (a * (x - nth0 0 bins)) by ring. unfold Rdiv. rewrite Rinv_mult.
      transitivity ((a * / a) * ((x - nth0 0 bins) * / nth0 0 (ndiff bins))); [ring|]. rewrite Rinv_r by lra. ring. }
    unfold get_bin_indices. rewrite E, map_length. reflexivity.
  Qed.
  Lemma g_hist_norm bins row : hist_norm_row (bin_widths (map g bins)) row = times (/ a) (hist_norm_row (bin_widths bins) row).
  Proof using. unfold hist_norm_row, bin_widths. rewrite g_ndiff, map2_times_r, !npsum_R, nsum_times. apply div_by_times. Qed.
  Lemma inv_times (l : list R) : times (a * / a) l = l.
  Proof using Ha. rewrite Rinv_r by lra. apply times_1. Qed.
  Lemma g_hist_cdf bins row : hist_cdf_row (bin_widths (map g bins)) (times (/ a) row) = hist_cdf_row (bin_widths bins) row.
  Proof using Ha. unfold hist_cdf_row, bin_widths. rewrite g_ndiff, map2_times_r, map2_times_l, times_times, inv_times. reflexivity. Qed.
  (** irregular grids *)
  Lemma g_right_rect xs ys : right_rect_terms (map g xs) ys = times a (right_rect_terms xs ys).
  Proof using.
    unfold right_rect_terms. rewrite tl_map, removelast_map. generalize (removelast xs). generalize (tl ys). induction (tl xs) as [|x t IH]; intros [|y u] [|z v]; try reflexivity.
    cbn [map map2]. unfold times. cbn [map]. fold (times a (map2 nsub (map2 nmul t u) (map2 nmul v u))). rewrite <- IH. f_equal. unfold g, unit_of. numR. ring.
  Qed.
  Lemma g_irr_norm xs ys : normalize_interp1d_row (map g xs) ys = times (/ a) (normalize_interp1d_row xs ys).
  Proof using. unfold normalize_interp1d_row. rewrite g_right_rect, !npsum_R, nsum_times. apply div_by_times. Qed.
  Lemma g_irr_cumul xs ys : irr_cumul_row (map g xs) (times (/ a) ys) = irr_cumul_row xs ys.
  Proof using Ha. unfold irr_cumul_row. rewrite g_right_rect, right_rect_times, times_times, inv_times. reflexivity. Qed.

  (** ** One row *)
  Definition row_units (k : kind) (d : row) : row :=
    match k with
    | KHist _ | KInterp _ => [Nums (times (/ a) (num_at 0 d))]
    | KIrr _ => [Nums (map g (num_at 0 d)); Nums (times (/ a) (num_at 1 d))]
    | KMix _ => [Nums (num_at 0 d); Nums (times a (num_at 1 d)); Nums (map g (num_at 2 d))]
    | KNorm => [Nums (map g (num_at 0 d)); Nums (times a (num_at 1 d))]
    | _ => d
    end.
  Definition kind_units (k : kind) : kind :=
    match k with KHist bins => KHist (map g bins) | KInterp xs => KInterp (map g xs) | KPacked xs pt lf => KPacked (map g xs) pt lf | _ => k end.
  Definition kind_movable (k : kind) : Prop :=
    match k with KHist bins => looks_uniform (map g bins) <-> looks_uniform bins | KInterp _ | KIrr _ | KMix _ | KPacked _ _ _ | KNorm => True | _ => False end.
  Lemma fits1 n c d : row_fits [(n, NumCol [c])] d -> exists l, d = [Nums l] /\ length l = c.
  Proof using. intros H. inversion H as [|? x ? t H1 H2]; subst. inversion H2; subst. destruct x; cbn in H1; try contradiction. exists l. split; [reflexivity|]. unfold prod in H1. cbn in H1. lia. Qed.
  Lemma fits2 n c n' c' d : row_fits [(n, NumCol [c]); (n', NumCol [c'])] d -> exists l l', d = [Nums l; Nums l'] /\ length l = c /\ length l' = c'.
  Proof using. intros H. inversion H as [|? x ? t H1 H2]; subst. destruct (fits1 _ _ _ H2) as (l' & -> & E). destruct x; cbn in H1; try contradiction. exists l, l'. split; [reflexivity|]. unfold prod in H1. cbn in H1. lia. Qed.
  Lemma fits3 n c n' c' n'' c'' d : row_fits [(n, NumCol [c]); (n', NumCol [c']); (n'', NumCol [c''])] d -> exists l l' l'', d = [Nums l; Nums l'; Nums l''] /\ length l = c /\ length l' = c' /\ length l'' = c''.
  Proof using. intros H. inversion H as [|? x ? t H1 H2]; subst. destruct (fits2 _ _ _ _ _ H2) as (l' & l'' & -> & E & E'). destruct x; cbn in H1; try contradiction. exists l, l', l''. split; [reflexivity|]. unfold prod in H1. cbn in H1. lia. Qed.
  Lemma z_over m s x : (g x - g m) / (a * s) = (x - m) / s.
  Proof using Ha. unfold g, unit_of, Rdiv. rewrite Rinv_mult. transitivity ((a * / a) * ((x - m) * / s)); [ring|]. rewrite Rinv_r by lra. ring. Qed.
  Lemma row_moves X k m d x : good_kind k -> good_row k d -> kind_movable k -> In m (methods k) ->
    val (s_phi X) (s_Phi X) (s_quad X) (s_Phinv X) (kind_units k) m (row_units k d) (move_x m x) = moved_answer a b m (val (s_phi X) (s_Phi X) (s_quad X) (s_Phinv X) k m d x).
  Proof using Ha.
    intros Hk (Hf & Hr) Hm HM. destruct k; try destruct Hm; cbn [kind_layout] in Hf.
    - destruct Hk as [Hs H2]. destruct (fits1 _ _ _ Hf) as (l & -> & El). cbn [kind_units row_units]. unfold num_at, cell_at. cbn [nth nums].
      assert (Hn : bins <> []) by (destruct bins; [simpl in H2; lia|discriminate]).
      destruct m; cbn [val move_x moved_answer]; unfold num_at, cell_at; cbn [nth nums].
      + f_equal. unfold hist_point. rewrite g_bins by tauto. destruct (get_bin_indices bins x) as [idx [|]]; [|numR; unfold Rdiv; ring]. unfold at2. cbn [nth]. rewrite times_nth. unfold Rdiv. ring.
      + rewrite g_hist_cdf, g_interp1d_x by exact Hn. reflexivity.
      + rewrite g_hist_cdf. apply g_ppf; [discriminate| |intros _; right; rewrite g_head, g_last by exact Hn; split; reflexivity].
        unfold hist_cdf_row, ncumsum, bin_widths. cbn [length]. rewrite ncumsum_length, map2_length, ndiff_length, El. lia.
    - destruct Hk as [Hs H2]. destruct (fits1 _ _ _ Hf) as (l & -> & El). cbn [kind_units row_units val]. unfold num_at, cell_at. cbn [nth nums].
      rewrite <- g_interp_val by assumption. unfold interp_val. assert (Hz : / a <> 0) by (apply Rinv_neq_0_compat; lra). rewrite inorm_times, icum_times by exact Hz. reflexivity.
    - destruct (fits2 _ _ _ _ _ Hf) as (l & l' & -> & El & El'). cbn [kind_units row_units]. destruct Hr as [_ Hlast]. unfold num_at, cell_at in Hlast. cbn [nth nums] in Hlast. cbn [good_kind] in Hk.
      assert (Hn : l <> []) by (destruct l; [simpl in El; lia|discriminate]).
      destruct m; cbn [val move_x moved_answer]; unfold num_at, cell_at; cbn [nth nums].
      + rewrite g_interp1d_x by exact Hn. f_equal. replace 0 with (/ a * 0) at 1 2 by ring. rewrite times_interp1d. unfold Rdiv. ring.
      + rewrite g_irr_cumul, g_interp1d_x by exact Hn. reflexivity.
      + rewrite g_irr_cumul. apply g_ppf; [discriminate| |intros Hp; left; split; [cbn; lra|rewrite Hlast; lra]].
        unfold irr_cumul_row, ncumsum, right_rect_terms. cbn [length]. rewrite ncumsum_length, !map2_length, !tl_length, removelast_length. lia.
    - destruct (fits3 _ _ _ _ _ _ _ Hf) as (w & s & mu & -> & Ew & Es & Em). cbn [kind_units row_units]. destruct m; [| |destruct HM as [HM|[HM|[]]]; discriminate HM]; cbn [val move_x moved_answer]; unfold num_at, cell_at; cbn [nth nums]; f_equal.
      + unfold Rdiv at 3. rewrite Rmult_comm, <- rsum_scal. apply rsum_ext. intros i Hi. rewrite times_nth, g_nth, z_over by lia. unfold Rdiv. rewrite Rinv_mult. ring.
      + apply rsum_ext. intros i Hi. rewrite times_nth, g_nth, z_over by lia. reflexivity.
    - destruct Hk as (Hs & H2 & _). cbn [kind_units row_units val]. apply g_interp_val; [exact H2|]. inversion Hf as [|? y ? t H1 H3]; subst. destruct y; cbn in H1; try contradiction. unfold unpacked. rewrite map_length. unfold cell_at. cbn [nth bytes].
      unfold prod in H1. cbn in H1. lia.
    - destruct (fits2 _ _ _ _ _ Hf) as (l & l' & -> & El & El'). cbn [kind_units row_units]. destruct m; cbn [val move_x moved_answer]; unfold num_at, cell_at; cbn [nth nums]; rewrite ?times_nth, ?g_nth, ?z_over by lia.
      + f_equal. unfold Rdiv. rewrite Rinv_mult. ring.
      + reflexivity.
      + destruct (s_Phinv X x); try reflexivity. f_equal. unfold g, unit_of. ring.
  Qed.
End Units.

(** ** The input *)
Lemma rows_lookup a b (xr : list (list R)) n r j : (forall xs, In xs xr -> length xs = n) -> (r < length xr)%nat -> (j < n)%nat -> at2 (map (map (unit_of a b)) xr) r j = unit_of a b (at2 xr r j).
Proof.
  intros H Hr Hj. unfold at2. rewrite (nth_map_in _ xr r _ []) by exact Hr. apply g_nth. rewrite (H (nth r xr [])); [exact Hj|]. apply nth_In. exact Hr.
Qed.
Lemma in_units_ok a b i : 0 < a -> KindInputs.input_ok i -> KindInputs.input_ok (in_units a b i).
Proof.
  intros Ha Hi. destruct i; cbn [in_units KindInputs.input_ok] in *; try exact Hi.
  - destruct Hi as (H1 & H2 & H3 & H4). unfold hist_input. rewrite map_length. split; [apply g_increasing; assumption|]. split; [exact H2|]. split; [exact H3|]. intros row Hr. destruct (H4 row Hr) as (L & P & Q). split; [exact L|]. split; [exact P|].
    rewrite (rsum_ext _ _ (fun j => a * (nth0 j row * (nth0 (S j) bins - nth0 j bins)))) by (intros j Hj; rewrite !g_nth by lia; unfold unit_of; ring). rewrite rsum_scal. apply Rmult_lt_0_compat; assumption.
  - destruct Hi as (H1 & H2 & H3 & H4). unfold interp_input. rewrite map_length. split; [apply g_increasing; assumption|]. split; [exact H2|]. split; [exact H3|]. intros row Hr. destruct (H4 row Hr) as (L & P & Q). split; [exact L|]. split; [exact P|].
    rewrite (rsum_ext _ _ (fun j => a * ((nth0 (S j) xs - nth0 j xs) * (nth0 j row + nth0 (S j) row) / 2))) by (intros j Hj; rewrite !g_nth by lia; unfold unit_of; field). rewrite rsum_scal. apply Rmult_lt_0_compat; assumption.
  - destruct Hi as (H1 & H2 & H3 & H4 & H5 & H6). unfold irr_input. rewrite map_length. split; [exact H1|]. split; [destruct xr; [congruence|discriminate]|]. split; [exact H3|]. split.
    { intros xs Hx. apply in_map_iff in Hx. destruct Hx as (x & <- & Hx). destruct (H4 x Hx). rewrite map_length. split; [assumption|]. apply g_increasing; assumption. } split; [exact H5|].
    intros r Hr. rewrite (rsum_ext _ _ (fun j => a * ((at2 xr r (S j) - at2 xr r j) * at2 yr r (S j)))) by (intros j Hj; rewrite !(rows_lookup a b xr n) by (try lia; intros; apply H4; assumption); unfold unit_of; ring).
    rewrite rsum_scal. apply Rmult_lt_0_compat; [assumption|exact (H6 r Hr)].
  - destruct Hi as (H1 & H2 & H3 & H4 & H5 & H6 & H7 & H8 & H9 & H10). unfold mix_input. rewrite !map_length. split; [exact H1|]. split; [destruct means; [congruence|discriminate]|]. split; [exact H3|]. split; [exact H4|].
    split; [intros l Hl; apply in_map_iff in Hl; destruct Hl as (x & <- & Hl); rewrite map_length; auto|]. split; [intros l Hl; apply in_map_iff in Hl; destruct Hl as (x & <- & Hl); rewrite times_length; auto|]. split; [exact H7|]. split; [|split; assumption].
    intros r j Hr Hj. unfold at2. rewrite (nth_map_in _ stds r _ []) by lia. rewrite times_nth. apply Rmult_lt_0_compat; [assumption|exact (H8 r j Hr Hj)].
  - rewrite map_length. destruct Hi as (H1 & H). split; [apply g_increasing; assumption|exact H].
  - destruct Hi as (H1 & H2 & H3). rewrite times_length, map_length. split; [destruct locs; [congruence|discriminate]|]. split; [exact H2|]. intros s Hs. apply in_map_iff in Hs. destruct Hs as (x & <- & Hx). apply Rmult_lt_0_compat; auto.
Qed.
Lemma map_map2 {A B C D} (h : C -> D) (f : A -> B -> C) : forall l l', map h (map2 f l l') = map2 (fun x y => h (f x y)) l l'.
Proof. induction l as [|x l IH]; intros [|y l']; try reflexivity. cbn [map2 map]. f_equal. apply IH. Qed.
Lemma map2_map_l {A A' B C} (f : A' -> B -> C) (h : A -> A') : forall l l', map2 f (map h l) l' = map2 (fun x y => f (h x) y) l l'.
Proof. induction l as [|x l IH]; intros [|y l']; try reflexivity. cbn [map2 map]. f_equal. apply IH. Qed.
Lemma map2_map_r {A B B' C} (f : A -> B' -> C) (h : B -> B') : forall l l', map2 f l (map h l') = map2 (fun x y => f x (h y)) l l'.
Proof. induction l as [|x l IH]; intros [|y l']; try reflexivity. cbn [map2 map]. f_equal. apply IH. Qed.
Lemma map2_same {A B C} (f h : A -> B -> C) : (forall x y, f x y = h x y) -> forall l l', map2 f l l' = map2 h l l'.
Proof. intros H. induction l as [|x l IH]; intros [|y l']; try reflexivity. cbn [map2]. rewrite H. f_equal. apply IH. Qed.
Lemma combine_maps {A B A' B'} (f : A -> A') (h : B -> B') : forall l l', combine (map f l) (map h l') = map (fun p => (f (fst p), h (snd p))) (combine l l').
Proof. induction l as [|x l IH]; intros [|y l']; try reflexivity. cbn [map combine]. f_equal. apply IH. Qed.
Lemma in_units_rows a b i : 0 < a -> KindInputs.input_ok i -> movable a b i -> input_rows (in_units a b i) = map (row_units a b (input_kind i)) (input_rows i).
Proof.
  intros Ha Hi Hm. destruct i; try destruct Hm; cbn [in_units input_rows input_kind KindInputs.input_ok] in *.
  - rewrite map_map. apply map_ext. intros r. rewrite g_hist_norm. reflexivity.
  - rewrite map_map. apply map_ext. intros r. destruct Hi as (_ & H & _). rewrite g_inorm by assumption. reflexivity.
  - rewrite map_map2, map2_map_l. apply map2_same. intros x y. rewrite g_irr_norm. reflexivity.
  - rewrite combine_maps, map_map2, map2_map_r. apply map2_same. intros x [s m]. reflexivity.
  - rewrite map_map2. apply map2_same. reflexivity.
  - unfold times. rewrite map_map2, map2_map_l, map2_map_r. apply map2_same. reflexivity.
Qed.
Lemma in_units_kind a b i : input_kind (in_units a b i) = kind_units a b (input_kind i).
Proof. destruct i; reflexivity. Qed.
Lemma in_units_name a b i : input_name (in_units a b i) = input_name i.
Proof. destruct i; reflexivity. Qed.
Lemma units_methods a b k : methods (kind_units a b k) = methods k.
Proof. destruct k; reflexivity. Qed.
Lemma moved_on a b m p : 0 < a -> on_points p -> on_points (moved_points a b m p).
Proof. intros Ha H. destruct m, p; cbn in *; auto; apply g_increasing; assumption. Qed.
(** C154 *)
Lemma c154_units : forall X i a b, fill_outside X -> 0 < a -> KindInputs.input_ok i -> movable a b i ->
  exists e e', ens_new (create_of (qp X) (input_name i)) (input_dict i) None = Ok e /\ ens_new (create_of (qp X) (input_name i)) (input_dict (in_units a b i)) None = Ok e' /\
    e_npdf e' = e_npdf e /\
    forall m p, In m (input_methods i) -> on_points p ->
      exists t, evaluate m e p = Ok t /\ length t = e_npdf e /\ evaluate m e' (moved_points a b m p) = Ok (map (map (moved_answer a b m)) t).
Proof.
  intros X i a b HX Ha Hi Hm. destruct (created X i HX Hi) as (e & E & _ & HD & Hs & _). destruct (created X (in_units a b i) HX (in_units_ok a b i Ha Hi)) as (e' & E' & _ & HD' & Hs' & _).
  exists e, e'. split; [exact E|]. split; [rewrite in_units_name in E'; exact E'|]. assert (Hn : input_npdf (in_units a b i) = input_npdf i) by (destruct i; cbn; rewrite ?map_length; reflexivity).
  split; [unfold e_npdf, g_npdf; rewrite Hs, Hs', Hn; reflexivity|]. intros m p HM Hp. rewrite in_units_kind, in_units_rows in HD' by assumption. rewrite <- input_kind_methods in HM.
  eexists. split; [apply (rep_answers X (input_kind i) (input_rows i)); assumption|]. split.
  { rewrite map_length, input_rows_length by exact Hi. unfold e_npdf, g_npdf. rewrite Hs. unfold prod. simpl. lia. }
  rewrite (rep_answers X _ _ _ m (moved_points a b m p) HD') by (rewrite ?units_methods; auto using moved_on). f_equal. rewrite !map_map. apply map_ext_in. intros d Hd.
  destruct HD as (Hk & _ & Hgood & _). rewrite List.Forall_forall in Hgood. specialize (Hgood d Hd). assert (Hkm : kind_movable a b (input_kind i)) by (destruct i; exact Hm).
  assert (G : forall x, val (s_phi X) (s_Phi X) (s_quad X) (s_Phinv X) (kind_units a b (input_kind i)) m (row_units a b (input_kind i) d) (move_x a b m x) =
    moved_answer a b m (val (s_phi X) (s_Phi X) (s_quad X) (s_Phinv X) (input_kind i) m d x)) by (intros x; apply row_moves; assumption).
  destruct p as [x|l|M]; [| |destruct Hp]; unfold row_answer.
  - destruct m; cbn [moved_points map]; rewrite <- G; reflexivity.
  - destruct m; cbn [moved_points]; rewrite ?map_map; apply map_ext; intros x; rewrite <- G; reflexivity.
Qed.

(** When the edges of a histogram satisfy [movable]: widths that are all equal, or unequal beyond numpy's tolerance in both units *)
Lemma uniform_movable : forall a b bins rows, equal_width bins -> movable a b (IHist bins rows).
Proof.
  intros a b bins rows (h & H). assert (U : looks_uniform bins).
  { intros i Hi. rewrite (H i Hi). destruct (Nat.le_gt_cases 2 (length bins)); [rewrite (H 0%nat) by lia; unfold Rminus at 1; rewrite Rplus_opp_r, Rabs_R0; pose proof (Rabs_pos h); lra|lia]. }
  assert (U' : looks_uniform (map (unit_of a b) bins)).
  { intros i Hi. rewrite map_length in Hi. rewrite !g_nth by lia. unfold unit_of. replace (a * nth0 (S i) bins + b - (a * nth0 i bins + b)) with (a * (nth0 (S i) bins - nth0 i bins)) by ring.
    replace (a * nth0 1 bins + b - (a * nth0 0 bins + b)) with (a * (nth0 1 bins - nth0 0 bins)) by ring. rewrite (H i Hi), (H 0%nat) by lia. unfold Rminus at 1. rewrite Rplus_opp_r, Rabs_R0. pose proof (Rabs_pos (a * h)). lra. }
  split; intros _; assumption.
Qed.
Lemma unequal_movable : forall a b bins rows, clearly_unequal bins -> clearly_unequal (map (unit_of a b) bins) -> movable a b (IHist bins rows).
Proof.
  assert (G : forall l, clearly_unequal l -> ~ looks_uniform l) by (intros l (i & Hi & H) U; specialize (U i Hi); lra). intros a b bins rows H H'. split; intros U; exfalso; [exact (G _ H' U)|exact (G _ H U)].
Qed.
(** In small units the tolerance hides that the bins differ: edges 0, 1, 3 and the same edges divided by 10^9 *)
Lemma c154_tiny : exists X i a b e e' y, fill_outside X /\ 0 < a /\ KindInputs.input_ok i /\
  ens_new (create_of (qp X) (input_name i)) (input_dict i) None = Ok e /\ ens_new (create_of (qp X) (input_name i)) (input_dict (in_units a b i)) None = Ok e' /\
  0 < y /\ ens_pdf e (PScalar 2) = Ok [[Fin y]] /\ ens_pdf e' (PScalar (unit_of a b 2)) = Ok [[Fin 0]].
Proof.
  set (i := IHist [0; 1; 3] [[1; 1]]). set (a := / 1000000000). assert (Ha : 0 < a) by (unfold a; lra).
  assert (Hi : KindInputs.input_ok i).
  { split; [repeat constructor; lra|]. split; [simpl; lia|]. split; [discriminate|]. intros row [<-|[]]. split; [reflexivity|]. split; [intros [|[|j]] Hj; unfold nth0; simpl in *; try lra; lia|unfold nth0; simpl; lra]. }
  destruct (created scipy0 i scipy0_fill Hi) as (e & E & _ & HD & _). destruct (created scipy0 (in_units a 0 i) scipy0_fill (in_units_ok a 0 i Ha Hi)) as (e' & E' & _ & HD' & _).
  exists scipy0, i, a, 0, e, e', (1 / 3). split; [exact scipy0_fill|]. split; [exact Ha|]. split; [exact Hi|]. split; [exact E|]. split; [exact E'|]. split; [lra|]. split.
  - change (evaluate MPdf e (PScalar 2) = Ok [[Fin (1 / 3)]]). rewrite (rep_answers _ _ _ _ MPdf (PScalar 2) HD) by (cbn; auto). cbn [i input_rows map row_answer input_kind val]. do 4 f_equal.
    unfold hist_point. rewrite (lookup_irregular [0; 1; 3] 2 1); [|repeat constructor; lra| |simpl; lia|unfold nth0; simpl; lra].
    + unfold at2, num_at, cell_at. cbn [nth nums]. unfold hist_norm_row. rewrite npsum_R. unfold nth0, bin_widths, ndiff. cbn. field.
    + exists 1%nat. split; [simpl; lia|]. unfold nth0. cbn [nth]. rewrite !Rabs_pos_eq by lra. lra.
  - change (evaluate MPdf e' (PScalar (unit_of a 0 2)) = Ok [[Fin 0]]). rewrite (rep_answers _ _ _ _ MPdf (PScalar (unit_of a 0 2)) HD') by (cbn; auto). cbn [i in_units input_rows map row_answer input_kind val]. do 4 f_equal.
    unfold hist_point. set (l := [unit_of a 0 0; unit_of a 0 1; unit_of a 0 3]).
    assert (L : get_bin_index_raw l (unit_of a 0 2) = 2%Z).
    { unfold get_bin_index_raw. assert (U : np_allclose_scalar (bin_widths l) (nhead (bin_widths l)) = true).
      { apply allclose_looks; [simpl; lia|]. intros [|[|j]] Hj; [| |simpl in Hj; lia]; unfold l, nth0, unit_of, a; cbn [nth]; unfold Rabs; repeat destruct Rcase_abs; lra. }
      rewrite U. apply nfloor_unique. unfold l, unit_of, bin_widths, ndiff. cbn. replace ((a * 2 + 0 - (a * 0 + 0)) / (a * 1 + 0 - (a * 0 + 0))) with 2 by (field; lra). lra. }
    unfold get_bin_indices. rewrite L. reflexivity.
Qed.

(** ** Examples *)
Lemma c154_example : exists X i a b, fill_outside X /\ 0 < a /\ KindInputs.input_ok i /\ movable a b i /\ a <> 1 /\ b <> 0 /\ input_npdf i = 2%nat /\ input_name i = "hist".
Proof.
  exists scipy0, (IHist [0; 1; 3] [[1; 1]; [2; 0]]), 2, 5. split; [exact scipy0_fill|]. split; [lra|]. split.
  { split; [repeat constructor; lra|]. split; [simpl; lia|]. split; [discriminate|]. intros row [<-|[<-|[]]]; (split; [reflexivity|]; split; [intros [|[|j]] Hj; unfold nth0; simpl in *; try lra; lia|unfold nth0; simpl; lra]). }
  split; [|repeat split; lra]. apply unequal_movable; exists 1%nat; (split; [simpl; lia|]); unfold nth0, unit_of; cbn [nth map]; rewrite !Rabs_pos_eq by lra; lra.
Qed.
