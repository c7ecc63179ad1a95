(** Histogram ensembles over R. *)
From Coq Require Import List Arith ZArith Bool Sorted Lia Reals Lra Psatz.
From Coquelicot Require Import Coquelicot.
From Verif Require Import Num NumProofs PairwiseProofs Py NdArray NumpyLib Utils ScipyWrap SortProofs EvalProofs NdProofs
  InterpProofs IntegralProofs BinProofs HistPdf Spec.
Import ListNotations.
Local Open Scope R_scope.

(** ** Sums *)
Lemma rsum_S_l n f : rsum (S n) f = f 0%nat + rsum n (fun i => f (S i)).
Proof. induction n; simpl in *; [lra|]. rewrite IHn. lra. Qed.
Lemma rsum_ext n f g : (forall i, (i < n)%nat -> f i = g i) -> rsum n f = rsum n g.
Proof. induction n; simpl; intros; auto. rewrite IHn, H; auto. Qed.
Lemma nsum_rsum (l : list R) : nsum l = rsum (length l) (fun i => nth0 i l).
Proof. induction l; auto. cbn [length]. rewrite rsum_S_l, nsum_cons, IHl. reflexivity. Qed.
Lemma nth0_map2 (f : R -> R -> R) l1 l2 i : (i < length l1)%nat -> (i < length l2)%nat ->
  nth0 i (map2 f l1 l2) = f (nth0 i l1) (nth0 i l2).
Proof. intros. apply map2_nth; auto. Qed.
Lemma nth0_map (f : R -> R) l i : (i < length l)%nat -> nth0 i (map f l) = f (nth0 i l).
Proof. intros. unfold nth0. rewrite nth_indep with (d' := f n0) by (rewrite map_length; auto). apply map_nth. Qed.
Lemma nsum_map2_rsum (f : R -> R -> R) l1 l2 : length l1 = length l2 ->
  nsum (map2 f l1 l2) = rsum (length l1) (fun i => f (nth0 i l1) (nth0 i l2)).
Proof.
  intros H. rewrite nsum_rsum, map2_len, <- H, Nat.min_id. apply rsum_ext. intros.
  apply nth0_map2; auto. lia.
Qed.

(** ** Single-point evaluation through scipy *)
Lemma rv_eval_scalar g npdf cond other m (x : R) : dispatches g npdf m -> (0 < npdf)%nat ->
  cond x = true ->
  rv_eval npdf cond other m (PScalar x) = Ok (map (fun r => [Fin (g x r)]) (seq 0 npdf)).
Proof.
  intros Hd Hn Hc. change (rv_eval npdf cond other m (PScalar x)) with (rv_eval npdf cond other m (PGrid [x])).
  rewrite (rv_eval_grid g) by auto. simpl filter. rewrite Hc. f_equal. apply map_ext. intros r.
  assert (E : reordered npdf [x] = [x]).
  { unfold reordered, np_unique, unique_by. simpl. destruct (npdf =? 1)%nat; auto. }
  rewrite E. simpl. rewrite Hc. auto.
Qed.

(** ** Row-level facts *)
Section Row.
  Variables (bins row : list R).
  Hypothesis Hs : increasing bins.
  Hypothesis Hn : (2 <= length bins)%nat.
  Hypothesis Hl : length row = pred (length bins).

  Let w := bin_widths bins.
  Lemma w_length : length w = pred (length bins).
  Proof. apply ndiff_length. Qed.
  Lemma w_nth i : (S i < length bins)%nat -> nth0 i w = nth0 (S i) bins - nth0 i bins.
  Proof. apply ndiff_nth. Qed.
  Lemma w_pos i : (S i < length bins)%nat -> 0 < nth0 i w.
  Proof. intros. rewrite w_nth by auto. assert (nth0 i bins < nth0 (S i) bins) by (apply inc_lt; auto; lia). lra. Qed.

  Definition mass : R := rsum (pred (length bins)) (fun i => nth0 i row * (nth0 (S i) bins - nth0 i bins)).
  Lemma mass_sum : nsum (map2 nmul row w) = mass.
  Proof.
    rewrite (nsum_map2_rsum nmul) by (rewrite w_length; auto). rewrite Hl. unfold mass. apply rsum_ext.
    intros i Hi. rewrite w_nth by lia. reflexivity.
  Qed.

  Lemma norm_row_length : length (hist_norm_row w row) = pred (length bins).
  Proof. unfold hist_norm_row. rewrite map_length. auto. Qed.
  Lemma norm_row_nth i : (i < pred (length bins))%nat -> nth0 i (hist_norm_row w row) = nth0 i row / mass.
  Proof. intros. rewrite hist_norm_row_R, nth0_map by lia. rewrite mass_sum. reflexivity. Qed.

  (** cdf table *)
  Let c := hist_cdf_row w row.
  Lemma c_length : length c = length bins.
  Proof. unfold c, hist_cdf_row, ncumsum. cbn [length]. rewrite cumsum_length, map2_len, w_length. lia. Qed.
  Lemma c_0 : nth0 0 c = 0.
  Proof. reflexivity. Qed.
  Lemma c_step j : (S j < length bins)%nat -> nth0 (S j) c = nth0 j c + nth0 j row * (nth0 (S j) bins - nth0 j bins).
  Proof.
    intros. unfold c, hist_cdf_row, ncumsum.
    rewrite cum_step by (rewrite map2_len, w_length; lia). 
    rewrite nth0_map2 by (rewrite ?w_length; lia). rewrite w_nth by auto. reflexivity.
  Qed.
  Lemma c_last : nlast c = mass.
  Proof. unfold c, hist_cdf_row, ncumsum. rewrite cum_last, mass_sum. numR. lra. Qed.
  Lemma c_nondec : (forall i, (i < length row)%nat -> 0 <= nth0 i row) -> nondecreasing c.
  Proof.
    intros Hp. apply step_nondecreasing. intros j Hj. rewrite c_length in Hj. rewrite c_step by auto.
    assert (0 < nth0 (S j) bins - nth0 j bins) by (rewrite <- w_nth by auto; apply w_pos; auto).
    assert (0 <= nth0 j row) by (apply Hp; lia). nra.
  Qed.

  (** the cdf on a segment *)
  Lemma c_interp j x lo hi : (S j < length bins)%nat -> nth0 j bins <= x <= nth0 (S j) bins ->
    interp1d bins c lo hi x = nth0 j c + (x - nth0 j bins) * nth0 j row.
  Proof.
    intros Hj Hx. rewrite (interp1d_closed _ _ _ _ _ j) by auto. unfold seg. rewrite c_step by auto.
    assert (nth0 j bins < nth0 (S j) bins) by (apply inc_lt; auto; lia). field. lra.
  Qed.

  (** integral of any function that has the value of the bin inside each bin *)
  Lemma step_integral (f : R -> R) :
    (forall j x, (S j < length bins)%nat -> nth0 j bins < x < nth0 (S j) bins -> f x = nth0 j row) ->
    forall x lo hi, nth0 0 bins <= x <= nlast bins -> is_RInt f (nth0 0 bins) x (interp1d bins c lo hi x).
  Proof.
    intros Hf x lo hi Hx.
    destruct (segment_exists_closed bins x) as (j & Hj & Hxj); auto; [apply inc_nd; auto|].
    rewrite (c_interp j x) by auto.
    apply (piecewise_integral f bins c (fun j x => (x - nth0 j bins) * nth0 j row)); auto.
    - intros k y Hk Hy. apply is_RInt_constant; [lra|]. intros z Hz. apply Hf; auto. lra.
    - intros k Hk. rewrite c_step by auto. lra.
  Qed.
End Row.

(** ** Objects *)
(** What every histogram object built with the default options satisfies. *)
Record hist_ok (h : hist R) : Prop := {
  ho_inc : increasing (h_bins h);
  ho_len : (2 <= length (h_bins h))%nat;
  ho_rows : forall r, In r (h_pdfs h) -> length r = pred (length (h_bins h));
  ho_npdf : (0 < h_npdf h)%nat;
  ho_pos : forall r i, In r (h_pdfs h) -> (i < length r)%nat -> 0 <= nth0 i r;
  ho_mass : forall r, In r (h_pdfs h) -> mass (h_bins h) r = 1 }.

Lemma mass_norm bins row : increasing bins -> (2 <= length bins)%nat -> length row = pred (length bins) ->
  mass bins row <> 0 -> mass bins (hist_norm_row (bin_widths bins) row) = 1.
Proof.
  intros Hs Hn Hl Hm. unfold mass at 1.
  rewrite (rsum_ext _ _ (fun i => nth0 i row * (nth0 (S i) bins - nth0 i bins) * / mass bins row)).
  - assert (E : forall n f k, rsum n (fun i => f i * k) = rsum n f * k)
      by (induction n; simpl; intros; [lra|rewrite IHn; lra]).
    rewrite E. fold (mass bins row). field. auto.
  - intros i Hi. rewrite norm_row_nth by auto. unfold Rdiv. lra.
Qed.


(** ** Public methods *)
Definition hrow (h : hist R) (r : nat) : list R := nth r (h_pdfs h) [].
Lemma hrow_in h r : (r < h_npdf h)%nat -> In (hrow h r) (h_pdfs h).
Proof. intros. apply nth_In. auto. Qed.
Lemma h_cdfs_nth (h : hist R) r : (r < h_npdf h)%nat ->
  nth r (h_cdfs h) [] = hist_cdf_row (bin_widths (h_bins h)) (hrow h r).
Proof. intros. unfold h_cdfs. rewrite nth_map_in with (d' := []); auto. Qed.

Lemma hist_pdf_dispatches h : dispatches (hist_point (h_bins h) (h_pdfs h)) (h_npdf h) (hist_pdf h).
Proof. apply hist_dispatches. Qed.
Lemma hist_cdf_dispatches h : increasing (h_bins h) -> (2 <= length (h_bins h))%nat ->
  dispatches (fun x r => interp1d (h_bins h) (nth r (h_cdfs h) []) 0 1 x) (h_npdf h) (hist_cdf h).
Proof.
  intros Hs Hn.
  assert (E : h_npdf h = length (h_cdfs h)) by (symmetry; apply map_length). rewrite E.
  refine (x_multi_y_dispatches (fun xs ys => interp1d xs ys n0 n1) (fun xs ys => interp1d_nd xs ys n0 n1)
           (h_bins h) (h_cdfs h) _).
  intros. symmetry. apply interp1d_nd_eq; auto.
Qed.
Lemma hist_ppf_dispatches h : 
  dispatches (fun x r => interp1d (nth r (h_cdfs h) []) (h_bins h) (nhead (h_bins h)) (nlast (h_bins h)) x)
             (h_npdf h) (hist_ppf h).
Proof. apply (multi_x_y_dispatches (fun xs ys => interp1d xs ys (nhead (h_bins h)) (nlast (h_bins h)))
         (h_cdfs h) (h_bins h)). Qed.

Definition hF (h : hist R) (r : nat) (x : R) : R :=
  interp1d (h_bins h) (hist_cdf_row (bin_widths (h_bins h)) (hrow h r)) 0 1 x.
Definition hQ (h : hist R) (r : nat) (p : R) : R :=
  interp1d (hist_cdf_row (bin_widths (h_bins h)) (hrow h r)) (h_bins h) (nhead (h_bins h)) (nlast (h_bins h)) p.
Definition hf (h : hist R) (r : nat) (x : R) : R := hist_point (h_bins h) (h_pdfs h) x r.

Lemma map_seq_ext {A} (f g : nat -> A) n : (forall r, (r < n)%nat -> f r = g r) -> map f (seq 0 n) = map g (seq 0 n).
Proof. intros. apply map_ext_in. intros r Hr. apply in_seq in Hr. apply H. lia. Qed.

Lemma hist_pdf_eval h : (0 < h_npdf h)%nat -> evaluates (hist_ens_pdf h) (h_npdf h) (hf h).
Proof.
  intros Hk x. unfold hist_ens_pdf, rv_pdf. rewrite (rv_eval_scalar _ _ _ _ _ _ (hist_pdf_dispatches h)); auto.
Qed.
Lemma hist_cdf_eval h : hist_ok h -> evaluates (hist_ens_cdf h) (h_npdf h) (hF h).
Proof.
  intros H x. unfold hist_ens_cdf, rv_cdf. pose proof (ho_npdf h H).
  rewrite (rv_eval_scalar _ _ _ _ _ _ (hist_cdf_dispatches h (ho_inc h H) (ho_len h H))) by auto.
  f_equal. apply map_seq_ext. intros r Hr. unfold hF. rewrite h_cdfs_nth by auto. auto.
Qed.
Lemma hist_ppf_eval h : (0 < h_npdf h)%nat -> evaluates_on 0 1 (hist_ens_ppf h) (h_npdf h) (hQ h).
Proof.
  intros Hk x Hx. unfold hist_ens_ppf, rv_ppf.
  rewrite (rv_eval_scalar _ _ _ _ _ _ (hist_ppf_dispatches h)); auto.
  - f_equal. apply map_seq_ext. intros r Hr. unfold hQ. rewrite h_cdfs_nth by auto. auto.
  - numR. destruct (nltb_reflect 0 x); [|lra]. destruct (nltb_reflect x 1); [auto|lra].
Qed.

(** pdf *)
Lemma hf_inside h r i x : increasing (h_bins h) -> sound_bins (h_bins h) -> (S i < length (h_bins h))%nat ->
  nth0 i (h_bins h) < x < nth0 (S i) (h_bins h) -> hf h r x = nth0 i (hrow h r).
Proof. intros. unfold hf, hist_point. rewrite (lookup_interior _ x i) by auto. reflexivity. Qed.
Lemma hf_outside h r x : increasing (h_bins h) -> sound_bins (h_bins h) -> (2 <= length (h_bins h))%nat ->
  x < nth0 0 (h_bins h) \/ nlast (h_bins h) < x -> hf h r x = 0.
Proof.
  intros Hs Hb Hn Hx. unfold hf, hist_point. pose proof (lookup_out _ x Hs Hb Hn Hx).
  destruct (get_bin_indices (h_bins h) x) as [i m]. simpl in H. subst. reflexivity.
Qed.
Lemma hf_nonneg h r x : hist_ok h -> (r < h_npdf h)%nat -> 0 <= hf h r x.
Proof.
  intros H Hr. unfold hf, hist_point. pose proof (lookup_index_range (h_bins h) x (ho_len h H)) as L.
  destruct (get_bin_indices (h_bins h) x) as [i m]. simpl in L. destruct m; [|simpl; lra].
  apply (ho_pos h H (hrow h r)); [apply hrow_in; auto|]. rewrite (ho_rows h H); auto. apply hrow_in; auto.
Qed.

Section Obj.
  Variable h : hist R.
  Hypothesis H : hist_ok h.
  Variable r : nat.
  Hypothesis Hr : (r < h_npdf h)%nat.
  Let row := hrow h r.
  Let c := hist_cdf_row (bin_widths (h_bins h)) row.
  Let Hs : increasing (h_bins h) := ho_inc h H.
  Let Hn : (2 <= length (h_bins h))%nat := ho_len h H.
  Let Hl : length row = pred (length (h_bins h)) := ho_rows h H row (hrow_in h r Hr).

  Lemma obj_c_nondec : nondecreasing c.
  Proof. apply c_nondec; auto. intros. apply (ho_pos h H); auto. apply hrow_in; auto. Qed.
  Lemma obj_c_last : nlast c = 1.
  Proof. unfold c. rewrite c_last by auto. apply (ho_mass h H). apply hrow_in; auto. Qed.
  Lemma obj_c_0 : nth0 0 c = 0.
  Proof. reflexivity. Qed.
  Lemma obj_c_len : length c = length (h_bins h).
  Proof. apply c_length; auto. Qed.
  Lemma bins_range : nth0 0 (h_bins h) < nlast (h_bins h).
  Proof. rewrite nlast_nth0. apply inc_lt; auto. lia. Qed.

  Lemma hF_integral : sound_bins (h_bins h) -> forall x, nth0 0 (h_bins h) <= x <= nlast (h_bins h) ->
    is_RInt (hf h r) (nth0 0 (h_bins h)) x (hF h r x).
  Proof.
    intros Hb x Hx. apply step_integral; auto. intros j y Hj Hy. apply hf_inside; auto.
  Qed.
  Lemma hF_at_end : hF h r (nlast (h_bins h)) = 1.
  Proof.
    unfold hF. rewrite nlast_nth0 at 1. rewrite interp1d_knot by (auto; lia).
    fold row. fold c. rewrite <- obj_c_len, <- nlast_nth0. apply obj_c_last.
  Qed.
  Lemma hF_at_start : hF h r (nth0 0 (h_bins h)) = 0.
  Proof. unfold hF. rewrite interp1d_knot by (auto; lia). apply c_0. Qed.
  Lemma hF_below x : x <= nth0 0 (h_bins h) -> hF h r x = 0.
  Proof. intros [L|E]; [apply interp1d_below; auto|rewrite E; apply hF_at_start]. Qed.
  Lemma hF_above x : nlast (h_bins h) <= x -> hF h r x = 1.
  Proof.
    intros [L|E]; [apply interp1d_above; auto; pose proof bins_range; lra|rewrite <- E; apply hF_at_end].
  Qed.
  Lemma hF_mono x y : x <= y -> hF h r x <= hF h r y.
  Proof.
    intros. apply interp1d_mono; auto; fold row; fold c.
    - apply obj_c_len.
    - apply obj_c_nondec.
    - rewrite obj_c_0. lra.
    - rewrite obj_c_last. lra.
  Qed.
  Lemma hF_range x : 0 <= hF h r x <= 1.
  Proof.
    split.
    - destruct (Rle_dec x (nth0 0 (h_bins h))); [rewrite hF_below; lra|].
      rewrite <- hF_at_start. apply hF_mono. lra.
    - destruct (Rle_dec (nlast (h_bins h)) x); [rewrite hF_above; lra|].
      rewrite <- hF_at_end. apply hF_mono. lra.
  Qed.
  Lemma hFQ p : 0 < p < 1 -> hF h r (hQ h r p) = p.
  Proof.
    intros. apply interp1d_right_inverse; auto; fold row; fold c.
    - apply obj_c_len.
    - apply obj_c_nondec.
    - rewrite obj_c_0, obj_c_last. lra.
  Qed.
  Lemma hQ_range p : 0 < p < 1 -> nth0 0 (h_bins h) <= hQ h r p <= nlast (h_bins h).
  Proof.
    intros Hp. destruct (Rle_dec (nth0 0 (h_bins h)) (hQ h r p)) as [A|A].
    - split; auto. destruct (Rle_dec (hQ h r p) (nlast (h_bins h))); auto.
      assert (hF h r (hQ h r p) = 1) by (apply hF_above; lra). rewrite hFQ in H0; lra.
    - assert (hF h r (hQ h r p) = 0) by (apply hF_below; lra). rewrite hFQ in H0; lra.
  Qed.
  Lemma hQ_mono p q : 0 < p -> p <= q -> q < 1 -> hQ h r p <= hQ h r q.
  Proof.
    intros Hp Hpq Hq. destruct (Rle_dec (hQ h r p) (hQ h r q)); auto. 
    assert (E : hF h r (hQ h r q) <= hF h r (hQ h r p)) by (apply hF_mono; lra).
    rewrite !hFQ in E by lra. assert (p = q) by lra. subst. lra.
  Qed.
  (** The Galois inequality behind inverse-transform sampling. *)
  Lemma hQ_galois p x : 0 < p < 1 -> hQ h r p < x -> p <= hF h r x.
  Proof. intros Hp Hx. rewrite <- (hFQ p Hp). apply hF_mono. lra. Qed.
  Lemma hQ_galois2 p x : 0 < p < 1 -> p < hF h r x -> hQ h r p < x.
  Proof.
    intros Hp Hx. destruct (Rlt_le_dec (hQ h r p) x); auto.
    assert (hF h r x <= hF h r (hQ h r p)) by (apply hF_mono; auto). rewrite hFQ in H0 by auto. lra.
  Qed.
  (** ppf(cdf(x)) = x inside a bin with positive value *)
  Lemma hQF x j : (S j < length (h_bins h))%nat -> 0 < nth0 j row ->
    nth0 j (h_bins h) <= x < nth0 (S j) (h_bins h) -> hQ h r (hF h r x) = x.
  Proof.
    intros Hj Hp Hx. apply interp1d_left_inverse with (j := j); auto; fold row; fold c.
    - apply obj_c_len.
    - apply obj_c_nondec.
    - unfold c. rewrite c_step by auto.
      assert (nth0 j (h_bins h) < nth0 (S j) (h_bins h)) by (apply inc_lt; auto; lia). nra.
  Qed.
End Obj.

(** ** Building from a matrix of rows *)
Lemma reshape_nd2 {A} k (rows : list (list A)) : (forall r, In r rows -> length r = k) ->
  reshape_to_pdf_size (nd2 k rows) = Ok (nd2 k rows).
Proof.
  intros Hr. unfold reshape_to_pdf_size, nd2. cbn [shp removelast].
  replace (prod [length rows]) with (length rows) by (unfold prod; simpl; lia).
  replace (last [length rows; k] 0%nat) with k by reflexivity.
  unfold np_reshape. cbn [dat].
  rewrite (concat_length_const rows k Hr). unfold prod. cbn [fold_right]. rewrite Nat.mul_1_r, Nat.eqb_refl. reflexivity.
Qed.
Lemma rows_of_nd2 {A} k (rows : list (list A)) : (forall r, In r rows -> length r = k) ->
  rows_of (nd2 k rows) = rows.
Proof.
  intros Hr. unfold rows_of, nd2. cbn [shp dat]. replace (prod [k]) with k by (unfold prod; simpl; lia).
  apply chunks_concat. auto.
Qed.

Lemma hist_init_build bins rows chk : (forall row, In row rows -> length row = pred (length bins)) ->
  hist_init bins (nd2 (pred (length bins)) rows) chk =
  Ok (mkhist bins (if chk then map (hist_norm_row (bin_widths bins)) rows else rows) [length rows] : hist R).
Proof.
  intros Hr. unfold hist_init. change (last (shp (nd2 (pred (length bins)) rows)) 0%nat) with (pred (length bins)).
  rewrite Nat.eqb_refl. cbn [negb]. rewrite reshape_nd2 by auto. cbn [bind]. rewrite rows_of_nd2 by auto. reflexivity.
Qed.
Lemma removelast_map {A B} (f : A -> B) l : removelast (map f l) = map f (removelast l).
Proof. induction l as [|a [|b l] IH]; auto. cbn [map removelast] in *. rewrite IH. reflexivity. Qed.
Lemma tl_map {A B} (f : A -> B) l : tl (map f l) = map f (tl l).
Proof. destruct l; auto. Qed.
Lemma nsum_scaled (s : R) row w : nsum (map2 nmul (map (fun p => p / s)%num row) w) = nsum (map2 nmul row w) * / s.
Proof.
  revert w. induction row as [|a row IH]; intros [|b w]; try (simpl; lra).
  cbn [map map2]. rewrite !nsum_cons, IH. simpl. unfold Rdiv. lra.
Qed.
Lemma scaled_twice (l : list R) s : map (fun p => p / (s * / s)) (map (fun p => p / s) l) = map (fun p => p / s) l.
Proof.
  rewrite map_map. apply map_ext. intros p. destruct (Req_dec s 0) as [->|H].
  - unfold Rdiv. rewrite Rinv_0. ring.
  - field. auto.
Qed.
(** Normalising a second time changes nothing. *)
Lemma hist_norm_twice w row : hist_norm_row w (hist_norm_row w row) = hist_norm_row (T := R) w row.
Proof.
  rewrite !hist_norm_row_R, nsum_scaled. apply (scaled_twice row).
Qed.
Lemma hist_norm_row_len w row : length (hist_norm_row (T := R) w row) = length row.
Proof. apply map_length. Qed.
(** The frozen object is normalised whatever [check_input] was. *)
Lemma hist_build bins rows chk : (forall row, In row rows -> length row = pred (length bins)) ->
  hist_ctor bins (nd2 (pred (length bins)) rows) chk =
  Ok (mkhist bins (map (hist_norm_row (bin_widths bins)) rows) [length rows] : hist R).
Proof.
  intros Hr. unfold hist_ctor. rewrite hist_init_build by auto. cbn [bind]. unfold hist_freeze. cbn [h_bins h_pdfs h_shape].
  rewrite hist_init_build.
  - cbn [bind h_bins h_pdfs]. destruct chk; [|reflexivity]. rewrite map_map.
    do 2 f_equal. apply map_ext. intros row. apply hist_norm_twice.
  - destruct chk; auto. intros row H. apply in_map_iff in H. destruct H as (r & <- & H). rewrite hist_norm_row_len. auto.
Qed.

Lemma hist_build_ok bins rows : increasing bins -> (2 <= length bins)%nat -> rows <> [] ->
  (forall row, In row rows -> length row = pred (length bins) /\
     (forall i, (i < length row)%nat -> 0 <= nth0 i row) /\ 0 < mass bins row) ->
  hist_ok (mkhist bins (map (hist_norm_row (bin_widths bins)) rows) [length rows]).
Proof.
  intros Hs Hn Hne Hr. constructor; cbn [h_bins h_pdfs]; auto.
  - intros r H. apply in_map_iff in H. destruct H as (r0 & <- & H). destruct (Hr _ H) as (L & _).
    apply norm_row_length; auto.
  - unfold h_npdf. cbn [h_pdfs]. rewrite map_length. destruct rows; [congruence|simpl; lia].
  - intros r i H Hi. apply in_map_iff in H. destruct H as (r0 & <- & H). destruct (Hr _ H) as (L & P & M).
    rewrite norm_row_length in Hi by auto. rewrite norm_row_nth by auto.
    apply Rmult_le_pos; [apply P; lia|]. apply Rlt_le, Rinv_0_lt_compat; auto.
  - intros r H. apply in_map_iff in H. destruct H as (r0 & <- & H). destruct (Hr _ H) as (L & P & M).
    apply mass_norm; auto. lra.
Qed.
