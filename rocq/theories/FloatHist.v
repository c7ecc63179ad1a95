(** The bin lookup of utils.py 80-95 and the evaluation of histograms in double precision. *)
From Coq Require Import List Arith ZArith Bool Sorted Lia Reals Lra Psatz.
From Flocq Require Import Core.Zaux Core.Raux.
From Verif Require Import Num NumProofs Py NdArray NumpyLib Utils ScipyWrap SortProofs InterpProofs BinProofs EvalProofs HistPdf HistProofs Spec Float FloatProofs RbpeMath.
Import ListNotations.
Local Open Scope R_scope.

(** ** Specification *)
(** The edges are those of an evenly spaced grid of step [w], up to [d]; [w] is the first width as the machine computes it. *)
Definition nearly_even (bins : list R) (w d : R) : Prop :=
  w = rd (nth 1 bins 0 - nth 0 bins 0) /\ 0 < w /\ 0 <= d <= w / 2 ^ 20 /\
  forall i, (i < length bins)%nat -> Rabs (nth i bins 0 - (nth 0 bins 0 + INR i * w)) <= d.
(** How near to an edge the answer may be the one of the neighbouring bin. *)
Definition margin (bins : list R) (w d : R) : R := d + INR (S (length bins)) * w / 2 ^ 50.
(** Some width is beyond doubt not the first one. *)
Definition widths_differ (bins : list R) : Prop :=
  exists i, (S i < length bins)%nat /\
    Rabs ((nth (S i) bins 0 - nth i bins 0) - (nth 1 bins 0 - nth 0 bins 0)) > 2 / 100000000 + 2 / 100000 * Rabs (nth 1 bins 0 - nth 0 bins 0).
Definition doubles (l : list R) : Prop := forall x, In x l -> dbl x.

(** ** The lookup *)
Lemma ndiff_length_d (l : list R) : length (ndiff (N := DNum) l) = pred (length l).
Proof. unfold ndiff. rewrite map2_len, tl_length, removelast_length. lia. Qed.
Lemma ndiff_nth_d (l : list R) i : (S i < length l)%nat -> nth i (ndiff (N := DNum) l) 0 = rd (nth (S i) l 0 - nth i l 0).
Proof.
  intros. unfold ndiff. rewrite map2_nth with (a := 0) (b := 0); [|rewrite tl_length; lia|rewrite removelast_length; lia].
  rewrite tl_nth, removelast_nth by auto. reflexivity.
Qed.
Lemma nhead_d (l : list R) : nhead (N := DNum) l = nth 0 l 0. Proof. destruct l; reflexivity. Qed.
Lemma nabs_d x : nabs (N := DNum) x = Rabs x. Proof. apply nabs_R. Qed.

Lemma tol_bounds : / 2 ^ 27 <= rd (rd 1 / rd 100000000) <= 101 / 100 / 100000000 /\ / 2 ^ 17 <= rd (rd 1 / rd 100000) <= 101 / 100 / 100000.
Proof.
  rewrite (rd_IZR 1), (rd_IZR 100000000), (rd_IZR 100000) by (cbv; discriminate).
  assert (B : forall z, 0 < z -> / 2 ^ 50 <= z -> rd z <= 101 / 100 * z).
  { intros z Hz Hb. pose proof (rd_err z) as E. pose proof u53_small. pose proof tiny1075. rewrite (Rabs_pos_eq z) in E by lra.
    apply Rabs_le_inv in E. assert (u53 * z <= / 2 ^ 50 * z) by (apply Rmult_le_compat_r; lra). assert (/ 2 ^ 60 <= / 2 ^ 10 * z) by (replace (/ 2 ^ 60) with (/ 2 ^ 10 * / 2 ^ 50) by lra; apply Rmult_le_compat_l; lra). lra. }
  assert (I : forall e, (-1000 <= e)%Z -> forall z, bpow radix2 e <= z -> bpow radix2 e <= rd z).
  { intros e He z Hz. rewrite <- (rd_id (bpow radix2 e)) by (apply dbl_bpow; lia). apply rd_mono. exact Hz. }
  assert (V27 : bpow radix2 (-27) = / 2 ^ 27) by (simpl; f_equal; lra).
  assert (V17 : bpow radix2 (-17) = / 2 ^ 17) by (simpl; f_equal; lra).
  pose proof (I (-27)%Z ltac:(lia) (1 / 100000000)) as I27. pose proof (I (-17)%Z ltac:(lia) (1 / 100000)) as I17. rewrite V27 in I27. rewrite V17 in I17.
  pose proof (B (1 / 100000000)) as B1. pose proof (B (1 / 100000)) as B2. split; split; lra.
Qed.

Lemma isclose_d a b : np_isclose (N := DNum) a b = Rleb (Rabs (rd (a - b))) (rd (rd (rd 1 / rd 100000000) + rd (rd (rd 1 / rd 100000) * Rabs b))).
Proof. unfold np_isclose. rewrite !nabs_d. reflexivity. Qed.

(** rounding of non-negative reals, coarse *)
Lemma rd_up z : 0 <= z -> rd z <= z + z / 2 ^ 50 + / 2 ^ 60.
Proof.
  intros Hz. pose proof (rd_err z) as E. pose proof u53_small. pose proof tiny1075. rewrite (Rabs_pos_eq z) in E by lra. apply Rabs_le_inv in E.
  assert (u53 * z <= / 2 ^ 50 * z) by (apply Rmult_le_compat_r; lra). lra.
Qed.
Lemma rd_down z : 0 <= z -> z - z / 2 ^ 50 - / 2 ^ 60 <= rd z.
Proof.
  intros Hz. pose proof (rd_err z) as E. pose proof u53_small. pose proof tiny1075. rewrite (Rabs_pos_eq z) in E by lra. apply Rabs_le_inv in E.
  assert (u53 * z <= / 2 ^ 50 * z) by (apply Rmult_le_compat_r; lra). lra.
Qed.
Lemma sub_near a b : dbl a -> dbl b -> Rabs (rd (a - b) - (a - b)) <= Rabs (a - b) / 2 ^ 50.
Proof. intros Ha Hb. pose proof (rd_sub_err a b Ha Hb). pose proof u53_small. pose proof (Rabs_pos (a - b)). assert (u53 * Rabs (a - b) <= / 2 ^ 50 * Rabs (a - b)) by (apply Rmult_le_compat_r; lra). lra. Qed.

Lemma even_allclose bins w d : doubles bins -> (2 <= length bins)%nat -> nearly_even bins w d ->
  np_allclose_scalar (N := DNum) (bin_widths (N := DNum) bins) (nhead (N := DNum) (bin_widths (N := DNum) bins)) = true.
Proof.
  intros Hb Hn (Ew & Hw & Hd & He). unfold np_allclose_scalar, bin_widths. apply forallb_forall. intros v Hv.
  apply In_nth with (d := 0) in Hv. destruct Hv as (i & Hi & <-). rewrite ndiff_length_d in Hi. rewrite nhead_d, !ndiff_nth_d by lia. rewrite <- Ew.
  rewrite isclose_d. apply Rleb_true.
  assert (Di : dbl (nth i bins 0)) by (apply Hb, nth_In; lia). assert (DS : dbl (nth (S i) bins 0)) by (apply Hb, nth_In; lia).
  pose proof (He i ltac:(lia)) as E1. pose proof (He (S i) ltac:(lia)) as E2. rewrite S_INR in E2. apply Rabs_le_inv in E1, E2.
  set (v := rd (nth (S i) bins 0 - nth i bins 0)). pose proof (sub_near _ _ DS Di) as Sv. fold v in Sv. set (t := nth (S i) bins 0 - nth i bins 0) in *.
  assert (T : w - 2 * d <= t <= w + 2 * d) by (unfold t; lra).
  assert (Ht : 0 <= t) by lra. rewrite (Rabs_pos_eq t) in Sv by exact Ht. apply Rabs_le_inv in Sv.
  assert (Hv : Rabs (v - w) <= w / 2 ^ 18) by (apply Rabs_le; lra).
  assert (Dv : dbl v) by apply rd_dbl. assert (Dw : dbl w) by (rewrite Ew; apply rd_dbl).
  pose proof (rd_sub_err v w Dv Dw) as Sw. pose proof u53_small. pose proof (Rabs_pos (v - w)).
  assert (L : Rabs (rd (v - w)) <= w / 2 ^ 18 + w / 2 ^ 60).
  { replace (rd (v - w)) with ((rd (v - w) - (v - w)) + (v - w)) by ring. eapply Rle_trans; [apply Rabs_triang|].
    assert (u53 * Rabs (v - w) <= / 2 ^ 50 * (w / 2 ^ 18)) by (apply Rmult_le_compat; lra). lra. }
  destruct tol_bounds as [[T1 _] [T2 _]]. rewrite (Rabs_pos_eq w) by lra.
  set (t1 := rd (rd 1 / rd 100000000)) in *. set (t2 := rd (rd 1 / rd 100000)) in *.
  assert (P : / 2 ^ 17 * w <= t2 * w) by (apply Rmult_le_compat_r; lra).
  pose proof (rd_down (t2 * w) ltac:(nra)) as D1. set (z := rd (t2 * w)) in *. pose proof (rd_down (t1 + z)) as D2. cut (Rabs (rd (v - w)) <= rd (t1 + z)); [auto|].
  assert (Hz : 0 <= z) by (apply rd_pos; nra). specialize (D2 ltac:(lra)).
  lra.
Qed.

Lemma differ_not_allclose bins : doubles bins -> (2 <= length bins)%nat -> widths_differ bins ->
  np_allclose_scalar (N := DNum) (bin_widths (N := DNum) bins) (nhead (N := DNum) (bin_widths (N := DNum) bins)) = false.
Proof.
  intros Hb Hn (i & Hi & Hg). unfold np_allclose_scalar, bin_widths.
  destruct (forallb _ _) eqn:E; auto. exfalso. rewrite forallb_forall in E. specialize (E (nth i (ndiff (N := DNum) bins) 0)).
  specialize (E ltac:(apply nth_In; rewrite ndiff_length_d; lia)). rewrite nhead_d, !ndiff_nth_d in E by lia. rewrite isclose_d in E. apply Rleb_true in E.
  assert (D0 : dbl (nth 0 bins 0)) by (apply Hb, nth_In; lia). assert (D1 : dbl (nth 1 bins 0)) by (apply Hb, nth_In; lia).
  assert (Di : dbl (nth i bins 0)) by (apply Hb, nth_In; lia). assert (DS : dbl (nth (S i) bins 0)) by (apply Hb, nth_In; lia).
  set (t := nth (S i) bins 0 - nth i bins 0) in *. set (s := nth 1 bins 0 - nth 0 bins 0) in *.
  pose proof (sub_near _ _ DS Di) as Sv. pose proof (sub_near _ _ D1 D0) as Sw. fold t in Sv. fold s in Sw. set (v := rd t) in *. set (w := rd s) in *.
  pose proof (sub_near v w ltac:(apply rd_dbl) ltac:(apply rd_dbl)) as Sd. set (r := rd (v - w)) in *.
  destruct tol_bounds as [[_ T1] [_ T2]]. set (t1 := rd (rd 1 / rd 100000000)) in *. set (t2 := rd (rd 1 / rd 100000)) in *.
  assert (P1 : 0 <= t1) by (apply rd_pos; rewrite (rd_IZR 1), (rd_IZR 100000000) by (cbv; discriminate); lra).
  assert (P2 : 0 <= t2) by (apply rd_pos; rewrite (rd_IZR 1), (rd_IZR 100000) by (cbv; discriminate); lra).
  pose proof (Rabs_pos w) as Aw. pose proof (Rabs_pos s) as As. pose proof (Rabs_pos t) as At.
  assert (U : t2 * Rabs w <= 101 / 100 / 100000 * Rabs w) by (apply Rmult_le_compat_r; lra).
  pose proof (rd_up (t2 * Rabs w) ltac:(apply Rmult_le_pos; lra)) as D2. set (z := rd (t2 * Rabs w)) in *.
  assert (Hz : 0 <= z) by (apply rd_pos, Rmult_le_pos; lra). pose proof (rd_up (t1 + z) ltac:(lra)) as D3.
  assert (E' : Rabs r <= rd (t1 + z)) by exact E. clear E.
  assert (Ws : Rabs w <= Rabs s + Rabs s / 2 ^ 50) by (replace w with ((w - s) + s) by ring; eapply Rle_trans; [apply Rabs_triang|]; lra).
  assert (Tb : Rabs t <= Rabs s + Rabs (t - s)) by (replace t with (s + (t - s)) at 1 by ring; apply Rabs_triang).
  assert (Q1 : Rabs (t - s) <= Rabs (v - w) + Rabs t / 2 ^ 50 + Rabs s / 2 ^ 50).
  { replace (t - s) with ((v - w) + (- (v - t) + (w - s))) by ring. eapply Rle_trans; [apply Rabs_triang|]. pose proof (Rabs_triang (- (v - t)) (w - s)). rewrite Rabs_Ropp in H. lra. }
  assert (Q2 : Rabs (v - w) <= Rabs r + Rabs (v - w) / 2 ^ 50).
  { replace (v - w) with (r + - (r - (v - w))) at 1 by ring. eapply Rle_trans; [apply Rabs_triang|]. rewrite Rabs_Ropp. lra. }
  pose proof (Rabs_pos (v - w)). pose proof (Rabs_pos (t - s)). lra.
Qed.

Lemma raw_even bins x : np_allclose_scalar (N := DNum) (bin_widths (N := DNum) bins) (nhead (N := DNum) (bin_widths (N := DNum) bins)) = true -> (2 <= length bins)%nat ->
  get_bin_index_raw (N := DNum) bins x = Int_part (rd (rd (x - nth 0 bins 0) / rd (nth 1 bins 0 - nth 0 bins 0))).
Proof.
  intros E Hn. unfold get_bin_index_raw. rewrite E. unfold bin_widths. rewrite !nhead_d, ndiff_nth_d by lia. reflexivity.
Qed.
Lemma raw_differ bins x : np_allclose_scalar (N := DNum) (bin_widths (N := DNum) bins) (nhead (N := DNum) (bin_widths (N := DNum) bins)) = false ->
  get_bin_index_raw (N := DNum) bins x = (Z.of_nat (searchsorted_left (N := RNum) bins x) - 1)%Z.
Proof. intros E. unfold get_bin_index_raw. rewrite E. reflexivity. Qed.

Lemma indices_of_raw bins x i : get_bin_index_raw (N := DNum) bins x = Z.of_nat i -> (S i < length bins)%nat -> get_bin_indices (N := DNum) bins x = (i, true).
Proof.
  intros E Hi. unfold get_bin_indices. rewrite E.
  assert (B : ((0 <=? Z.of_nat i) && (Z.of_nat i <? Z.of_nat (pred (length bins))))%Z = true).
  { apply andb_true_intro. split; [apply Z.leb_le|apply Z.ltb_lt]; lia. }
  rewrite B. f_equal. lia.
Qed.
Lemma indices_out_raw bins x : (get_bin_index_raw (N := DNum) bins x < 0 \/ Z.of_nat (pred (length bins)) <= get_bin_index_raw (N := DNum) bins x)%Z ->
  snd (get_bin_indices (N := DNum) bins x) = false.
Proof. intros H. unfold get_bin_indices. cbn [snd]. apply andb_false_iff. destruct H; [left; apply Z.leb_gt|right; apply Z.ltb_ge]; lia. Qed.

Lemma Int_part_is r z : IZR z <= r < IZR z + 1 -> Int_part r = z.
Proof. intros H. symmetry. apply Int_part_at. lra. Qed.

Lemma lookup_even bins w d x i : doubles bins -> dbl x -> (S i < length bins)%nat -> nearly_even bins w d ->
  nth i bins 0 + margin bins w d <= x <= nth (S i) bins 0 - margin bins w d -> get_bin_indices (N := DNum) bins x = (i, true).
Proof.
  intros Hb Hx Hi He Hin. apply indices_of_raw; [|exact Hi]. rewrite raw_even by (lia || (eapply even_allclose; eauto; lia)).
  destruct He as (Ew & Hw & Hd & He). rewrite <- Ew. apply Int_part_is. rewrite <- INR_IZR_INZ.
  pose proof (quotient_err x (nth 0 bins 0) w Hx ltac:(apply Hb, nth_In; lia) Hw) as Q. unfold eps51 in Q.
  pose proof (He i ltac:(lia)) as E1. pose proof (He (S i) ltac:(lia)) as E2. rewrite S_INR in E2. apply Rabs_le_inv in E1, E2. unfold margin in Hin.
  set (z := (x - nth 0 bins 0) / w) in *. assert (Ez : x - nth 0 bins 0 = z * w) by (unfold z; field; lra).
  set (m := INR (S (length bins))) in *.
  assert (Hm : INR i + 3 <= m) by (unfold m; replace (INR i + 3) with (INR (i + 3)) by (rewrite plus_INR; simpl; lra); apply le_INR; lia).
  pose proof (pos_INR i) as Pi.
  assert (Z1 : INR i + m / 2 ^ 50 <= z) by (apply Rmult_le_reg_r with w; [exact Hw|]; lra).
  assert (Z2 : z <= INR i + 1 - m / 2 ^ 50) by (apply Rmult_le_reg_r with w; [exact Hw|]; lra).
  rewrite (Rabs_pos_eq z) in Q by lra. apply Rabs_le_inv in Q. lra.
Qed.

Lemma lookup_even_out bins w d x : doubles bins -> dbl x -> (2 <= length bins)%nat -> nearly_even bins w d ->
  x <= nth 0 bins 0 - margin bins w d \/ nth (pred (length bins)) bins 0 + margin bins w d <= x -> snd (get_bin_indices (N := DNum) bins x) = false.
Proof.
  intros Hb Hx Hn He Hout. apply indices_out_raw. rewrite raw_even by (lia || (eapply even_allclose; eauto; lia)).
  destruct He as (Ew & Hw & Hd & He). rewrite <- Ew.
  pose proof (quotient_err x (nth 0 bins 0) w Hx ltac:(apply Hb, nth_In; lia) Hw) as Q. unfold eps51 in Q.
  pose proof (He (pred (length bins)) ltac:(lia)) as E1. apply Rabs_le_inv in E1. unfold margin in Hout.
  set (z := (x - nth 0 bins 0) / w) in *. assert (Ez : x - nth 0 bins 0 = z * w) by (unfold z; field; lra).
  set (m := INR (S (length bins))) in *. set (k := INR (pred (length bins))) in *.
  assert (Hm : m = k + 2) by (unfold m, k; replace (S (length bins)) with (pred (length bins) + 2)%nat by lia; rewrite plus_INR; simpl; lra).
  pose proof (pos_INR (pred (length bins))) as Pk. fold k in Pk.
  set (q := rd (rd (x - nth 0 bins 0) / w)) in *. destruct (base_Int_part q) as [I1 I2]. destruct Hout as [Ho|Ho].
  - left. assert (Z1 : z <= - (m / 2 ^ 50)) by (apply Rmult_le_reg_r with w; [exact Hw|]; lra).
    rewrite (Rabs_left z) in Q by lra. apply Rabs_le_inv in Q. apply lt_IZR. lra.
  - right. assert (Z1 : k + m / 2 ^ 50 <= z) by (apply Rmult_le_reg_r with w; [exact Hw|]; lra).
    rewrite (Rabs_pos_eq z) in Q by lra. apply Rabs_le_inv in Q. apply Z.lt_succ_r, lt_IZR. rewrite succ_IZR, <- INR_IZR_INZ. fold k. lra.
Qed.

Lemma lookup_differ bins x i : doubles bins -> increasing bins -> widths_differ bins -> (S i < length bins)%nat ->
  nth i bins 0 < x <= nth (S i) bins 0 -> get_bin_indices (N := DNum) bins x = (i, true).
Proof.
  intros Hb Hs He Hi Hx. apply indices_of_raw; [|exact Hi]. rewrite raw_differ by (apply differ_not_allclose; auto; lia).
  assert (E : searchsorted_left (N := RNum) bins x = S i).
  { apply ssl_eq; [lia| |intros; change (x <= nth (S i) bins 0); lra]. intros k Hk. apply Rle_lt_trans with (nth0 i bins); [|exact (proj1 Hx)]. apply inc_le; auto. lia. }
  rewrite E. lia.
Qed.
Lemma lookup_differ_out bins x : doubles bins -> increasing bins -> widths_differ bins -> (2 <= length bins)%nat ->
  x <= nth 0 bins 0 \/ nth (pred (length bins)) bins 0 < x -> snd (get_bin_indices (N := DNum) bins x) = false.
Proof.
  intros Hb Hs He Hn Hx. apply indices_out_raw. rewrite raw_differ by (apply differ_not_allclose; auto).
  destruct Hx as [Hx|Hx]; [left|right].
  - assert (E : searchsorted_left (N := RNum) bins x = 0%nat) by (apply ssl_eq; [lia|lia|auto]). rewrite E. lia.
  - assert (E : searchsorted_left (N := RNum) bins x = length bins).
    { apply ssl_eq; [lia| |lia]. intros k Hk. apply Rle_lt_trans with (nth0 (pred (length bins)) bins); [apply inc_le; auto; lia|exact Hx]. }
    rewrite E. lia.
Qed.

(** ** The ensemble *)
Lemma hist_dispatches_d bins (vals : list (list R)) :
  dispatches (hist_point (N := DNum) bins vals) (length vals) (fun x row => evaluate_hist_x_multi_y (N := DNum) x row bins vals).
Proof.
  exists (evaluate_hist_x_multi_y_flat (N := DNum) bins vals), (evaluate_hist_x_multi_y_product (N := DNum) bins vals),
         (evaluate_hist_x_multi_y_2d (N := DNum) bins vals).
  split; [reflexivity|split].
  - intros. apply vectorize2_same. auto.
  - intros xs rows _ Hr. unfold evaluate_hist_x_multi_y_product, product, per_row.
    apply flat_map_ext_in. intros r Hin. specialize (Hr _ Hin).
    rewrite nth_map_in with (d' := []) by auto.
    rewrite map_map, map2_map_lr. apply map_ext. intros x.
    unfold hist_point, at2. destruct (get_bin_indices (N := DNum) bins x) as [i m]. reflexivity.
Qed.
Definition hfd (h : hist R) (r : nat) (x : R) : R := hist_point (N := DNum) (h_bins h) (h_pdfs h) x r.
Lemma hist_pdf_eval_d h : (0 < h_npdf h)%nat -> evaluates (hist_ens_pdf (N := DNum) h) (h_npdf h) (hfd h).
Proof.
  intros Hk x. unfold hist_ens_pdf, rv_pdf. exact (rv_eval_scalar _ (h_npdf h) (fun _ => true) _ _ x (hist_dispatches_d (h_bins h) (h_pdfs h)) Hk eq_refl).
Qed.
