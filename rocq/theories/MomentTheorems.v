(** Moments (C48, C104). *)
From Coq Require Import QArith String List Arith ZArith Bool Sorted Lia Reals Lra Psatz.
From Coquelicot Require Import Coquelicot.
From Verif Require Import Num NumProofs Py NdArray NumpyLib Utils ScipyWrap Spec HistPdf InterpPdf Packing PackedPdf Moments
  SortProofs EvalProofs NdProofs InterpProofs IntegralProofs BinProofs HistProofs HistTheorems TableProofs InterpPdfProofs GridTheorems PackingTheorems PackedTheorems FreezeProofs.
Import ListNotations.
Local Open Scope list_scope.
Local Open Scope R_scope.

(** ** Specification *)
(** Equally spaced points with step [w] *)
Definition spaced (w : R) (xs : list R) : Prop := forall i, (S i < length xs)%nat -> nth0 (S i) xs - nth0 i xs = w.
(** [v] is the integral of x^k times f, over the support [lo,hi]. *)
Definition has_moment (f : R -> R) (lo hi : R) (k : nat) (v : R) : Prop := is_RInt (fun x => x ^ k * f x) lo hi v.
(** variance of a density *)
Definition has_variance (f : R -> R) (lo hi v : R) : Prop := exists m m2, has_moment f lo hi 1 m /\ has_moment f lo hi 2 m2 /\ v = m2 - m * m.

(** ** Integrals *)
Lemma is_RInt_cubic (f : R -> R) a b c0 c1 c2 c3 : a <= b -> (forall x, a < x < b -> f x = c0 + c1 * x + c2 * x ^ 2 + c3 * x ^ 3) ->
  is_RInt f a b (c0 * (b - a) + c1 * (b ^ 2 - a ^ 2) / 2 + c2 * (b ^ 3 - a ^ 3) / 3 + c3 * (b ^ 4 - a ^ 4) / 4).
Proof.
  intros Hab H. apply (is_RInt_open_ext (fun x => c0 + c1 * x + c2 * x ^ 2 + c3 * x ^ 3)); auto. { intros; symmetry; auto. }
  set (P := fun x => c0 * x + c1 * x ^ 2 / 2 + c2 * x ^ 3 / 3 + c3 * x ^ 4 / 4).
  replace (c0 * (b - a) + _ + _ + _) with (minus (P b) (P a)) by (unfold P, minus, plus, opp; simpl; field).
  apply (is_RInt_derive P (fun x => c0 + c1 * x + c2 * x ^ 2 + c3 * x ^ 3)).
  - intros x _. unfold P. auto_derive; auto. field.
  - intros x _. apply (ex_derive_continuous (fun x => c0 + c1 * x + c2 * x ^ 2 + c3 * x ^ 3)). auto_derive; auto.
Qed.
Lemma is_RInt_eq (f : R -> R) a b (v v' : R) : is_RInt f a b v -> v = v' -> is_RInt f a b v'.
Proof. intros H <-. exact H. Qed.
Lemma cells_integral (g : R -> R) xs (V : nat -> R) n : (n < length xs)%nat ->
  (forall j, (j < n)%nat -> is_RInt g (nth0 j xs) (nth0 (S j) xs) (V j)) -> is_RInt g (nth0 0 xs) (nth0 n xs) (rsum n V).
Proof.
  induction n as [|n IH]; intros Hn H; cbn [rsum]; [apply (@is_RInt_point R_CompleteNormedModule)|].
  apply is_RInt_join with (nth0 n xs); [apply IH; [lia|intros; apply H; lia]|apply H; lia].
Qed.
Lemma cells_total (g : R -> R) xs (V : nat -> R) : (1 <= length xs)%nat ->
  (forall j, (S j < length xs)%nat -> is_RInt g (nth0 j xs) (nth0 (S j) xs) (V j)) -> is_RInt g (nth0 0 xs) (nlast xs) (rsum (pred (length xs)) V).
Proof. intros Hn H. rewrite nlast_nth0. apply cells_integral; [lia|]. intros j Hj. apply H. lia. Qed.
Lemma rsum_add n f g : rsum n (fun i => f i + g i) = rsum n f + rsum n g.
Proof. induction n as [|n IH]; cbn [rsum]; [lra|]. rewrite IH. lra. Qed.
Lemma rsum_steps n (g : nat -> R) : rsum n (fun i => g (S i) - g i) = g n - g 0%nat.
Proof. induction n as [|n IH]; cbn [rsum]; [lra|]. rewrite IH. lra. Qed.
Lemma rsum_pairs n (g : nat -> R) : rsum n (fun i => g i + g (S i)) = 2 * rsum (S n) g - g 0%nat - g n.
Proof. induction n as [|n IH]; cbn [rsum]; [lra|]. rewrite IH. cbn [rsum]. lra. Qed.
Lemma npow_pow (x : R) n : npow x n = x ^ n.
Proof. induction n as [|n IH]; [reflexivity|]. cbn [npow pow]. rewrite IH. reflexivity. Qed.

(** ** Histograms *)
Lemma center_len (l : list R) : length (edge_to_center l) = pred (length l).
Proof. unfold edge_to_center. rewrite map2_len, tl_length, removelast_length. lia. Qed.
Lemma center_nth (l : list R) i : (S i < length l)%nat -> nth0 i (edge_to_center l) = (nth0 i l + nth0 (S i) l) / 2.
Proof.
  intros Hi. unfold edge_to_center. rewrite nth0_map2 by (rewrite ?tl_length, ?removelast_length; lia).
  assert (E1 : nth0 i (tl l) = nth0 (S i) l) by apply tl_nth. assert (E2 : nth0 i (removelast l) = nth0 i l) by (apply removelast_nth; lia).
  rewrite E1, E2, nhalf_R. numR. lra.
Qed.
Lemma nth0_map_list {A} (f : list A -> R) l r : (r < length l)%nat -> nth0 r (map f l) = f (nth r l []).
Proof. intros H. unfold nth0. rewrite nth_map_in with (d' := []) by exact H. reflexivity. Qed.
Lemma spaced_first w xs : spaced w xs -> (2 <= length xs)%nat -> nth0 1 xs - nth0 0 xs = w.
Proof. intros H Hn. apply (H 0%nat). lia. Qed.
Section HistMoments.
  Variables (bins : list R) (rows : list (list R)) (h : hist R).
  Hypothesis Hi : hist_input bins rows.
  Hypothesis E : hist_ctor bins (nd2 (pred (length bins)) rows) true = Ok h.
  Lemma hm_bins : h_bins h = bins.
  Proof. destruct (input_ok _ _ _ Hi E) as [_ ->]. reflexivity. Qed.
  Lemma hm_npdf : h_npdf h = length rows.
  Proof. destruct (input_ok _ _ _ Hi E) as [_ ->]. apply npdf_built. Qed.
  Variable r : nat.
  Hypothesis Hr : (r < length rows)%nat.
  Lemma hm_row_len : length (nth r (h_pdfs h) []) = pred (length bins).
  Proof.
    destruct (input_ok _ _ _ Hi E) as [Hok _]. rewrite <- hm_bins. apply (ho_rows h Hok). apply nth_In. change (r < h_npdf h)%nat. rewrite hm_npdf. exact Hr.
  Qed.
  Lemma hm_total : rsum (pred (length bins)) (fun i => at2 (h_pdfs h) r i * (nth0 (S i) bins - nth0 i bins)) = 1.
  Proof. destruct (c01_values bins rows Hi) as (h' & E' & _ & _ & H). rewrite E in E'. injection E' as <-. apply (H r Hr). Qed.
  (** the code's formula *)
  Lemma hm_formula k : nth0 r (hist_moment h k) =
    rsum (pred (length bins)) (fun i => ((nth0 i bins + nth0 (S i) bins) / 2) ^ k * at2 (h_pdfs h) r i) * (nth0 1 bins - nth0 0 bins).
  Proof.
    unfold hist_moment. rewrite nth0_map_list by (change (r < h_npdf h)%nat; rewrite hm_npdf; exact Hr). rewrite hm_bins. cbn [nmul nsub RNum]. f_equal.
    rewrite nsum_map2_rsum by (rewrite center_len, hm_row_len; reflexivity). rewrite center_len. apply rsum_ext. intros i Hii. rewrite center_nth by lia. rewrite npow_pow. reflexivity.
  Qed.
  Hypothesis Hb : sound_bins bins.
  Lemma hm_cell k i : (k <= 2)%nat -> (S i < length bins)%nat -> is_RInt (fun x => x ^ k * hf h r x) (nth0 i bins) (nth0 (S i) bins)
    (at2 (h_pdfs h) r i * (nth0 (S i) bins ^ (S k) - nth0 i bins ^ (S k)) / INR (S k)).
  Proof.
    intros Hk Hii. pose proof Hi as (Hs & Hn & _). assert (L : nth0 i bins < nth0 (S i) bins) by (apply inc_lt; auto; lia).
    assert (Hf : forall x, nth0 i bins < x < nth0 (S i) bins -> hf h r x = at2 (h_pdfs h) r i) by (intros x Hx; apply hf_inside; rewrite ?hm_bins; auto).
    set (c := at2 (h_pdfs h) r i) in *. destruct k as [|[|[|k]]]; [| | |lia].
    - pose proof (is_RInt_cubic (fun x => x ^ 0 * hf h r x) (nth0 i bins) (nth0 (S i) bins) c 0 0 0) as G. eapply is_RInt_eq; [apply G; [lra|intros x Hx; rewrite Hf by exact Hx; ring]|cbn [INR]; field].
    - pose proof (is_RInt_cubic (fun x => x ^ 1 * hf h r x) (nth0 i bins) (nth0 (S i) bins) 0 c 0 0) as G. eapply is_RInt_eq; [apply G; [lra|intros x Hx; rewrite Hf by exact Hx; ring]|cbn [INR]; field].
    - pose proof (is_RInt_cubic (fun x => x ^ 2 * hf h r x) (nth0 i bins) (nth0 (S i) bins) 0 0 c 0) as G. eapply is_RInt_eq; [apply G; [lra|intros x Hx; rewrite Hf by exact Hx; ring]|cbn [INR]; field].
  Qed.
End HistMoments.
Lemma spaced_sound w bins : spaced w bins -> (2 <= length bins)%nat -> sound_bins bins.
Proof. intros H _. left. exists w. exact H. Qed.
(** C104, histograms on equal bins: orders 0 and 1 are exact, order 2 and the variance are too small by w^2/12. *)
Lemma c104_hist : forall bins rows h w, hist_input bins rows -> spaced w bins ->
  hist_ctor bins (nd2 (pred (length bins)) rows) true = Ok h ->
  exists f, evaluates (hist_ens_pdf h) (length rows) f /\
    forall r, (r < length rows)%nat ->
      nth0 r (hist_ens_moment h 0) = 1 /\ nth0 r (hist_moment h 0) = 1 /\
      nth0 r (hist_ens_mean h) = nth0 r (hist_ens_moment h 1) /\
      has_moment (f r) (nth0 0 bins) (nlast bins) 1 (nth0 r (hist_ens_moment h 1)) /\
      has_moment (f r) (nth0 0 bins) (nlast bins) 2 (nth0 r (hist_ens_moment h 2) + w * w / 12) /\
      has_variance (f r) (nth0 0 bins) (nlast bins) (nth0 r (hist_ens_var h) + w * w / 12).
Proof.
  intros bins rows h w Hi Hw E. assert (Hb : sound_bins bins) by (apply (spaced_sound w); [exact Hw|apply Hi]). pose proof (hm_npdf bins rows h Hi E) as Hk. pose proof (hm_bins bins rows h Hi E) as Eb. destruct (input_ok _ _ _ Hi E) as [Hok _].
  pose proof Hi as (Hs & Hn & _). exists (hf h). rewrite <- Hk at 1. split; [apply hist_pdf_eval; apply (ho_npdf h Hok)|]. intros r Hr.
  pose proof (hm_formula bins rows h Hi E r Hr) as F. pose proof (hm_total bins rows h Hi E r Hr) as T. pose proof (spaced_first w bins Hw Hn) as W.
  assert (M1 : has_moment (hf h r) (nth0 0 bins) (nlast bins) 1 (nth0 r (hist_ens_moment h 1))).
  { unfold has_moment, hist_ens_moment, rv_moment. eapply is_RInt_eq; [apply cells_total; [lia|]; intros j Hj; apply (hm_cell bins rows h Hi E r Hr Hb 1 j); [lia|exact Hj]|].
    rewrite F, W, <- rsum_scale. apply rsum_ext. intros i Hii. pose proof (Hw i ltac:(lia)). replace (nth0 (S i) bins) with (nth0 i bins + w) by lra. cbn [INR]. field. }
  assert (M2 : has_moment (hf h r) (nth0 0 bins) (nlast bins) 2 (nth0 r (hist_ens_moment h 2) + w * w / 12)).
  { unfold has_moment, hist_ens_moment, rv_moment. eapply is_RInt_eq; [apply cells_total; [lia|]; intros j Hj; apply (hm_cell bins rows h Hi E r Hr Hb 2 j); [lia|exact Hj]|].
    rewrite F, W, <- rsum_scale. replace (w * w / 12) with (1 * (w * w / 12)) by ring. rewrite <- T, <- rsum_scale, <- rsum_add. apply rsum_ext. intros i Hii. pose proof (Hw i ltac:(lia)).
    replace (nth0 (S i) bins) with (nth0 i bins + w) by lra. cbn [INR]. field. }
  split; [|split; [|split; [reflexivity|split; [exact M1|split; [exact M2|]]]]].
  - unfold hist_ens_moment, rv_moment. rewrite Hk. unfold nth0. rewrite nth_indep with (d' := n1) by (rewrite repeat_length; exact Hr). rewrite nth_repeat. reflexivity.
  - rewrite F, W, <- rsum_scale. rewrite <- T. apply rsum_ext. intros i Hii. rewrite (Hw i) by lia. ring.
  - exists (nth0 r (hist_ens_moment h 1)), (nth0 r (hist_ens_moment h 2) + w * w / 12). split; [exact M1|]. split; [exact M2|].
    unfold hist_ens_var, rv_var, hist_ens_moment, rv_moment. rewrite nth0_map2 by (unfold hist_moment; rewrite map_length; change (length (h_pdfs h)) with (h_npdf h); lia). numR. ring.
Qed.
(** the formula on any bins *)
Lemma c104_hist_formula : forall bins rows h k r, hist_input bins rows -> hist_ctor bins (nd2 (pred (length bins)) rows) true = Ok h -> (r < length rows)%nat -> (1 <= k)%nat ->
  nth0 r (hist_ens_moment h k) = rsum (pred (length bins)) (fun i => ((nth0 i bins + nth0 (S i) bins) / 2) ^ k * at2 (h_pdfs h) r i) * (nth0 1 bins - nth0 0 bins).
Proof. intros bins rows h k r Hi E Hr Hk. destruct k as [|k]; [lia|]. apply (hm_formula bins rows h Hi E r Hr). Qed.

(** ** Piecewise-linear PDFs *)
Section InterpMoments.
  Variables (xs : list R) (rows : list (list R)) (i : interp R).
  Hypothesis Hi : interp_input xs rows.
  Hypothesis E : interp_ctor xs (nd2 (length xs) rows) true = Ok i.
  Variable r : nat.
  Hypothesis Hr : (r < length rows)%nat.
  Let ys := inorm xs (irow rows r).
  Lemma im_len : length ys = length xs.
  Proof using All. apply (inorm_len xs rows Hi r Hr). Qed.
  Lemma im_value j : (j < length xs)%nat -> if_ xs rows r (nth0 j xs) = nth0 j ys.
  Proof using All.
    intros Hj. pose proof Hi as (Hs & Hn & _). unfold if_, pl. destruct (Nat.eq_dec (S j) (length xs)) as [El|El].
    - destruct j as [|j]; [lia|]. rewrite (interp1d_closed _ _ _ _ _ j) by (try exact im_len; auto; try (split; [apply inc_le; auto; lia|lra]); lia).
      assert (nth0 j xs < nth0 (S j) xs) by (apply inc_lt; auto; lia). unfold seg. fold ys. field. lra.
    - rewrite (interp1d_closed _ _ _ _ _ j) by (try exact im_len; auto; try (split; [lra|apply inc_le; auto; lia]); lia).
      assert (nth0 j xs < nth0 (S j) xs) by (apply inc_lt; auto; lia). unfold seg. fold ys. field. lra.
  Qed.
  Lemma im_formula k : nth0 r (interp_moment i k) = rsum (length xs) (fun j => nth0 j xs ^ k * nth0 j ys) * (nth0 1 xs - nth0 0 xs).
  Proof using All.
    unfold interp_moment. rewrite (i_eq xs rows i Hi E). cbn [i_yvals i_xvals]. rewrite nth0_map_list by (rewrite map_length; exact Hr). rewrite nth_map_in with (d' := []) by exact Hr. fold (irow rows r). fold ys.
    cbn [nmul nsub RNum]. f_equal. rewrite nsum_map2_rsum by (symmetry; apply im_len). apply rsum_ext. intros j Hj. rewrite npow_pow. reflexivity.
  Qed.
  Lemma im_cell k j : (k <= 2)%nat -> (S j < length xs)%nat -> is_RInt (fun x => x ^ k * if_ xs rows r x) (nth0 j xs) (nth0 (S j) xs)
    ((nth0 j ys - slope xs ys j * nth0 j xs) * (nth0 (S j) xs ^ (S k) - nth0 j xs ^ (S k)) / INR (S k)
     + slope xs ys j * (nth0 (S j) xs ^ (S (S k)) - nth0 j xs ^ (S (S k))) / INR (S (S k))).
  Proof using All.
    intros Hk Hj. pose proof Hi as (Hs & Hn & _). assert (L : nth0 j xs < nth0 (S j) xs) by (apply inc_lt; auto; lia).
    assert (Hf : forall x, nth0 j xs < x < nth0 (S j) xs -> if_ xs rows r x = (nth0 j ys - slope xs ys j * nth0 j xs) + slope xs ys j * x).
    { intros x Hx. unfold if_, pl. fold ys. rewrite (interp1d_closed _ _ _ _ _ j) by (try exact im_len; auto; lra). unfold slope, seg. ring. }
    set (c := nth0 j ys - slope xs ys j * nth0 j xs) in *. set (s := slope xs ys j) in *. clearbody c s. clear ys. destruct k as [|[|[|k]]]; [| | |lia].
    - pose proof (is_RInt_cubic (fun x => x ^ 0 * if_ xs rows r x) (nth0 j xs) (nth0 (S j) xs) c s 0 0) as G. eapply is_RInt_eq; [apply G; [lra|intros x Hx; rewrite Hf by exact Hx; ring]|cbn [INR]; field].
    - pose proof (is_RInt_cubic (fun x => x ^ 1 * if_ xs rows r x) (nth0 j xs) (nth0 (S j) xs) 0 c s 0) as G. eapply is_RInt_eq; [apply G; [lra|intros x Hx; rewrite Hf by exact Hx; ring]|cbn [INR]; field].
    - pose proof (is_RInt_cubic (fun x => x ^ 2 * if_ xs rows r x) (nth0 j xs) (nth0 (S j) xs) 0 0 c s) as G. eapply is_RInt_eq; [apply G; [lra|intros x Hx; rewrite Hf by exact Hx; ring]|cbn [INR]; field].
  Qed.
End InterpMoments.
(** C104, piecewise-linear PDFs on an equally spaced grid: each order differs from the true one by exactly the terms of the two ends;
    order 2 also by w^2/6. *)
Lemma c104_interp : forall xs rows i w, interp_input xs rows -> spaced w xs -> interp_ctor xs (nd2 (length xs) rows) true = Ok i ->
  exists f, evaluates (interp_ens_pdf i) (length rows) f /\
    forall r, (r < length rows)%nat -> let a := nth0 0 xs in let b := nlast xs in
      nth0 r (interp_ens_moment i 0) = 1 /\
      nth0 r (interp_moment i 0) = 1 + w * (f r a + f r b) / 2 /\
      nth0 r (interp_ens_mean i) = nth0 r (interp_ens_moment i 1) /\
      has_moment (f r) a b 1 (nth0 r (interp_ens_moment i 1) - w * (a * f r a + b * f r b) / 2 - w * w * (f r b - f r a) / 6) /\
      has_moment (f r) a b 2 (nth0 r (interp_ens_moment i 2) + w * w / 6 - w * (a * a * f r a + b * b * f r b) / 2 - w * w * (b * f r b - a * f r a) / 3).
Proof.
  intros xs rows i w Hi Hw E. pose proof Hi as (Hs & Hn & _). destruct (interp_evals xs rows i Hi E) as (Ep & _ & _). exists (if_ xs rows). split; [exact Ep|]. intros r Hr. cbv zeta.
  pose proof (im_formula xs rows i Hi E r Hr) as F. pose proof (spaced_first w xs Hw Hn) as W. pose proof (total_one xs rows Hi r Hr) as T.
  pose proof (im_value xs rows i Hi E r Hr 0 ltac:(lia)) as V0. pose proof (im_value xs rows i Hi E r Hr (pred (length xs)) ltac:(lia)) as V1. rewrite <- nlast_nth0 in V1.
  set (ys := inorm xs (irow rows r)) in *. rewrite V0, V1. clear V0 V1.
  assert (Wp : 0 < w) by (assert (nth0 0 xs < nth0 1 xs) by (apply inc_lt; auto; lia); lra).
  assert (Hsl : forall j, (S j < length xs)%nat -> slope xs ys j = (nth0 (S j) ys - nth0 j ys) / w) by (intros j Hj; unfold slope; rewrite (Hw j Hj); reflexivity).
  pose proof (im_cell xs rows i Hi E r Hr) as C. fold ys in C.
  set (m := pred (length xs)) in *. assert (Lm : length xs = S m) by (unfold m; lia).
  assert (Xl : nlast xs = nth0 m xs) by apply nlast_nth0. clearbody ys.
  assert (T2 : rsum m (fun j => nth0 j ys + nth0 (S j) ys) = 2 / w).
  { apply Rmult_eq_reg_r with (w / 2); [|lra]. rewrite <- rsum_scale. transitivity 1; [|field; lra]. rewrite <- T. apply rsum_ext. intros j Hj. unfold trap. rewrite (Hw j) by lia. field. }
  split; [|split; [|split; [reflexivity|]]].
  - unfold interp_ens_moment, rv_moment. rewrite (i_np xs rows i Hi E). unfold nth0. rewrite nth_indep with (d' := n1) by (rewrite repeat_length; exact Hr). rewrite nth_repeat. reflexivity.
  - rewrite F, W, Lm. rewrite (rsum_pairs m (fun j => nth0 j ys)) in T2. rewrite (rsum_ext _ _ (fun j => nth0 j ys)) by (intros; ring).
    assert (rsum (S m) (fun j => nth0 j ys) = 1 / w + (nth0 0 ys + nth0 m ys) / 2) by lra. rewrite H. field. lra.
  - assert (T1 : rsum m (fun j => nth0 j xs ^ 1 * nth0 j ys + nth0 (S j) xs ^ 1 * nth0 (S j) ys) = 2 * rsum (S m) (fun j => nth0 j xs ^ 1 * nth0 j ys) - nth0 0 xs * nth0 0 ys - nth0 m xs * nth0 m ys).
    { rewrite (rsum_pairs m (fun j => nth0 j xs ^ 1 * nth0 j ys)). ring. }
    assert (T3 : rsum m (fun j => nth0 j xs ^ 2 * nth0 j ys + nth0 (S j) xs ^ 2 * nth0 (S j) ys) = 2 * rsum (S m) (fun j => nth0 j xs ^ 2 * nth0 j ys) - nth0 0 xs * nth0 0 xs * nth0 0 ys - nth0 m xs * nth0 m xs * nth0 m ys).
    { rewrite (rsum_pairs m (fun j => nth0 j xs ^ 2 * nth0 j ys)). ring. }
    pose proof (rsum_steps m (fun j => nth0 j ys)) as S1. pose proof (rsum_steps m (fun j => nth0 j xs * nth0 j ys)) as S2.
    assert (F1 := F 1%nat). assert (F2 := F 2%nat). rewrite W, Lm in F1, F2. unfold interp_ens_moment, rv_moment. rewrite F1, F2, Xl. split.
    + unfold has_moment. rewrite <- Xl. eapply is_RInt_eq; [apply cells_total; [lia|]; intros j Hj; apply C; [lia|exact Hj]|]. fold m.
      transitivity (w / 2 * rsum m (fun j => nth0 j xs ^ 1 * nth0 j ys + nth0 (S j) xs ^ 1 * nth0 (S j) ys) + - (w * w / 6) * rsum m (fun j => nth0 (S j) ys - nth0 j ys)).
      * rewrite (Rmult_comm (w / 2)), (Rmult_comm (- (w * w / 6))), <- !rsum_scale, <- rsum_add.
        apply rsum_ext. intros j Hj. rewrite Hsl by lia. pose proof (Hw j ltac:(lia)). replace (nth0 (S j) xs) with (nth0 j xs + w) by lra. cbn [INR]. field. lra.
      * rewrite T1, S1, Xl. field.
    + unfold has_moment. rewrite <- Xl. eapply is_RInt_eq; [apply cells_total; [lia|]; intros j Hj; apply C; [lia|exact Hj]|]. fold m.
      transitivity (w / 2 * rsum m (fun j => nth0 j xs ^ 2 * nth0 j ys + nth0 (S j) xs ^ 2 * nth0 (S j) ys) + w * w * w / 12 * rsum m (fun j => nth0 j ys + nth0 (S j) ys) + - (w * w / 3) * rsum m (fun j => nth0 (S j) xs * nth0 (S j) ys - nth0 j xs * nth0 j ys)).
      * rewrite (Rmult_comm (w / 2)), (Rmult_comm (w * w * w / 12)), (Rmult_comm (- (w * w / 3))), <- !rsum_scale, <- !rsum_add.
        apply rsum_ext. intros j Hj. rewrite Hsl by lia. pose proof (Hw j ltac:(lia)). replace (nth0 (S j) xs) with (nth0 j xs + w) by lra. cbn [INR]. field. lra.
      * rewrite T3, S2, T2, Xl. field. lra.
Qed.
(** ** C48 *)
Lemma c48_hist : forall bins rows h w, hist_input bins rows -> spaced w bins -> hist_ctor bins (nd2 (pred (length bins)) rows) true = Ok h ->
  exists f, evaluates (hist_ens_pdf h) (length rows) f /\
    forall r, (r < length rows)%nat -> nth0 r (hist_ens_moment h 0) = 1 /\ has_moment (f r) (nth0 0 bins) (nlast bins) 1 (nth0 r (hist_ens_moment h 1)) /\ has_moment (f r) (nth0 0 bins) (nlast bins) 1 (nth0 r (hist_ens_mean h)).
Proof.
  intros bins rows h w Hi Hw E. destruct (c104_hist bins rows h w Hi Hw E) as (f & Hf & H). exists f. split; [exact Hf|]. intros r Hr. destruct (H r Hr) as (H0 & _ & Hm & H1 & _). rewrite Hm. auto.
Qed.
Lemma c48_interp : forall xs rows i w, interp_input xs rows -> spaced w xs -> interp_ctor xs (nd2 (length xs) rows) true = Ok i ->
  exists f, evaluates (interp_ens_pdf i) (length rows) f /\
    forall r, (r < length rows)%nat -> f r (nth0 0 xs) = 0 -> f r (nlast xs) = 0 ->
      nth0 r (interp_ens_moment i 0) = 1 /\ nth0 r (interp_moment i 0) = 1 /\
      has_moment (f r) (nth0 0 xs) (nlast xs) 1 (nth0 r (interp_ens_moment i 1)) /\ has_moment (f r) (nth0 0 xs) (nlast xs) 1 (nth0 r (interp_ens_mean i)) /\
      has_variance (f r) (nth0 0 xs) (nlast xs) (nth0 r (interp_ens_var i) + w * w / 6).
Proof.
  intros xs rows i w Hi Hw E. destruct (c104_interp xs rows i w Hi Hw E) as (f & Hf & H). exists f. split; [exact Hf|]. intros r Hr Ha Hb. destruct (H r Hr) as (H0 & H00 & Hm & H1 & H2).
  rewrite Ha, Hb in *. rewrite Hm. split; [exact H0|]. split; [rewrite H00; field|].
  assert (M1 : has_moment (f r) (nth0 0 xs) (nlast xs) 1 (nth0 r (interp_ens_moment i 1))) by (eapply is_RInt_eq; [exact H1|field]). split; [exact M1|]. split; [exact M1|].
  exists (nth0 r (interp_ens_moment i 1)), (nth0 r (interp_ens_moment i 2) + w * w / 6). split; [exact M1|]. split; [eapply is_RInt_eq; [exact H2|field]|].
  unfold interp_ens_var, rv_var, interp_ens_moment, rv_moment. rewrite nth0_map2 by (unfold interp_moment; rewrite map_length; change (length (i_yvals i)) with (i_npdf i); rewrite (i_np xs rows i Hi E); lia). numR. ring.
Qed.
(** packed PDFs have the moments of the interpolated ensemble of the unpacked values *)
Lemma c104_packed : forall xs pk ms pt lf chk back k i, (forall row, In row pk -> length row = length xs) -> length ms = length pk -> length back = length pk ->
  unpack_array pow10R pt (Some lf) pk ms = Ok back ->
  packed_ctor pow10R xs (nd2 (length xs) pk) (column ms) pt lf chk = Ok k -> interp_ctor xs (nd2 (length xs) back) chk = Ok i ->
  (forall n, packed_ens_moment k n = interp_ens_moment i n) /\ packed_ens_mean k = interp_ens_mean i /\ packed_ens_var k = interp_ens_var i.
Proof.
  intros xs pk ms pt lf chk back k i Hr Hm Hl U E Ei. rewrite (packed_build xs pk ms pt lf chk back (interp_ctor_two _ _ _ _ Ei) Hr Hm U Hl), Ei in E. cbn [bind] in E. injection E as <-. auto.
Qed.

(** ** The original statement is false *)
Ltac two := unfold nth0; cbn [nth rsum length Nat.pred].
Lemma c48_refuted_hist : exists bins rows h f v, hist_input bins rows /\ sound_bins bins /\ hist_ctor bins (nd2 (pred (length bins)) rows) true = Ok h /\
  evaluates (hist_ens_pdf h) (length rows) f /\ has_moment (f 0%nat) (nth0 0 bins) (nlast bins) 1 v /\ nth0 0 (hist_ens_moment h 1) = 5 / 6 /\ v = 3 / 2.
Proof.
  set (bins := [0; 1; 3] : list R). set (rows := [[1; 1]] : list (list R)).
  assert (Hi : hist_input bins rows).
  { split; [repeat constructor; lra|]. split; [cbn; lia|]. split; [discriminate|]. intros row [<-|[]]. split; [reflexivity|]. split; [intros [|[|i]] Hi; unfold nth0; cbn in *; try lra; lia|cbn; lra]. }
  assert (Hb : sound_bins bins) by (apply hist_input_example). destruct (c01_values bins rows Hi) as (h & E & Eb & _ & H). destruct (H 0%nat ltac:(cbn; lia)) as ((k & _ & Hk) & _ & Hm). clear H.
  pose proof (Hk 0%nat ltac:(cbn; lia)) as K0. pose proof (Hk 1%nat ltac:(cbn; lia)) as K1. unfold at2, rows in K0, K1. cbn [nth nth0] in K0, K1.
  change (pred (length bins)) with 2%nat in Hm. cbn [rsum] in Hm. unfold at2, bins in Hm. unfold nth0 in K0, K1, Hm. cbn [nth] in K0, K1, Hm. rewrite K0, K1 in Hm. assert (k = 1 / 3) by lra. subst k.
  exists bins, rows, h, (hf h), (3 / 2). split; [exact Hi|]. split; [exact Hb|]. split; [exact E|].
  split; [rewrite <- (hm_npdf bins rows h Hi E); apply hist_pdf_eval; rewrite (hm_npdf bins rows h Hi E); cbn; lia|]. split; [|split; [|reflexivity]].
  - unfold has_moment. eapply is_RInt_eq; [apply cells_total; [cbn; lia|]; intros j Hj; apply (hm_cell bins rows h Hi E 0%nat ltac:(cbn; lia) Hb 1%nat j); [lia|exact Hj]|].
    change (pred (length bins)) with 2%nat. cbn [rsum]. unfold at2, nth0. rewrite K0, K1. unfold bins. cbn [nth INR]. field.
  - rewrite (c104_hist_formula bins rows h 1 0 Hi E) by (cbn; lia). change (pred (length bins)) with 2%nat. cbn [rsum]. unfold at2, nth0. rewrite K0, K1. unfold bins. cbn [nth]. field.
Qed.
Lemma c48_refuted_interp : exists xs rows i f v, interp_input xs rows /\ spaced 1 xs /\ interp_ctor xs (nd2 (length xs) rows) true = Ok i /\
  evaluates (interp_ens_pdf i) (length rows) f /\ has_moment (f 0%nat) (nth0 0 xs) (nlast xs) 1 v /\ nth0 0 (interp_moment i 0) = 2 /\ nth0 0 (interp_ens_moment i 1) = 1 /\ v = 1 / 2.
Proof.
  set (xs := [0; 1] : list R). set (rows := [[1; 1]] : list (list R)).
  assert (Hi : interp_input xs rows).
  { split; [repeat constructor; lra|]. split; [cbn; lia|]. split; [discriminate|]. intros row [<-|[]]. split; [reflexivity|]. split; [intros [|[|i]] Hi; unfold nth0; cbn in *; try lra; lia|cbn; lra]. }
  assert (Hw : spaced 1 xs) by (intros [|[|i]] Hj; cbn in Hj; try lia; unfold nth0, xs; cbn; lra).
  destruct (c08 xs rows Hi) as (i & E & _). destruct (c104_interp xs rows i 1 Hi Hw E) as (f & Hf & H). destruct (H 0%nat ltac:(cbn; lia)) as (_ & M0 & _ & M1 & _). clear H.
  destruct (interp_evals xs rows i Hi E) as (Ep & _). assert (Ef : forall x, f 0%nat x = if_ xs rows 0 x) by (intros x; apply (evaluates_unique _ _ _ _ Hf Ep); cbn; lia).
  assert (Ya : area xs (irow rows 0) = 1) by (unfold area, trap, xs, irow, rows; two; field).
  assert (Y0 : nth0 0 (inorm xs (irow rows 0)) = 1) by (rewrite (inorm_nth xs rows Hi 0 ltac:(cbn; lia)), Ya; unfold irow, rows, nth0; cbn; field).
  assert (Y1 : nth0 1 (inorm xs (irow rows 0)) = 1) by (rewrite (inorm_nth xs rows Hi 0 ltac:(cbn; lia)), Ya; unfold irow, rows, nth0; cbn; field).
  assert (F0 : f 0%nat (nth0 0 xs) = 1) by (rewrite Ef, (im_value xs rows i Hi E 0 ltac:(cbn; lia) 0) by (cbn; lia); exact Y0).
  assert (F1 : f 0%nat (nlast xs) = 1) by (rewrite Ef; change (nlast xs) with (nth0 1 xs); rewrite (im_value xs rows i Hi E 0 ltac:(cbn; lia) 1) by (cbn; lia); exact Y1).
  assert (G : nth0 0 (interp_ens_moment i 1) = 1).
  { unfold interp_ens_moment, rv_moment. rewrite (im_formula xs rows i Hi E 0 ltac:(cbn; lia) 1). change (length xs) with 2%nat. cbn [rsum]. rewrite Y0, Y1. unfold xs, nth0. cbn [nth]. field. }
  exists xs, rows, i, f, (1 / 2). split; [exact Hi|]. split; [exact Hw|]. split; [exact E|]. split; [exact Hf|]. split; [|split; [|split; [exact G|reflexivity]]].
  - eapply is_RInt_eq; [exact M1|]. rewrite G, F0, F1. change (nlast xs) with 1. change (nth0 0 xs) with 0. field.
  - rewrite M0, F0, F1. field.
Qed.
(** ** Examples *)
Lemma c48_hist_example : hist_input [0; 1; 2; 3] [[1; 4; 1]; [0; 5; 2]] /\ spaced 1 [0; 1; 2; 3].
Proof.
  split.
  - split; [repeat constructor; lra|]. split; [cbn; lia|]. split; [discriminate|]. intros row Hrow. destruct Hrow as [<-|[<-|[]]]; (split; [reflexivity|]); (split; [intros [|[|[|i]]] Hi; unfold nth0; cbn in *; try lra; lia|two; lra]).
  - intros [|[|[|i]]] Hj; cbn in Hj; try lia; unfold nth0; cbn; lra.
Qed.
Lemma c48_interp_example : interp_input [-1; 0; 1; 2] [[0; 4; 1; 0]; [0; 5; 2; 0]] /\ spaced 1 [-1; 0; 1; 2].
Proof.
  split.
  - split; [repeat constructor; lra|]. split; [cbn; lia|]. split; [discriminate|]. intros row Hrow. destruct Hrow as [<-|[<-|[]]]; (split; [reflexivity|]); (split; [intros [|[|[|[|i]]]] Hi; unfold nth0; cbn in *; try lra; lia|two; lra]).
  - intros [|[|[|i]]] Hj; cbn in Hj; try lia; unfold nth0; cbn; lra.
Qed.
Lemma c104_packed_example : exists xs pk ms pt lf back k i, (forall row, In row pk -> length row = length xs) /\ length ms = length pk /\ length back = length pk /\
  unpack_array pow10R pt (Some lf) pk ms = Ok back /\ packed_ctor pow10R xs (nd2 (length xs) pk) (column ms) pt lf true = Ok k /\ interp_ctor xs (nd2 (length xs) back) true = Ok i.
Proof.
  set (pk := [[0; 255; 51]%Z]). set (back := @linear_unpack R RNum pk [2]).
  assert (Hr : forall row, In row pk -> length row = length [0; 1; 3]) by (intros row [<-|[]]; reflexivity).
  assert (Hb : forall row, In row back -> length row = length [0; 1; 3]) by (intros row [<-|[]]; reflexivity).
  eexists [0; 1; 3], pk, [2], LinearFromRowmax, (-3), back, _, _.
  split; [exact Hr|]. split; [reflexivity|]. split; [reflexivity|]. split; [reflexivity|]. split; [|rewrite interp_build by (try exact Hb; cbn [length]; lia); reflexivity].
  rewrite (packed_build [0; 1; 3] pk [2] LinearFromRowmax (-3) true back ltac:(cbn [length]; lia) Hr eq_refl eq_refl eq_refl). rewrite interp_build by (try exact Hb; cbn [length]; lia). reflexivity.
Qed.
