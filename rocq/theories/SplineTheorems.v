(** Theorems about ensembles of splines. *)
From Coq Require Import String List Arith ZArith Bool Lia Reals Lra.
From Coquelicot Require Import Coquelicot.
From Verif Require Import Num NumProofs Py NdArray NumpyLib Utils ScipyWrap Spec Values Ensemble Classes SplinePdf SplineXy
  SortProofs BinProofs EvalProofs NdProofs InterpProofs IntegralProofs HistProofs PackedTheorems SplineProofs SplineMath Kinds KindProofs EnsembleProofs KindInputs ReachProofs EnsembleTheorems RowProofs IntegrateTheorems MixmodTheorems.
Import ListNotations.
Local Open Scope string_scope.
Local Open Scope list_scope.
Local Open Scope R_scope.

(** ** Specification *)
(** what an ensemble of splines stores: knots, coefficients and orders *)
Definition spline_table (e : ens R) (n : nat) (xs ys : list (list R)) (ks : list nat) : Prop :=
  vget (objdata e) "splx" = Some (VArr (nd2 n xs)) /\ vget (objdata e) "sply" = Some (VArr (nd2 n ys)) /\
  vget (objdata e) "spln" = Some (VArr (nd2 1 (map (fun k => [INR k]) ks))) /\
  length xs = e_npdf e /\ length ys = e_npdf e /\ length ks = e_npdf e /\ (forall l, In l xs -> length l = n) /\ (forall l, In l ys -> length l = n).
(** the sum of textbook B-splines in the base range, continued on both sides by the polynomials of its ends *)
Definition is_spline (t c : list R) (k : nat) (f : R -> R) : Prop :=
  (forall x, first_knot t k <= x < last_knot t k -> f x = rsum (length t - k - 1) (fun i => nth0 i c * B t k i x)) /\
  (exists p, polynomial (S k) p /\ forall x, x < nth0 (S k) t -> f x = p x) /\
  (exists p, polynomial (S k) p /\ forall x, nth0 (length t - 2 - k) t <= x -> f x = p x).
(** the integral over the part of the base range below the point *)
Definition is_base_integral (t : list R) (k : nat) (f F : R -> R) : Prop :=
  forall x, is_RInt f (first_knot t k) (clamp (first_knot t k) (last_knot t k) x) (F x).

(** ** The stored tables *)
Definition order_at (d : row) : nat := Z.to_nat (nfloor (nth0 0 (num_at 2 d))).
Lemma spline_kind X M e : fill_outside X -> made X M e -> g_name (e_obj e) = "spline" -> exists n D, represents_in X (KSpline n) D e.
Proof.
  intros HX He Hn. destruct (made_rep X M e HX He) as (k & D & HD & _). destruct (rep_meta X k D e HD) as (_ & _ & Hk). rewrite Hn in Hk. destruct k; try discriminate Hk. eauto.
Qed.
Lemma table_of X n D e : represents_in X (KSpline n) D e -> spline_table e n (map (num_at 0) D) (map (num_at 1) D) (map order_at D).
Proof.
  intros HD. pose proof HD as (_ & _ & Hf & _ & _). destruct (rep_meta X _ D e HD) as (_ & Ho & _). rewrite Forall_forall in Hf.
  unfold spline_table. rewrite Ho, (rep_npdf' X _ D e HD), !map_length. unfold cols, columns. cbn [kind_layout columns_from col_value vget dget String.eqb Ascii.eqb Bool.eqb]. rewrite !map_map.
  split; [reflexivity|]. split; [reflexivity|]. split.
  - do 2 apply f_equal. change (rows_nd [1%nat]) with (@nd2 R 1). apply f_equal. apply map_ext_in. intros d Hd.
    destruct (Hf d Hd) as (_ & k & _ & _ & E). unfold order_at. rewrite E, order_value. exact E.
  - do 3 (split; [reflexivity|]). split; intros l Hl; apply in_map_iff in Hl; destruct Hl as (d & <- & Hd); destruct (Hf d Hd) as [Hr _]; (eapply row_fits_num; [exact Hr|reflexivity]).
Qed.
Lemma row_order X n D e r : represents_in X (KSpline n) D e -> (r < length D)%nat -> let k := order_at (nth r D []) in (k <= 5)%nat /\ (2 * k + 2 <= n)%nat /\ length (num_at 0 (nth r D [])) = n.
Proof.
  intros (_ & _ & Hf & _ & _) Hr. rewrite Forall_forall in Hf. destruct (Hf _ (nth_In D [] Hr)) as (Hw & k & K1 & K2 & E). cbv zeta. unfold order_at. rewrite E, order_value. split; [exact K1|]. split; [exact K2|].
  eapply row_fits_num; [exact Hw|reflexivity].
Qed.
Definition row_pdf (d : row) (x : R) : R := splev (num_at 0 d) (num_at 1 d) (order_at d) x.
Definition row_cdf (d : row) (x : R) : R := splint (num_at 0 d) (num_at 1 d) (order_at d) (nminimum (nhead (num_at 0 d)) (tl (num_at 0 d))) x.
Lemma row_functions X n D e : represents_in X (KSpline n) D e ->
  computes (ens_pdf e) (e_npdf e) (fun r => row_pdf (nth r D [])) /\ computes (ens_cdf e) (e_npdf e) (fun r => row_cdf (nth r D [])).
Proof.
  intros HD. split; [apply (rep_computes X _ D e MPdf row_pdf HD)|apply (rep_computes X _ D e MCdf row_cdf HD)]; try (cbn; auto; fail); intros d x; reflexivity.
Qed.
Lemma row_is_spline t c k : ordered t -> (2 * k + 2 <= length t)%nat -> is_spline t c k (splev t c k).
Proof.
  intros Ht Hk. split; [intros x Hx; apply splev_B; auto|]. split; [apply splev_low; auto|apply splev_high; auto].
Qed.

(** ** C114, C115 *)
Lemma c114_splines : forall X M e, fill_outside X -> made X M e -> g_name (e_obj e) = "spline" ->
  exists n xs ys ks f F, spline_table e n xs ys ks /\ computes (ens_pdf e) (e_npdf e) f /\ computes (ens_cdf e) (e_npdf e) F /\
    forall r, (r < e_npdf e)%nat -> let t := nth r xs [] in let c := nth r ys [] in let k := nth r ks 0%nat in
      (k <= 5)%nat /\ (2 * k + 2 <= n)%nat /\ (ordered t -> is_spline t c k (f r) /\ is_base_integral t k (f r) (F r)).
Proof.
  intros X M e HX He Hn. destruct (spline_kind X M e HX He Hn) as (n & D & HD). destruct (row_functions X n D e HD) as [Hf HF].
  exists n, (map (num_at 0) D), (map (num_at 1) D), (map order_at D), (fun r => row_pdf (nth r D [])), (fun r => row_cdf (nth r D [])).
  split; [apply (table_of X); exact HD|]. split; [exact Hf|]. split; [exact HF|]. intros r Hr. rewrite (rep_npdf' X _ D e HD) in Hr. cbv zeta.
  rewrite (nth_map_in (num_at 0) D r [] [] Hr), (nth_map_in (num_at 1) D r [] [] Hr), (nth_map_in order_at D r 0%nat [] Hr).
  destruct (row_order X n D e r HD Hr) as (K1 & K2 & L). split; [exact K1|]. split; [exact K2|]. intros Ht. rewrite <- L in K2. split.
  - apply row_is_spline; assumption.
  - intros x. unfold row_pdf, row_cdf. apply splint_integral; auto. intros y Hy. apply min_in_list. exact Hy.
Qed.
(** the density between the coefficients *)
Lemma c114_bounds : forall t c k f lo hi, ordered t -> (2 * k + 2 <= length t)%nat -> is_spline t c k f ->
  (forall i, (i < length t - k - 1)%nat -> lo <= nth0 i c <= hi) -> forall x, first_knot t k <= x < last_knot t k -> lo <= f x <= hi.
Proof.
  intros t c k f lo hi Ht Hk (Hf & _) Hc x Hx. rewrite (Hf x Hx). pose proof (splev_bounds t c k Ht Hk x lo hi Hc Hx) as H. rewrite (splev_B t c k Ht Hk x Hx) in H. exact H.
Qed.
(** the cdf: nothing below the base range, everything above it, and in between the integral of the density *)
Lemma c115_shape : forall t k f F, ordered t -> (2 * k + 2 <= length t)%nat -> is_base_integral t k f F ->
  (forall x, x <= first_knot t k -> F x = 0) /\ (forall x, last_knot t k <= x -> F x = F (last_knot t k)) /\
  (forall a b, first_knot t k <= a -> a <= b -> b <= last_knot t k -> is_RInt f a b (F b - F a)).
Proof.
  intros t k f F Ht Hk HF. pose proof (ends_order t k Ht Hk) as He. split; [|split].
  - intros x Hx. pose proof (HF x) as I. replace (clamp (first_knot t k) (last_knot t k) x) with (first_knot t k) in I by clamps.
    apply (is_RInt_unique (V := R_CompleteNormedModule)) in I. rewrite RInt_point in I. symmetry. exact I.
  - intros x Hx. pose proof (HF x) as I. pose proof (HF (last_knot t k)) as J. replace (clamp (first_knot t k) (last_knot t k) x) with (last_knot t k) in I by clamps. replace (clamp (first_knot t k) (last_knot t k) (last_knot t k)) with (last_knot t k) in J by clamps.
    apply (is_RInt_unique (V := R_CompleteNormedModule)) in I, J. congruence.
  - intros a b Ha Hab Hb. pose proof (HF a) as I. pose proof (HF b) as J. replace (clamp (first_knot t k) (last_knot t k) a) with a in I by clamps. replace (clamp (first_knot t k) (last_knot t k) b) with b in J by clamps.
    replace (F b - F a) with (plus (opp (F a)) (F b)) by (unfold plus, opp; simpl; lra). apply (is_RInt_Chasles f a (first_knot t k) b); [|exact J]. apply (is_RInt_swap (V := R_NormedModule)). exact I.
Qed.
(** coefficients without a sign change: a non-negative density in the base range and a non-decreasing cdf *)
Lemma c115_proper : forall t c k f F, ordered t -> (2 * k + 2 <= length t)%nat -> is_spline t c k f -> is_base_integral t k f F ->
  (forall i, (i < length t - k - 1)%nat -> 0 <= nth0 i c) ->
  (forall x, first_knot t k <= x < last_knot t k -> 0 <= f x) /\ (forall x y, x <= y -> F x <= F y) /\ (forall x, 0 <= F x <= F (last_knot t k)).
Proof.
  intros t c k f F Ht Hk Hf HF Hc. pose proof (ends_order t k Ht Hk) as He.
  assert (Hp : forall x, first_knot t k <= x < last_knot t k -> 0 <= f x).
  { intros x Hx. destruct Hf as (Hf & _). rewrite (Hf x Hx). pose proof (splev_nonneg t c k Ht Hk x Hc Hx) as H. rewrite (splev_B t c k Ht Hk x Hx) in H. exact H. }
  destruct (c115_shape t k f F Ht Hk HF) as (S1 & S2 & S3).
  assert (Hm : forall x y, x <= y -> F x <= F y).
  { intros x y Hxy. assert (G : forall a b, first_knot t k <= a -> a <= b -> b <= last_knot t k -> F a <= F b).
    { intros a b Ha Hab Hb. pose proof (S3 a b Ha Hab Hb) as I. pose proof (is_RInt_const (V := R_NormedModule) a b 0) as Z. assert (Q : scal (b - a) 0 <= F b - F a).
      { apply (is_RInt_le (fun _ => 0) f a b); [exact Hab|exact Z|exact I|]. intros z Hz. apply Hp. lra. }
      unfold scal in Q. simpl in Q. unfold mult in Q. simpl in Q. lra. }
    assert (Fc : forall z, F z = F (clamp (first_knot t k) (last_knot t k) z)).
    { intros z. unfold clamp, Rmin, Rmax. destruct (Rle_dec z (first_knot t k)) as [A|A].
      - destruct (Rle_dec (first_knot t k) (last_knot t k)); [|lra]. rewrite (S1 z A), (S1 (first_knot t k)) by lra. reflexivity.
      - destruct (Rle_dec z (last_knot t k)) as [A2|A2]; [reflexivity|]. apply S2. lra. }
    rewrite (Fc x), (Fc y). apply G; clamps. }
  split; [exact Hp|]. split; [exact Hm|]. intros x. split.
  - rewrite <- (S1 (Rmin x (first_knot t k))) by apply Rmin_r. apply Hm. apply Rmin_l.
  - rewrite <- (S2 (Rmax x (last_knot t k))) by apply Rmax_r. apply Hm. apply Rmax_l.
Qed.
