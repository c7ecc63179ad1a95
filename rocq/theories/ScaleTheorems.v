(** Multiplying the values of a PDF by a number changes nothing (C153). *)
From Coq Require Import String List Arith ZArith Bool Lia Reals Lra.
From Verif Require Import Num NumProofs PairwiseProofs Py NdArray NumpyLib Utils ScipyWrap Spec Values Ensemble Classes
  HistPdf InterpPdf QuantPdf MixmodPdf Packing PackedPdf SplinePdf
  SortProofs BinProofs EvalProofs NdProofs InterpProofs HistProofs HistTheorems TableProofs InterpPdfProofs GridTheorems IrrTheorems
  EvalTheorems QuantTheorems MixmodTheorems PackingTheorems PackedTheorems
  Kinds KindProofs EnsembleProofs KindInputs ReachProofs RowProofs EnsembleTheorems IntegrateTheorems ConvertTheorems Profile ProfileTheorems.
Import ListNotations.
Local Open Scope string_scope.
Local Open Scope list_scope.
Local Open Scope R_scope.

(** ** Lists multiplied by a number *)
Definition times (c : R) (l : list R) : list R := map (Rmult c) l.
Lemma times_length c l : length (times c l) = length l. Proof. apply map_length. Qed.
Lemma times_nth c l i : nth0 i (times c l) = c * nth0 i l.
Proof. unfold nth0, times. change (@n0 R RNum) with 0. rewrite <- (Rmult_0_r c) at 1. apply (map_nth (Rmult c)). Qed.
Lemma nsum_times c (l : list R) : nsum (times c l) = c * nsum l.
Proof. induction l as [|x l IH]; [cbn; ring|]. cbn [times map]. fold (times c l). change (c * x + nsum (times c l) = c * (x + nsum l)). rewrite IH. ring. Qed.
Lemma map2_times_l c (l l' : list R) : map2 nmul (times c l) l' = times c (map2 nmul l l').
Proof. revert l'. induction l as [|x l IH]; intros [|y l']; try reflexivity. cbn [times map map2]. fold (times c l). rewrite IH. f_equal. numR. ring. Qed.
Lemma map2_times_r c (l l' : list R) : map2 nmul l (times c l') = times c (map2 nmul l l').
Proof. revert l'. induction l as [|x l IH]; intros [|y l']; try reflexivity. cbn [times map map2]. fold (times c l'). rewrite IH. f_equal. numR. ring. Qed.
Lemma map2_add_times c (l l' : list R) : map2 nadd (times c l) (times c l') = times c (map2 nadd l l').
Proof. revert l'. induction l as [|x l IH]; intros [|y l']; try reflexivity. cbn [times map map2]. fold (times c l) (times c l'). rewrite IH. f_equal. numR. ring. Qed.
Lemma map2_sub_times c (l l' : list R) : map2 nsub (times c l) (times c l') = times c (map2 nsub l l').
Proof. revert l'. induction l as [|x l IH]; intros [|y l']; try reflexivity. cbn [times map map2]. fold (times c l) (times c l'). rewrite IH. f_equal. numR. ring. Qed.
Lemma ncumsum_times c (l : list R) : ncumsum (times c l) = times c (ncumsum l).
Proof.
  assert (G : forall acc, ncumsum_from (c * acc) (times c l) = times c (ncumsum_from acc l)).
  { induction l as [|x l IH]; intros acc; [reflexivity|]. specialize (IH (acc + x)). rewrite Rmult_plus_distr_l in IH. change (c * acc + c * x :: ncumsum_from (c * acc + c * x) (times c l) = c * (acc + x) :: times c (ncumsum_from (acc + x) l)). rewrite IH. f_equal. ring. }
  unfold ncumsum. rewrite <- (G n0). f_equal. numR. ring.
Qed.
Lemma tl_map {A B} (f : A -> B) l : tl (map f l) = map f (tl l). Proof. destruct l; reflexivity. Qed.
Lemma removelast_map {A B} (f : A -> B) l : removelast (map f l) = map f (removelast l).
Proof. induction l as [|x [|y l] IH]; [reflexivity|reflexivity|]. cbn [map removelast] in *. f_equal. exact IH. Qed.
Lemma nlast_times c (l : list R) : nlast (times c l) = c * nlast l.
Proof. rewrite !nlast_nth0, times_length. apply times_nth. Qed.
Lemma div_times c (l : list R) s : c <> 0 -> map (fun y => y / (c * s)) (times c l) = map (fun y => y / s) l.
Proof. intros Hc. unfold times. rewrite map_map. apply map_ext. intros y. unfold Rdiv. rewrite Rinv_mult. replace (c * y * (/ c * / s)) with ((c * / c) * (y * / s)) by ring. rewrite Rinv_r by exact Hc. ring. Qed.
Lemma div_by_times c (l : list R) s : map (fun y => y / (c * s)) l = times (/ c) (map (fun y => y / s) l).
Proof. unfold times. rewrite map_map. apply map_ext. intros y. unfold Rdiv. rewrite Rinv_mult. ring. Qed.
Lemma times_times c c' l : times c (times c' l) = times (c * c') l.
Proof. unfold times. rewrite map_map. apply map_ext. intros x. ring. Qed.
Lemma times_1 l : times 1 l = l.
Proof. unfold times. rewrite <- (map_id l) at 2. apply map_ext. intros x. ring. Qed.

(** ** Values times a constant *)
Lemma hist_norm_times c w row : c <> 0 -> hist_norm_row w (times c row) = hist_norm_row w row.
Proof. intros Hc. unfold hist_norm_row. rewrite map2_times_l, !npsum_R, nsum_times. exact (div_times c row _ Hc). Qed.
Lemma ycumul_times c xs row : ycumul_row xs (times c row) = times c (ycumul_row xs row).
Proof.
  unfold ycumul_row, trapezoids. cbn [times map]. fold (times c (ncumsum (map2 nmul (map (fun d => nmul d nhalf) (ndiff xs)) (map2 nadd (tl row) (removelast row))))).
  f_equal; [rewrite (times_nth c row 0); numR; ring|]. unfold times at 1 2. rewrite tl_map, removelast_map. fold (times c (tl row)) (times c (removelast row)). rewrite map2_add_times, map2_times_r, ncumsum_times. reflexivity.
Qed.
Lemma inorm_times c xs row : c <> 0 -> inorm xs (times c row) = inorm xs row.
Proof. intros Hc. unfold inorm. rewrite ycumul_times, nlast_times. exact (div_times c row _ Hc). Qed.
Lemma icum_times c xs row : c <> 0 -> icum xs (times c row) = icum xs row.
Proof. intros Hc. unfold icum. rewrite ycumul_times, nlast_times. exact (div_times c _ _ Hc). Qed.
Lemma right_rect_times c xs ys : right_rect_terms xs (times c ys) = times c (right_rect_terms xs ys).
Proof. unfold right_rect_terms. unfold times at 1 2. rewrite !tl_map. fold (times c (tl ys)). rewrite !map2_times_r. apply map2_sub_times. Qed.
Lemma irr_norm_times c xs ys : c <> 0 -> normalize_interp1d_row xs (times c ys) = normalize_interp1d_row xs ys.
Proof. intros Hc. unfold normalize_interp1d_row. rewrite right_rect_times, !npsum_R, nsum_times. exact (div_times c ys _ Hc). Qed.

(** The same input with the values (weights) of each PDF multiplied by a number of its own *)
Definition scaled (c : list R) (i : input) : input :=
  match i with
  | IHist bins rows => IHist bins (map2 times c rows)
  | IInterp xs rows => IInterp xs (map2 times c rows)
  | IIrr n xr yr => IIrr n xr (map2 times c yr)
  | IMix n means stds weights => IMix n means stds (map2 times c weights)
  | other => other
  end.
Lemma map2_len {A B C} (f : A -> B -> C) : forall l l', length l = length l' -> length (map2 f l l') = length l'.
Proof. induction l as [|x l IH]; intros [|y l'] H; try discriminate; [reflexivity|]. cbn [map2 length]. f_equal. apply IH. simpl in H. lia. Qed.
Lemma in_map2 {A B C} (f : A -> B -> C) : forall l l' z, In z (map2 f l l') -> exists x y, In x l /\ In y l' /\ z = f x y.
Proof.
  induction l as [|x l IH]; intros [|y l'] z H; try (destruct H). { exists x, y. simpl. auto. }
  destruct (IH _ _ H) as (x' & y' & Hx & Hy & ->). exists x', y'. simpl. auto.
Qed.
Lemma map_map2_same {A B C D} (g : C -> D) (f : A -> B -> C) (h : B -> D) : forall l l', length l = length l' -> (forall x y, In x l -> In y l' -> g (f x y) = h y) -> map g (map2 f l l') = map h l'.
Proof.
  induction l as [|x l IH]; intros [|y l'] E H; try discriminate; [reflexivity|]. cbn [map2 map]. f_equal; [apply H; left; reflexivity|].
  apply IH; [simpl in E; lia|]. intros; apply H; right; assumption.
Qed.
Lemma ne_len {A B} (l : list A) (l' : list B) : length l = length l' -> l' <> [] -> l <> [].
Proof. destruct l, l'; simpl; congruence. Qed.
Lemma at2_map2 c rows r i : length c = length rows -> (r < length rows)%nat -> at2 (map2 times c rows) r i = nth0 r c * at2 rows r i.
Proof.
  intros E H. unfold at2. change (nth r (map2 times c rows) []) with (nth r (map2 times c rows) []). rewrite (map2_nth times c rows r 0 []) by lia. apply times_nth.
Qed.
Lemma rsum_scal n c f : rsum n (fun i => c * f i) = c * rsum n f.
Proof. induction n; cbn [rsum]; [ring|]. rewrite IHn. ring. Qed.
Lemma scaled_ok c i : KindInputs.input_ok i -> length c = input_npdf i -> (forall a, In a c -> 0 < a) -> KindInputs.input_ok (scaled c i).
Proof.
  intros Hi Hc Hp. destruct i; cbn [scaled KindInputs.input_ok input_npdf] in *; try exact Hi.
  - destruct Hi as (H1 & H2 & H3 & H4). split; [exact H1|]. split; [exact H2|]. split; [apply (ne_len _ rows); [apply map2_len; exact Hc|exact H3]|].
    intros row Hr. destruct (in_map2 _ _ _ _ Hr) as (a & y & Ha & Hy & ->). destruct (H4 y Hy) as (L & P & Q). specialize (Hp a Ha). rewrite times_length. split; [exact L|].
    split; [intros j Hj; rewrite times_nth; specialize (P j Hj); nra|]. rewrite (rsum_ext _ _ (fun j => a * (nth0 j y * (nth0 (S j) bins - nth0 j bins)))) by (intros j _; rewrite times_nth; ring). rewrite rsum_scal. nra.
  - destruct Hi as (H1 & H2 & H3 & H4). split; [exact H1|]. split; [exact H2|]. split; [apply (ne_len _ rows); [apply map2_len; exact Hc|exact H3]|].
    intros row Hr. destruct (in_map2 _ _ _ _ Hr) as (a & y & Ha & Hy & ->). destruct (H4 y Hy) as (L & P & Q). specialize (Hp a Ha). rewrite times_length. split; [exact L|].
    split; [intros j Hj; rewrite times_nth; specialize (P j Hj); nra|]. rewrite (rsum_ext _ _ (fun j => a * ((nth0 (S j) xs - nth0 j xs) * (nth0 j y + nth0 (S j) y) / 2))) by (intros j _; rewrite !times_nth; field). rewrite rsum_scal. nra.
  - destruct Hi as (H1 & H2 & H3 & H4 & H5 & H6). split; [exact H1|]. split; [exact H2|]. rewrite <- H3 in Hc. split; [rewrite map2_len by exact Hc; exact H3|]. split; [exact H4|]. split.
    + intros ys Hr. destruct (in_map2 _ _ _ _ Hr) as (a & y & Ha & Hy & ->). destruct (H5 y Hy) as (L & P). specialize (Hp a Ha). rewrite times_length. split; [exact L|]. intros j Hj. rewrite times_nth. specialize (P j Hj). nra.
    + intros r Hr. rewrite (rsum_ext _ _ (fun j => nth0 r c * ((at2 xr r (S j) - at2 xr r j) * at2 yr r (S j)))) by (intros j _; rewrite at2_map2 by lia; ring). rewrite rsum_scal.
      specialize (H6 r Hr). assert (0 < nth0 r c) by (apply Hp, nth_In; lia). nra.
  - destruct Hi as (H1 & H2 & H3 & H4 & H5 & H6 & H7 & H8 & H9 & H10). rewrite <- H4 in Hc. split; [exact H1|]. split; [exact H2|]. split; [exact H3|]. split; [rewrite map2_len by exact Hc; exact H4|]. split; [exact H5|]. split; [exact H6|]. split.
    { intros l Hl. destruct (in_map2 _ _ _ _ Hl) as (a & y & Ha & Hy & ->). rewrite times_length. apply H7. exact Hy. } split; [exact H8|]. split.
    + intros r j Hr Hj. rewrite at2_map2 by lia. assert (0 < nth0 r c) by (apply Hp, nth_In; lia). specialize (H9 r j Hr Hj). nra.
    + intros r Hr. rewrite (rsum_ext _ _ (fun j => nth0 r c * at2 weights r j)) by (intros j _; rewrite at2_map2 by lia; ring). rewrite rsum_scal. assert (0 < nth0 r c) by (apply Hp, nth_In; lia). apply Rmult_lt_0_compat; [assumption|exact (H10 r Hr)].
Qed.
Lemma map2_map2_r {A B C D} (f : A -> B -> C) (s : D -> B -> B) : forall c l l', length c = length l' -> (forall x a y, In a c -> f x (s a y) = f x y) -> map2 f l (map2 s c l') = map2 f l l'.
Proof.
  induction c as [|a c IH]; intros l [|y l'] E H; try discriminate; [destruct l; reflexivity|]. destruct l as [|x l]; [reflexivity|]. cbn [map2]. f_equal; [apply H; left; reflexivity|].
  apply IH; [simpl in E; lia|]. intros; apply H; right; assumption.
Qed.
Lemma map2_map2_l {A B C D} (f : A -> B -> C) (s : D -> A -> A) : forall c l l', length c = length l -> (forall x a y, In a c -> f (s a x) y = f x y) -> map2 f (map2 s c l) l' = map2 f l l'.
Proof.
  induction c as [|a c IH]; intros [|x l] l' E H; try discriminate; [reflexivity|]. destruct l' as [|y l']; [reflexivity|]. cbn [map2]. f_equal; [apply H; left; reflexivity|].
  apply IH; [simpl in E; lia|]. intros; apply H; right; assumption.
Qed.
Lemma scaled_rows c i : KindInputs.input_ok i -> length c = input_npdf i -> (forall a, In a c -> 0 < a) -> input_rows (scaled c i) = input_rows i.
Proof.
  intros Hi Hc Hp. assert (Hz : forall a, In a c -> a <> 0) by (intros a Ha; specialize (Hp a Ha); lra). destruct i; cbn [scaled input_rows input_npdf KindInputs.input_ok] in *; try reflexivity.
  - apply map_map2_same; [exact Hc|]. intros a y Ha _. rewrite hist_norm_times by auto. reflexivity.
  - apply map_map2_same; [exact Hc|]. intros a y Ha _. rewrite inorm_times by auto. reflexivity.
  - destruct Hi as (_ & _ & H & _). apply map2_map2_r; [lia|]. intros x a y Ha. rewrite irr_norm_times by auto. reflexivity.
  - destruct Hi as (_ & _ & _ & H & _). apply map2_map2_l; [lia|]. intros x a y Ha. rewrite nsum_times. do 2 f_equal. exact (div_times a x _ (Hz a Ha)).
Qed.
(** the classes whose constructor normalises *)
Definition scalable (i : input) : Prop := match i with IHist _ _ | IInterp _ _ | IIrr _ _ _ | IMix _ _ _ _ => True | _ => False end.
(** C153 *)
Lemma c153_scale : forall X i c, fill_outside X -> KindInputs.input_ok i -> scalable i -> length c = input_npdf i -> (forall a, In a c -> 0 < a) ->
  exists e e', ens_new (create_of (qp X) (input_name i)) (input_dict i) None = Ok e /\ ens_new (create_of (qp X) (input_name i)) (input_dict (scaled c i)) None = Ok e' /\ identical e' e.
Proof.
  intros X i c HX Hi Hs Hc Hp. assert (Hq : is_quant (input_kind i) = false) by (destruct i; try destruct Hs; reflexivity). destruct (created X i HX Hi) as (e & E & _ & HD & _).
  destruct (ConvertTheorems.same_rows X (input_kind i) (input_rows i) e (scaled c i) HX HD Hq (scaled_ok c i Hi Hc Hp)) as (e' & E' & _ & Hid);
    [destruct i; reflexivity|apply scaled_rows; assumption|].
  exists e, e'. split; [exact E|]. split; [|exact Hid]. rewrite <- E'. destruct i; reflexivity.
Qed.

(** ** Example *)
Lemma c153_example : exists X i c, fill_outside X /\ KindInputs.input_ok i /\ scalable i /\ length c = input_npdf i /\ (forall a, In a c -> 0 < a) /\ input_npdf i = 2%nat /\ c = [2; 3].
Proof.
  exists scipy0, (IInterp [0; 1; 3] [[1; 1; 0]; [2; 0; 2]]), [2; 3]. split; [exact scipy0_fill|]. split.
  { split; [repeat constructor; lra|]. split; [simpl; lia|]. split; [discriminate|]. intros row [<-|[<-|[]]]; (split; [reflexivity|]; split; [intros [|[|[|j]]] Hj; unfold nth0; simpl in *; try lra; lia|unfold nth0; simpl; lra]). }
  split; [exact I|]. split; [reflexivity|]. split; [intros a [<-|[<-|[]]]; lra|]. split; reflexivity.
Qed.
