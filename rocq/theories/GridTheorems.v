(** Piecewise-linear ensembles: assembled facts. *)
From Coq Require Import List Arith ZArith QArith Bool Sorted Lia Reals Lra Psatz.
From Coquelicot Require Import Coquelicot.
From Verif Require Import Num NumProofs Py NdArray NumpyLib Utils ScipyWrap Spec InterpPdf
  SortProofs EvalProofs NdProofs InterpProofs IntegralProofs BinProofs HistProofs HistTheorems TableProofs InterpPdfProofs.
Import ListNotations.
Local Open Scope R_scope.

(** ** Shared grid *)
(** Legal input: strictly increasing grid of at least two points, at least one PDF,
    non-negative values with positive area under the straight-line interpolation. *)
Definition interp_input (xs : list R) (rows : list (list R)) : Prop :=
  increasing xs /\ (2 <= length xs)%nat /\ rows <> [] /\
  forall row, In row rows ->
    length row = length xs /\ (forall i, (i < length row)%nat -> 0 <= nth0 i row) /\
    0 < rsum (pred (length xs)) (fun i => (nth0 (S i) xs - nth0 i xs) * (nth0 i row + nth0 (S i) row) / 2).

Definition inorm (xs row : list R) : list R := map (fun y => y / nlast (ycumul_row xs row)) row.
Definition icum (xs row : list R) : list R := map (fun y => y / nlast (ycumul_row xs row)) (ycumul_row xs row).

Lemma map2_map_r2 {A B C} (f : A -> B -> C) (g : A -> B) l : map2 f l (map g l) = map (fun a => f a (g a)) l.
Proof. induction l; simpl; auto. f_equal; auto. Qed.

Lemma interp_init_build xs rows chk : (2 <= length xs)%nat -> (forall row, In row rows -> length row = length xs) ->
  interp_init xs (nd2 (length xs) rows) chk =
  Ok (if chk then mkinterp xs (map (inorm xs) rows) (map (icum xs) rows) [length rows]
      else mkinterp xs rows (map (ycumul_row xs) rows) [length rows] : interp R).
Proof.
  intros H2 Hr. unfold interp_init. change (last (shp (nd2 (length xs) rows)) 0%nat) with (length xs).
  rewrite Nat.eqb_refl. cbn [negb].
  replace (Nat.eqb (length xs) 0) with false by (symmetry; apply Nat.eqb_neq; lia). replace (Nat.eqb (length xs) 1) with false by (symmetry; apply Nat.eqb_neq; lia). rewrite reshape_nd2 by auto. cbn [bind]. rewrite rows_of_nd2 by auto.
  destruct chk; auto. rewrite map2_map_r2, map_map. reflexivity.
Qed.

(** Normalising a second time changes nothing. *)
Lemma trapezoids_scaled s xs (row : list R) :
  trapezoids xs (map (fun y => y / s) row) = map (fun y => y / s) (trapezoids xs row).
Proof.
  unfold trapezoids. rewrite tl_map, removelast_map.
  assert (E : forall l l' : list R, map2 nadd (map (fun y => y / s) l) (map (fun y => y / s) l') = map (fun y => y / s) (map2 nadd l l')).
  { induction l; intros [|b l']; simpl; auto. f_equal; auto. unfold Rdiv. ring. }
  assert (F : forall l l' : list R, map2 nmul l (map (fun y => y / s) l') = map (fun y => y / s) (map2 nmul l l')).
  { induction l; intros [|b l']; simpl; auto. f_equal; auto. unfold Rdiv. ring. }
  rewrite E, F. reflexivity.
Qed.
Lemma ncumsum_scaled s (l : list R) : ncumsum (map (fun y => y / s) l) = map (fun y => y / s) (ncumsum l).
Proof.
  unfold ncumsum. change (n0 (T := R)) with 0.
  assert (G : forall (l : list R) a, ncumsum_from (a / s) (map (fun y => y / s) l) = map (fun y => y / s) (ncumsum_from a l)).
  { clear l. induction l; intros b; auto. cbn [map ncumsum_from]. rewrite <- IHl. simpl.
    replace (b / s + a / s) with ((b + a) / s) by (unfold Rdiv; ring). reflexivity. }
  rewrite <- G. do 2 f_equal. unfold Rdiv. ring.
Qed.
Lemma ycumul_scaled s xs (row : list R) :
  ycumul_row xs (map (fun y => y / s) row) = map (fun y => y / s) (ycumul_row xs row).
Proof.
  unfold ycumul_row. cbn [map]. f_equal.
  - rewrite nth0_map_div. simpl. unfold Rdiv. ring.
  - rewrite trapezoids_scaled. apply ncumsum_scaled.
Qed.
Lemma nlast_scaled s (l : list R) : nlast (map (fun y => y / s) l) = nlast l * / s.
Proof. rewrite !nlast_nth0, map_length, nth0_map_div. reflexivity. Qed.
Lemma inorm_twice xs row : inorm xs (inorm xs row) = inorm xs row.
Proof. unfold inorm at 1. unfold inorm at 1. rewrite ycumul_scaled, nlast_scaled. apply scaled_twice. Qed.
Lemma icum_inorm xs row : icum xs (inorm xs row) = icum xs row.
Proof. unfold icum at 1. unfold inorm. rewrite ycumul_scaled, nlast_scaled. apply scaled_twice. Qed.
Lemma inorm_length xs row : length (inorm xs row) = length row.
Proof. apply map_length. Qed.

(** The frozen object is normalised whatever [check_input] was. *)
Lemma interp_build xs rows chk : (2 <= length xs)%nat -> (forall row, In row rows -> length row = length xs) ->
  interp_ctor xs (nd2 (length xs) rows) chk =
  Ok (mkinterp xs (map (inorm xs) rows) (map (icum xs) rows) [length rows] : interp R).
Proof.
  intros H2 Hr. unfold interp_ctor. rewrite interp_init_build by auto. cbn [bind]. unfold interp_freeze.
  destruct chk; cbn [i_xvals i_yvals i_shape].
  - rewrite interp_init_build; auto.
    + cbn [bind i_xvals i_yvals i_cumul]. rewrite !map_map.
      do 2 f_equal; apply map_ext; intros row; [apply inorm_twice|apply icum_inorm].
    + intros row H. apply in_map_iff in H. destruct H as (r & <- & H). rewrite inorm_length. auto.
  - rewrite interp_init_build by auto. reflexivity.
Qed.

Section Built.
  Variables (xs : list R) (rows : list (list R)) (i : interp R).
  Hypothesis Hi : interp_input xs rows.
  Hypothesis E : interp_ctor xs (nd2 (length xs) rows) true = Ok i.
  Let Hs : increasing xs := proj1 Hi.
  Let Hn : (2 <= length xs)%nat := proj1 (proj2 Hi).
  Lemma i_eq : i = mkinterp xs (map (inorm xs) rows) (map (icum xs) rows) [length rows].
  Proof. pose proof Hi as (_ & H2 & _ & Hr). rewrite interp_build in E; [|exact H2|intros; apply Hr; auto]. injection E as <-. auto. Qed.
  Lemma i_rows : (0 < length rows)%nat.
  Proof. pose proof (proj1 (proj2 (proj2 Hi))) as Hne. destruct (length rows) eqn:L; [apply length_zero_iff_nil in L; congruence|lia]. Qed.
  Lemma i_np : i_npdf i = length rows.
  Proof. rewrite i_eq. unfold i_npdf. cbn [i_yvals]. apply map_length. Qed.

  Variable r : nat.
  Hypothesis Hr : (r < length rows)%nat.
  Definition irow : list R := nth r rows [].
  Lemma irow_in : In irow rows. Proof. apply nth_In; auto. Qed.
  Lemma irow_len : length irow = length xs.
  Proof. pose proof Hi as (_ & _ & _ & H). apply (H irow irow_in). Qed.
  Lemma irow_pos : forall k, (k < length irow)%nat -> 0 <= nth0 k irow.
  Proof. pose proof Hi as (_ & _ & _ & H). apply (H irow irow_in). Qed.
  Lemma irow_area : 0 < area xs irow.
  Proof. pose proof Hi as (_ & _ & _ & H). apply (H irow irow_in). Qed.
  Lemma irow_last : nlast (ycumul_row xs irow) = area xs irow.
  Proof. apply yc_last; auto. apply irow_len. Qed.
  Lemma inorm_nth k : nth0 k (inorm xs irow) = nth0 k irow / area xs irow.
  Proof. unfold inorm. rewrite nth0_map_div, irow_last. auto. Qed.
  Lemma inorm_len : length (inorm xs irow) = length xs.
  Proof. unfold inorm. rewrite map_length. apply irow_len. Qed.
  Lemma trap_norm k : trap xs (inorm xs irow) k = trap xs irow k / area xs irow.
  Proof. unfold trap. rewrite !inorm_nth. pose proof irow_area. field. lra. Qed.
  Lemma sum_trap_norm j : rsum j (trap xs (inorm xs irow)) = rsum j (trap xs irow) / area xs irow.
  Proof.
    unfold Rdiv. rewrite <- rsum_scale. apply rsum_ext. intros. apply trap_norm.
  Qed.
  Lemma icum_len : length (icum xs irow) = length xs.
  Proof. unfold icum. rewrite map_length. apply yc_length; auto. apply irow_len. Qed.
  Lemma icum_S j : (S j < length xs)%nat -> nth0 (S j) (icum xs irow) = rsum (S j) (trap xs (inorm xs irow)).
  Proof.
    intros. unfold icum. rewrite nth0_map_div, irow_last, yc_S by (auto; apply irow_len).
    rewrite sum_trap_norm. auto.
  Qed.
  Lemma icum_0 : nth0 0 (icum xs irow) = (nth0 1 xs - nth0 0 xs) * nth0 0 (inorm xs irow) / 2.
  Proof.
    unfold icum. rewrite nth0_map_div, irow_last, yc_0 by auto. rewrite inorm_nth. unfold first_step.
    pose proof irow_area. field. lra.
  Qed.
  Lemma icum_0_nonneg : 0 <= nth0 0 (icum xs irow).
  Proof.
    unfold icum. rewrite nth0_map_div, irow_last, yc_0 by auto.
    assert (0 <= first_step xs irow) by (apply first_step_nonneg; auto; [apply irow_len|apply irow_pos]).
    apply Rmult_le_pos; auto. apply Rlt_le, Rinv_0_lt_compat, irow_area.
  Qed.
  Lemma icum_last : nlast (icum xs irow) = 1.
  Proof. unfold icum. rewrite nlast_map_div, irow_last. pose proof irow_area. field. lra. Qed.
  Lemma icum_nondec : nondecreasing (icum xs irow).
  Proof.
    unfold icum. rewrite irow_last. apply nondec_map_div; [apply irow_area|].
    apply yc_nondec; auto; [apply irow_len|apply irow_pos].
  Qed.
  Lemma inorm_pos k : (k < length xs)%nat -> 0 <= nth0 k (inorm xs irow).
  Proof.
    intros. rewrite inorm_nth. apply Rmult_le_pos; [apply irow_pos; rewrite irow_len; auto|].
    apply Rlt_le, Rinv_0_lt_compat, irow_area.
  Qed.
  Lemma total_one : rsum (pred (length xs)) (trap xs (inorm xs irow)) = 1.
  Proof. rewrite sum_trap_norm. fold (area xs irow). pose proof irow_area. field. lra. Qed.

  Definition iF (x : R) : R := tF xs (icum xs irow) x.
  Definition iQ (p : R) : R := tQ xs (icum xs irow) (nhead xs) (nlast xs) p.
  Definition if_ (x : R) : R := pl xs (inorm xs irow) x.
End Built.

Lemma interp_pdf_dispatches i : increasing (i_xvals i) -> (2 <= length (i_xvals i))%nat ->
  dispatches (fun x r => interp1d (i_xvals i) (nth r (i_yvals i) []) 0 0 x) (i_npdf i) (interp_pdf i).
Proof.
  intros Hs Hn.
  refine (x_multi_y_dispatches (fun xs ys => interp1d xs ys n0 n0) (fun xs ys => interp1d_nd xs ys n0 n0) _ _ _).
  intros. symmetry. apply interp1d_nd_eq; auto.
Qed.
Lemma interp_cdf_dispatches i : increasing (i_xvals i) -> (2 <= length (i_xvals i))%nat -> i_npdf i = length (i_cumul i) ->
  dispatches (fun x r => interp1d (i_xvals i) (nth r (i_cumul i) []) 0 1 x) (i_npdf i) (interp_cdf i).
Proof.
  intros Hs Hn Hk. rewrite Hk.
  refine (x_multi_y_dispatches (fun xs ys => interp1d xs ys n0 n1) (fun xs ys => interp1d_nd xs ys n0 n1) _ _ _).
  intros. symmetry. apply interp1d_nd_eq; auto.
Qed.
Lemma interp_ppf_dispatches i :
  dispatches (fun x r => interp1d (nth r (i_cumul i) []) (i_xvals i) (nhead (i_xvals i)) (nlast (i_xvals i)) x)
             (i_npdf i) (interp_ppf i).
Proof. apply (multi_x_y_dispatches (fun xs ys => interp1d xs ys (nhead (i_xvals i)) (nlast (i_xvals i))) _ _). Qed.

Lemma interp_evals xs rows i : interp_input xs rows -> interp_ctor xs (nd2 (length xs) rows) true = Ok i ->
  evaluates (interp_ens_pdf i) (length rows) (if_ xs rows) /\
  evaluates (interp_ens_cdf i) (length rows) (iF xs rows) /\
  evaluates_on 0 1 (interp_ens_ppf i) (length rows) (iQ xs rows).
Proof.
  intros Hi E. pose proof (i_eq xs rows i Hi E) as Ei. pose proof (i_np xs rows i Hi E) as En.
  pose proof (i_rows xs rows Hi) as Hp. pose proof Hi as (Hs & Hn & _).
  rewrite <- En in *. repeat split.
  - intros x. unfold interp_ens_pdf, rv_pdf.
    rewrite (rv_eval_scalar _ _ _ _ _ _ (interp_pdf_dispatches i ltac:(rewrite Ei; auto) ltac:(rewrite Ei; auto))) by auto.
    f_equal. apply map_seq_ext. intros r Hr. rewrite Ei in Hr |- *. cbn [i_xvals i_yvals].
    unfold i_npdf in Hr. cbn [i_yvals] in Hr. rewrite map_length in Hr.
    rewrite nth_map_in with (d' := []) by auto. reflexivity.
  - intros x. unfold interp_ens_cdf, rv_cdf.
    rewrite (rv_eval_scalar _ _ _ _ _ _ (interp_cdf_dispatches i ltac:(rewrite Ei; auto) ltac:(rewrite Ei; auto)
       ltac:(rewrite Ei; unfold i_npdf; cbn [i_yvals i_cumul]; rewrite !map_length; auto))) by auto.
    f_equal. apply map_seq_ext. intros r Hr. rewrite Ei in Hr |- *. cbn [i_xvals i_cumul].
    unfold i_npdf in Hr. cbn [i_yvals] in Hr. rewrite map_length in Hr.
    rewrite nth_map_in with (d' := []) by auto. reflexivity.
  - intros x Hx. unfold interp_ens_ppf, rv_ppf.
    rewrite (rv_eval_scalar _ _ _ _ _ _ (interp_ppf_dispatches i)); auto.
    + f_equal. apply map_seq_ext. intros r Hr. rewrite Ei in Hr |- *. cbn [i_xvals i_cumul].
      unfold i_npdf in Hr. cbn [i_yvals] in Hr. rewrite map_length in Hr.
      rewrite nth_map_in with (d' := []) by auto. reflexivity.
    + numR. destruct (nltb_reflect 0 x); [|lra]. destruct (nltb_reflect x 1); [auto|lra].
Qed.

Lemma c08 : forall xs rows, interp_input xs rows ->
  exists i, interp_ctor xs (nd2 (length xs) rows) true = Ok i /\
  exists f, evaluates (interp_ens_pdf i) (length rows) f /\
    forall r, (r < length rows)%nat ->
      (forall x, 0 <= f r x) /\
      is_RInt (f r) (nth0 0 xs) (nlast xs) 1 /\
      (forall x, x < nth0 0 xs \/ nlast xs < x -> f r x = 0) /\
      (exists k, 0 < k /\ forall j, (j < length xs)%nat -> f r (nth0 j xs) = k * at2 rows r j) /\
      (forall j x, (S j < length xs)%nat -> nth0 j xs <= x <= nth0 (S j) xs ->
         f r x * (nth0 (S j) xs - nth0 j xs) = f r (nth0 j xs) * (nth0 (S j) xs - x) + f r (nth0 (S j) xs) * (x - nth0 j xs)).
Proof.
  intros xs rows Hi. eexists. split; [apply interp_build; [apply Hi|intros; apply Hi; auto]|].
  match goal with |- exists f, evaluates (interp_ens_pdf ?o) _ _ /\ _ => set (i := o) end.
  assert (E : interp_ctor xs (nd2 (length xs) rows) true = Ok i) by (apply interp_build; [apply Hi|intros; apply Hi; auto]).
  pose proof Hi as (Hs & Hn & _).
  exists (if_ xs rows). split; [apply interp_evals; auto|].
  intros r Hr.
  assert (Hlt : nth0 0 xs < nlast xs) by (rewrite nlast_nth0; apply inc_lt; auto; lia).
  repeat split.
  - intros x. unfold if_, pl.
    destruct (Rlt_le_dec x (nth0 0 xs)); [rewrite interp1d_below by auto; lra|].
    destruct (Rlt_le_dec (nlast xs) x); [rewrite interp1d_above by (auto; lra); lra|].
    destruct (segment_exists_closed xs x) as (j & Hj & Hx); auto; [apply inc_nd; auto|].
    rewrite (interp1d_closed _ _ _ _ _ j) by auto.
    apply seg_ge; auto; try (apply inorm_pos; auto; lia). apply inc_lt; auto; lia.
  - rewrite nlast_nth0, <- (total_one xs rows Hi r Hr). apply pl_integral_knot; auto. lia.
  - intros x [Hx|Hx]; [apply interp1d_below; auto|apply interp1d_above; auto; lra].
  - exists (/ area xs (irow rows r)). split; [apply Rinv_0_lt_compat, irow_area; auto|].
    intros j Hj. unfold if_, pl. rewrite interp1d_knot by auto. rewrite (inorm_nth xs rows Hi) by auto.
    unfold at2, irow. unfold Rdiv. ring.
  - intros j x Hj Hx. unfold if_, pl. rewrite !interp1d_knot by (auto; lia).
    rewrite (interp1d_closed _ _ _ _ _ j) by auto. unfold seg.
    assert (nth0 j xs < nth0 (S j) xs) by (apply inc_lt; auto; lia). field. lra.
Qed.

Lemma interp_input_example : interp_input [0; 1; 3] [[1; 2; 0]; [0; 5; 5]].
Proof.
  repeat split.
  - repeat constructor; lra.
  - simpl; lia.
  - discriminate.
  - destruct H as [<-|[<-|[]]]; auto.
  - destruct H as [<-|[<-|[]]]; intros [|[|[|k]]] Hi; unfold nth0; simpl in *; try lra; lia.
  - destruct H as [<-|[<-|[]]]; unfold nth0; simpl; lra.
Qed.

Lemma c09 : forall xs rows i, interp_input xs rows ->
  interp_ctor xs (nd2 (length xs) rows) true = Ok i ->
  exists f F, evaluates (interp_ens_pdf i) (length rows) f /\ evaluates (interp_ens_cdf i) (length rows) F /\
    forall r, (r < length rows)%nat ->
      (forall x y, x <= y -> F r x <= F r y) /\
      (forall x, 0 <= F r x <= 1) /\
      (forall x, x < nth0 0 xs -> F r x = 0) /\
      (forall x, nlast xs <= x -> F r x = 1) /\
      (forall j, (1 <= j < length xs)%nat -> is_RInt (f r) (nth0 0 xs) (nth0 j xs) (F r (nth0 j xs))) /\
      F r (nth0 0 xs) = f r (nth0 0 xs) * (nth0 1 xs - nth0 0 xs) / 2 /\
      (forall j x, (1 <= j)%nat -> (S j < length xs)%nat -> nth0 j xs <= x <= nth0 (S j) xs ->
         exists v, is_RInt (f r) (nth0 0 xs) x v /\
           Rabs (F r x - v) <= Rabs (f r (nth0 (S j) xs) - f r (nth0 j xs)) * (nth0 (S j) xs - nth0 j xs) / 8).
Proof.
  intros xs rows i Hi E. pose proof Hi as (Hs & Hn & _).
  exists (if_ xs rows), (iF xs rows). destruct (interp_evals xs rows i Hi E) as (Ep & Ec & _).
  split; auto. split; auto. intros r Hr.
  assert (Hk : forall j, (1 <= j < length xs)%nat -> iF xs rows r (nth0 j xs) = rsum j (trap xs (inorm xs (irow rows r)))).
  { intros j Hj. unfold iF. rewrite tF_knot by (auto; try lia). destruct j; [lia|]. apply (icum_S xs rows Hi); auto. lia. }
  assert (Hcl := icum_len xs rows Hi r Hr). assert (Hcn := icum_nondec xs rows Hi r Hr).
  assert (Hc0 := icum_0_nonneg xs rows Hi r Hr). assert (Hc1 := icum_last xs rows Hi r Hr).
  repeat split.
  - intros. apply tF_mono; auto.
  - apply tF_range; auto.
  - apply tF_range; auto.
  - intros. apply tF_below; auto.
  - intros. apply tF_above; auto.
  - intros j Hj. rewrite Hk by auto. apply pl_integral_knot; auto. lia.
  - unfold iF. rewrite tF_knot by (auto; lia). rewrite icum_0 by auto. unfold if_, pl.
    rewrite interp1d_knot by (auto; lia). field.
  - intros j x Hj HSj Hx.
    eexists. split; [apply (pl_integral xs (inorm xs (irow rows r)) Hs Hn j x HSj Hx)|].
    unfold iF, tF. rewrite (interp1d_closed _ _ _ _ _ j) by auto.
    destruct j as [|j]; [lia|]. rewrite !(icum_S xs rows Hi r Hr) by lia.
    set (m := S j) in *. cbn [rsum]. unfold if_, pl. rewrite !interp1d_knot by (auto; lia).
    assert (Hd : nth0 m xs < nth0 (S m) xs) by (apply inc_lt; auto; lia).
    set (ys := inorm xs (irow rows r)) in *.
    unfold seg, slope. set (x0 := nth0 m xs) in *. set (x1 := nth0 (S m) xs) in *.
    set (y0 := nth0 m ys). set (y1 := nth0 (S m) ys).
    assert (Et : trap xs ys m = (x1 - x0) * (y0 + y1) / 2) by reflexivity.
    match goal with |- Rabs (?a) <= _ => replace a with ((y1 - y0) * ((x - x0) * (x1 - x) / (2 * (x1 - x0)))) end.
    2:{ change (rsum (S j)) with (rsum m). change (rsum j (trap xs ys) + trap xs ys j) with (rsum m (trap xs ys)).
        rewrite Et. field. lra. }
    rewrite Rabs_mult. unfold Rdiv at 2. rewrite Rmult_assoc. apply Rmult_le_compat_l; [apply Rabs_pos|].
    assert (Hq : (x - x0) * (x1 - x) / (2 * (x1 - x0)) <= (x1 - x0) * / 8).
    { apply Rmult_le_reg_r with (8 * (x1 - x0)); [lra|]. field_simplify; [|lra].
      assert (0 <= (x - x0 - (x1 - x)) * (x - x0 - (x1 - x))) by (apply Rle_0_sqr). nra. }
    rewrite Rabs_right; auto. apply Rle_ge. apply Rmult_le_pos; [apply Rmult_le_pos; lra|].
    apply Rlt_le, Rinv_0_lt_compat. lra.
Qed.

Lemma c09_refuted :
  exists (xs : list Q) (rows : list (list Q)) (i : interp Q),
    interp_ctor xs (nd2 3 rows) true = Ok i /\
    interp_ens_cdf i (PScalar (nth 0 xs 0%Q)) = Ok [[Fin (1 # 4)%Q]].
Proof.
  exists [0; 1; 2]%Q, [[1; 1; 1]]%Q. eexists. split; [reflexivity|]. vm_compute. reflexivity.
Qed.

Lemma c10 : forall xs rows i, interp_input xs rows ->
  interp_ctor xs (nd2 (length xs) rows) true = Ok i ->
  exists F Q, evaluates (interp_ens_cdf i) (length rows) F /\
    evaluates_on 0 1 (interp_ens_ppf i) (length rows) Q /\
    forall r, (r < length rows)%nat ->
      (forall p, 0 < p < 1 -> nth0 0 xs <= Q r p <= nlast xs) /\
      (forall p q, 0 < p -> p <= q -> q < 1 -> Q r p <= Q r q) /\
      (forall p, 0 < p < 1 -> F r (nth0 0 xs) <= p -> F r (Q r p) = p) /\
      (forall p, 0 < p < 1 -> p < F r (nth0 0 xs) -> Q r p = nth0 0 xs) /\
      (at2 rows r 0 = 0 -> forall p, 0 < p < 1 -> F r (Q r p) = p) /\
      (forall j x, (S j < length xs)%nat -> nth0 j xs <= x < nth0 (S j) xs -> F r (nth0 j xs) < F r (nth0 (S j) xs) ->
         0 < F r x -> Q r (F r x) = x).
Proof.
  intros xs rows i Hi E. pose proof Hi as (Hs & Hn & _).
  exists (iF xs rows), (iQ xs rows). destruct (interp_evals xs rows i Hi E) as (_ & Ec & Eq).
  split; auto. split; auto. intros r Hr.
  assert (Hcl := icum_len xs rows Hi r Hr). assert (Hcn := icum_nondec xs rows Hi r Hr).
  assert (Hc0 := icum_0_nonneg xs rows Hi r Hr). assert (Hc1 := icum_last xs rows Hi r Hr).
  assert (Hf : iF xs rows r (nth0 0 xs) = nth0 0 (icum xs (irow rows r))) by (apply tF_first; auto).
  assert (Hlt : nth0 0 xs < nlast xs) by (apply t_range; auto).
  assert (Hlow : forall p, p < nth0 0 (icum xs (irow rows r)) -> iQ xs rows r p = nth0 0 xs)
    by (intros; unfold iQ; rewrite tQ_low by auto; apply nhead_nth0).
  assert (Hrg : forall p, 0 < p < 1 -> nth0 0 xs <= iQ xs rows r p <= nlast xs).
  { intros p Hp. destruct (Rlt_le_dec p (nth0 0 (icum xs (irow rows r)))); [rewrite Hlow by auto; lra|].
    apply (tQ_range xs (icum xs (irow rows r))); auto. split; lra. }
  split; [auto|]. split; [|split; [|split; [|split]]].
  - intros p q Hp Hpq Hq. destruct (Rlt_le_dec p (nth0 0 (icum xs (irow rows r)))).
    + rewrite Hlow by auto. apply Hrg. lra.
    + apply (tQ_mono xs (icum xs (irow rows r))); auto.
  - intros p Hp Hpf. apply tFQ; auto. rewrite Hf in Hpf. lra.
  - intros p Hp Hpf. apply Hlow. rewrite <- Hf. auto.
  - intros H0 p Hp. apply tFQ; auto. rewrite (icum_0 xs rows Hi r Hr), (inorm_nth xs rows Hi r Hr).
    unfold irow. change (nth0 0 (nth r rows [])) with (at2 rows r 0). rewrite H0. unfold Rdiv.
    rewrite Rmult_0_l, Rmult_0_r, Rmult_0_l. lra.
  - intros j x Hj Hx Hlt' _. unfold iQ, iF. apply tQF with (j := j); auto.
    unfold iF in Hlt'. rewrite !tF_knot in Hlt' by (auto; lia). auto.
Qed.
Lemma c10_refuted :
  exists (xs : list Q) (rows : list (list Q)) (i : interp Q) (x : Q),
    interp_ctor xs (nd2 3 rows) true = Ok i /\
    interp_ens_ppf i (PScalar (1 # 10)%Q) = Ok [[Fin x]] /\
    interp_ens_cdf i (PScalar x) = Ok [[Fin (1 # 4)%Q]].
Proof.
  exists [0; 1; 2]%Q, [[1; 1; 1]]%Q. eexists. exists 0%Q. split; [reflexivity|]. vm_compute. auto.
Qed.
