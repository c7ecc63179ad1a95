(** Packing into bytes: error bounds, order, repacking. *)
From Coq Require Import List Arith ZArith QArith Bool Lia Reals Lra Psatz.
From Coquelicot Require Import Coquelicot.
From Verif Require Import Num NumProofs Py NdArray NumpyLib Packing BinProofs HistProofs MixmodTheorems.
Import ListNotations.
Local Open Scope R_scope.

(** The true functions of the real numbers. *)
Definition log10R (x : R) : R := ln x / ln 10.
Definition pow10R (y : R) : R := Rpower 10 y.

(** A row that can be packed: not empty, non-negative, some positive entry. *)
Definition packable (row : list R) : Prop :=
  (forall i, (i < length row)%nat -> 0 <= nth0 i row) /\
  exists i, (i < length row)%nat /\ 0 < nth0 i row.

(** [m] is the largest entry of the row. *)
Definition is_max (m : R) (row : list R) : Prop :=
  (exists i, (i < length row)%nat /\ nth0 i row = m) /\
  forall i, (i < length row)%nat -> nth0 i row <= m.

(** Entry [i] of row [r]. *)
Definition entry (rows : list (list R)) (r i : nat) : R := nth0 i (nth r rows []).
Definition byte (packed : list (list Z)) (r i : nat) : Z := nth i (nth r packed []) 0%Z.
(** Same shape: as many rows, each with as many entries. *)
Definition same_shape {A B} (a : list (list A)) (b : list (list B)) : Prop :=
  length a = length b /\ forall r, (r < length a)%nat -> length (nth r a []) = length (nth r b []).

(** ** Row maxima *)
Lemma nth0_In (l : list R) x : In x l -> exists i, (i < length l)%nat /\ nth0 i l = x.
Proof. intros H. apply (In_nth _ _ 0) in H. destruct H as (i & Hi & E). exists i. auto. Qed.
Lemma In_nth0 (l : list R) i : (i < length l)%nat -> In (nth0 i l) l.
Proof. intros. apply nth_In; auto. Qed.

Lemma nmaximum_in (l : list R) d : In (nmaximum d l) (d :: l).
Proof.
  unfold nmaximum. revert d. induction l as [|y l IH]; intros d; cbn [fold_left]; [left; auto|].
  destruct (IH (nmax d y)) as [E|E]; [|right; right; auto].
  rewrite <- E. unfold nmax. destruct (nleb d y); [right; left|left]; auto.
Qed.
Lemma row_max_spec row : row <> [] -> is_max (row_max row) row.
Proof.
  intros H. unfold row_max. split.
  - apply nth0_In. destruct row; [congruence|]. apply nmaximum_in.
  - intros i Hi. apply max_in_list, In_nth0; auto.
Qed.
Lemma is_max_unique a b row : is_max a row -> is_max b row -> a = b.
Proof. intros ((i & Hi & Ea) & Ha) ((j & Hj & Eb) & Hb). specialize (Ha j Hj). specialize (Hb i Hi). lra. Qed.
Lemma packable_ne row : packable row -> row <> [].
Proof. intros (_ & i & Hi & _) ->. simpl in Hi. lia. Qed.
Lemma packable_pos row : packable row -> 0 < row_max row.
Proof. intros H. pose proof (row_max_spec row (packable_ne _ H)) as (_ & Hm).
  destruct H as (_ & i & Hi & Hp). specialize (Hm i Hi). lra. Qed.

(** ** Arrays from entries *)
Section Generic.
  Variables (code : R -> R -> Z) (value : R -> Z -> R).
  Definition unpack_rows (packed : list (list Z)) (maxs : list R) : list (list R) :=
    map2 (fun row m => map (value m) row) packed maxs.

  Lemma no_empty rows : (forall row, In row rows -> packable row) ->
    existsb (fun r : list R => Nat.eqb (length r) 0) rows = false.
  Proof.
    intros H. destruct (existsb _ rows) eqn:E; auto. apply existsb_exists in E. destruct E as (r & Hr & E).
    apply Nat.eqb_eq, length_zero_iff_nil in E. exfalso. eapply packable_ne; [apply (H r Hr)|auto].
  Qed.

  Lemma unpack_pack rows :
    unpack_rows (map (fun r => map (code (row_max r)) r) rows) (map row_max rows) =
    map (fun r => map (fun x => value (row_max r) (code (row_max r) x)) r) rows.
  Proof. unfold unpack_rows. induction rows as [|r rows IH]; simpl; auto. rewrite IH, map_map. auto. Qed.

  Lemma nth0_map' {A} (f : A -> R) (l : list A) d i : (i < length l)%nat -> nth0 i (map f l) = f (nth i l d).
  Proof. intros. unfold nth0. rewrite (nth_indep _ _ (f d)) by (rewrite map_length; auto). apply map_nth. Qed.
  Lemma nth_map' {A B} (f : A -> B) (l : list A) d d' i : (i < length l)%nat -> nth i (map f l) d' = f (nth i l d).
  Proof. intros. rewrite (nth_indep _ _ (f d)) by (rewrite map_length; auto). apply map_nth. Qed.

  (** Everything said about one entry holds for every entry of the array. *)
  Variable P : R -> R -> Z -> R -> Prop.    (* max, value, byte, value unpacked *)
  Hypothesis HP : forall m x, 0 < m -> 0 <= x <= m -> P m x (code m x) (value m (code m x)).

  Lemma pack_pointwise rows : (forall row, In row rows -> packable row) ->
    exists packed maxs back,
      pack_rows code rows = Ok (packed, maxs) /\ unpack_rows packed maxs = back /\
      same_shape packed rows /\ same_shape back rows /\ length maxs = length rows /\
      forall r i, (r < length rows)%nat -> (i < length (nth r rows []))%nat ->
        is_max (nth0 r maxs) (nth r rows []) /\
        P (nth0 r maxs) (entry rows r i) (byte packed r i) (entry back r i).
  Proof.
    intros H. unfold pack_rows. rewrite no_empty by auto.
    eexists _, _, _. split; [reflexivity|]. split; [reflexivity|].
    rewrite unpack_pack. unfold same_shape. rewrite !map_length.
    split; [|split; [|split; auto]].
    - split; auto. intros r Hr. rewrite (nth_map' _ _ []) by auto. rewrite map_length. auto.
    - split; auto. intros r Hr. rewrite (nth_map' _ _ []) by auto. rewrite map_length. auto.
    - intros r i Hr Hi. unfold entry, byte.
      rewrite (nth0_map' _ rows []) by auto. rewrite !(nth_map' _ rows []) by auto.
      rewrite (nth0_map' _ _ 0), (nth_map' _ _ 0) by auto.
      pose proof (H _ (nth_In rows [] Hr)) as Hp.
      pose proof (row_max_spec _ (packable_ne _ Hp)) as Hm. split; auto.
      change (nth i (nth r rows []) 0) with (nth0 i (nth r rows [])).
      apply HP; [apply packable_pos; auto|].
      split; [apply Hp; auto|apply Hm; auto].
  Qed.

  (** Packing again gives the same bytes, when this holds entry by entry. *)
  Lemma repack rows : (forall row, In row rows -> packable row) ->
    (forall row x, In row rows -> 0 <= x <= row_max row -> let m := row_max row in
       0 <= value m (code m x) <= m /\ code m (value m (code m x)) = code m x /\ value m (code m m) = m) ->
    pack_rows code (map (fun r => map (fun x => value (row_max r) (code (row_max r) x)) r) rows) =
    Ok (map (fun r => map (code (row_max r)) r) rows, map row_max rows).
  Proof.
    intros H HQ. unfold pack_rows.
    assert (Hmax : forall row, In row rows ->
              row_max (map (fun x => value (row_max row) (code (row_max row) x)) row) = row_max row).
    { intros row Hr. pose proof (H row Hr) as Hp. pose proof (packable_ne _ Hp) as Hne.
      pose proof (row_max_spec row Hne) as Hm.
      eapply is_max_unique; [apply row_max_spec; destruct row; simpl; congruence|].
      split.
      - destruct Hm as ((i & Hi & Ei) & _). exists i. rewrite map_length. split; auto.
        rewrite (nth0_map' _ _ 0) by auto. change (nth i row 0) with (nth0 i row). rewrite Ei.
        apply (HQ row (row_max row) Hr). pose proof (packable_pos _ Hp). lra.
      - intros i Hi. rewrite map_length in Hi. rewrite (nth0_map' _ _ 0) by auto.
        apply (HQ row); auto. split; [apply Hp; auto|apply Hm; auto]. }
    assert (E0 : existsb (fun r => Nat.eqb (length r) 0)
              (map (fun r => map (fun x => value (row_max r) (code (row_max r) x)) r) rows) = false).
    { pose proof (no_empty rows H) as E. rewrite <- E.
      clear. induction rows as [|r rows IH]; simpl; auto. rewrite map_length, IH. auto. }
    rewrite E0, !map_map. f_equal. f_equal.
    - apply map_ext_in. intros row Hr. rewrite Hmax by auto. rewrite map_map.
      apply map_ext_in. intros x Hx. pose proof (H row Hr) as Hp.
      apply (HQ row); auto. apply nth0_In in Hx. destruct Hx as (i & Hi & <-).
      split; [apply Hp; auto|apply (row_max_spec row (packable_ne _ Hp)); auto].
    - apply map_ext_in. auto.
  Qed.
End Generic.

(** ** Linear packing, one entry *)
Lemma u8_id z : (0 <= z <= 255)%Z -> u8 z = z.
Proof. intros. unfold u8. apply Z.mod_small. lia. Qed.

Lemma nround_range (x : R) : 0 <= x <= 255 -> (0 <= nround x <= 255)%Z.
Proof.
  intros [H1 H2]. split.
  - change 0%Z with (nround (IZR 0)) at 1 || idtac. rewrite <- (nround_IZR 0). apply nround_mono. auto.
  - rewrite <- (nround_IZR 255). apply nround_mono. auto.
Qed.

Lemma scaled_range m x : 0 < m -> 0 <= x <= m -> 0 <= 255 * x / m <= 255.
Proof.
  intros Hm Hx. split.
  - apply Rmult_le_pos; [lra|]. left. apply Rinv_0_lt_compat; auto.
  - apply (Rmult_le_reg_r m); auto. unfold Rdiv. rewrite Rmult_assoc, Rinv_l by lra. lra.
Qed.

Lemma linear_code_eq m x : 0 < m -> 0 <= x <= m -> linear_code m x = nround (255 * x / m).
Proof. intros Hm Hx. unfold linear_code. numR. apply u8_id, nround_range, scaled_range; auto. Qed.

Lemma linear_err m x : 0 < m -> 0 <= x <= m -> Rabs (linear_value m (linear_code m x) - x) <= m / 510.
Proof.
  intros Hm Hx. rewrite linear_code_eq by auto. unfold linear_value. numR.
  pose proof (nround_error (255 * x / m)) as E.
  replace (m * IZR (nround (255 * x / m)) / 255 - x) with ((m / 255) * (IZR (nround (255 * x / m)) - 255 * x / m)) by (field; lra).
  rewrite Rabs_mult, (Rabs_pos_eq (m / 255)) by lra.
  replace (m / 510) with (m / 255 * (1 / 2)) by field.
  apply Rmult_le_compat_l; lra.
Qed.
Lemma linear_max m : 0 < m -> linear_code m m = 255%Z /\ linear_value m 255 = m.
Proof.
  intros Hm. split.
  - rewrite linear_code_eq by lra. replace (255 * m / m) with (IZR 255) by (field; lra). apply nround_IZR.
  - unfold linear_value. numR. field.
Qed.
Lemma linear_value_mono m p q : 0 < m -> (p <= q)%Z -> linear_value m p <= linear_value m q.
Proof.
  intros Hm H. unfold linear_value. numR. apply IZR_le in H.
  unfold Rdiv. apply Rmult_le_compat_r; [lra|]. apply Rmult_le_compat_l; lra.
Qed.
Lemma linear_code_mono m x y : 0 < m -> 0 <= x -> x <= y -> y <= m -> (linear_code m x <= linear_code m y)%Z.
Proof.
  intros. rewrite !linear_code_eq by lra. apply nround_mono.
  unfold Rdiv. apply Rmult_le_compat_r; [left; apply Rinv_0_lt_compat; auto|lra].
Qed.
Lemma linear_value_range m p : 0 < m -> (0 <= p <= 255)%Z -> 0 <= linear_value m p <= m.
Proof.
  intros Hm [H1 H2]. apply IZR_le in H1, H2. unfold linear_value. numR. split.
  - unfold Rdiv. apply Rmult_le_pos; [nra|lra].
  - apply (Rmult_le_reg_r 255); [lra|]. unfold Rdiv. rewrite Rmult_assoc, Rinv_l by lra. nra.
Qed.
Lemma linear_code_range m x : 0 < m -> 0 <= x <= m -> (0 <= linear_code m x <= 255)%Z.
Proof. intros. rewrite linear_code_eq by auto. apply nround_range, scaled_range; auto. Qed.
Lemma linear_recode m p : 0 < m -> (0 <= p <= 255)%Z -> linear_code m (linear_value m p) = p.
Proof.
  intros Hm Hp. rewrite linear_code_eq; auto using linear_value_range.
  unfold linear_value. numR. replace (255 * (m * IZR p / 255) / m) with (IZR p) by (field; lra). apply nround_IZR.
Qed.

Lemma linear_unpack_rows p m : linear_unpack p m = unpack_rows linear_value p m.
Proof. reflexivity. Qed.

Lemma c16_linear : forall (rows : list (list R)) (lf : option R),
  (forall row, In row rows -> packable row) ->
  exists packed maxs back,
    pack_array log10R pow10R LinearFromRowmax lf rows = Ok (packed, maxs) /\
    unpack_array pow10R LinearFromRowmax lf packed maxs = Ok back /\
    same_shape packed rows /\ same_shape back rows /\ length maxs = length rows /\
    (* each entry *)
    (forall r i, (r < length rows)%nat -> (i < length (nth r rows []))%nat ->
       let m := nth0 r maxs in
       is_max m (nth r rows []) /\
       (0 <= byte packed r i <= 255)%Z /\
       Rabs (entry back r i - entry rows r i) <= m / 510 /\
       (entry rows r i = m -> entry back r i = m)) /\
    (* order *)
    (forall r i j, (r < length rows)%nat -> (i < length (nth r rows []))%nat -> (j < length (nth r rows []))%nat ->
       entry rows r i <= entry rows r j ->
       (byte packed r i <= byte packed r j)%Z /\ entry back r i <= entry back r j) /\
    (* packing again *)
    pack_array log10R pow10R LinearFromRowmax lf back = Ok (packed, maxs).
Proof.
  intros rows lf H.
  pose proof (pack_pointwise linear_code linear_value (fun m x b v => b = linear_code m x /\ v = linear_value m b)
                (fun m x _ _ => conj eq_refl eq_refl) rows H) as (p & ms & back & E & U & S1 & S2 & L & HP).
  exists p, ms, back. split; [exact E|]. split; [simpl; rewrite linear_unpack_rows, U; auto|].
  split; [auto|]. split; [auto|]. split; [auto|].
  assert (HR : forall r i, (r < length rows)%nat -> (i < length (nth r rows []))%nat ->
             0 < nth0 r ms /\ 0 <= entry rows r i <= nth0 r ms).
  { intros r i Hr Hi. destruct (HP r i Hr Hi) as [M _].
    pose proof (H _ (nth_In rows [] Hr)) as Hp.
    assert (nth0 r ms = row_max (nth r rows [])) as ->.
    { eapply is_max_unique; [exact M|]. apply row_max_spec, packable_ne; auto. }
    split; [apply packable_pos; auto|]. split; [apply Hp; auto|].
    apply (row_max_spec _ (packable_ne _ Hp)); auto. }
  split; [|split].
  - intros r i Hr Hi m. destruct (HP r i Hr Hi) as (M & Eb & Ev). destruct (HR r i Hr Hi) as (Hm & Hx).
    fold m in M, Eb, Ev, Hm, Hx. split; auto. rewrite Ev, Eb.
    split; [apply linear_code_range; auto|]. split; [apply linear_err; auto|].
    intros ->. destruct (linear_max m Hm) as [-> ?]. auto.
  - intros r i j Hr Hi Hj Hle.
    destruct (HP r i Hr Hi) as (_ & Eb & Ev). destruct (HP r j Hr Hj) as (_ & Eb' & Ev').
    destruct (HR r i Hr Hi) as (Hm & Hx). destruct (HR r j Hr Hj) as (_ & Hx').
    assert ((byte p r i <= byte p r j)%Z) by (rewrite Eb, Eb'; apply linear_code_mono; lra).
    split; auto. rewrite Ev, Ev'. apply linear_value_mono; auto.
  - unfold pack_array, linear_pack. unfold pack_rows in E. rewrite no_empty in E by auto. injection E as <- <-.
    rewrite <- U. rewrite unpack_pack. apply repack; auto.
    intros row x Hr Hx m. pose proof (packable_pos _ (H row Hr)) as Hm. fold m in Hm, Hx.
    pose proof (linear_code_range m x Hm Hx) as Hc.
    split; [apply linear_value_range; auto|]. split; [apply linear_recode; auto|].
    destruct (linear_max m Hm) as [-> ->]. auto.
Qed.

(** ** Logarithmic packing, one entry *)
Lemma ln10 : 1 < ln 10.
Proof.
  rewrite <- (ln_exp 1) at 1. apply ln_increasing; [apply exp_pos|]. apply Rle_lt_trans with 3; [apply exp_le_3|lra].
Qed.
Lemma pow10_pos y : 0 < pow10R y.
Proof. apply exp_pos. Qed.
Lemma pow10_add a b : pow10R (a + b) = pow10R a * pow10R b.
Proof. apply Rpower_plus. Qed.
Lemma pow10_0 : pow10R 0 = 1.
Proof. unfold pow10R. apply Rpower_O. lra. Qed.
Lemma pow10_le a b : a <= b <-> pow10R a <= pow10R b.
Proof.
  pose proof ln10. split; intros H0.
  - unfold pow10R. apply Rle_Rpower; lra.
  - destruct (Rle_or_lt a b); auto. exfalso.
    assert (pow10R b < pow10R a) by (apply Rpower_lt; lra). lra.
Qed.
Lemma pow10_lt a b : a < b -> pow10R a < pow10R b.
Proof. intros. apply Rpower_lt; lra. Qed.
Lemma pow10_log x : 0 < x -> pow10R (log10R x) = x.
Proof.
  intros. pose proof ln10. unfold pow10R, log10R, Rpower.
  replace (ln x / ln 10 * ln 10) with (ln x) by (field; lra). apply exp_ln; auto.
Qed.
Lemma log_pow10 y : log10R (pow10R y) = y.
Proof. pose proof ln10. unfold pow10R, log10R, Rpower. rewrite ln_exp. field. lra. Qed.
Lemma log10_le x y : 0 < x -> x <= y -> log10R x <= log10R y.
Proof. intros. apply (proj2 (pow10_le _ _)). rewrite !pow10_log by lra. auto. Qed.

(** The argument of [np.round] *)
Definition lscale (lf m x : R) : R := 255 * (log10R ((x + pow10R (3 * lf)) / m) - lf) / (- lf).
Lemma log_code_eq lf m x :
  log_code log10R pow10R lf m x = Z.min (Z.max (nround (lscale lf m x)) 0) 255.
Proof.
  unfold log_code, lscale. numR.
  replace (-1 * lf) with (- lf) by ring. replace (-(1) * lf) with (- lf) by ring.
  replace (log10R ((x + pow10R (3 * lf)) / m) + - lf) with (log10R ((x + pow10R (3 * lf)) / m) - lf) by ring.
  apply u8_id. lia.
Qed.
Lemma log_code_range lf m x : (0 <= log_code log10R pow10R lf m x <= 255)%Z.
Proof. rewrite log_code_eq. lia. Qed.
Lemma log_value_eq lf m p :
  log_value pow10R lf m p = if Z.eqb p 0 then 0 else m * pow10R (lf * (1 - IZR p / 255)).
Proof.
  unfold log_value. numR. destruct (Z.eqb p 0); [ring|].
  f_equal. f_equal. field.
Qed.

Section Entry.
  Variables lf m : R.
  Hypothesis Hlf : lf < 0.
  Hypothesis Hm : 0 < m.
  Let eps := pow10R (3 * lf).
  Lemma eps_pos : 0 < eps. Proof using. apply pow10_pos. Qed.
  Lemma ratio_pos x : 0 <= x -> 0 < (x + eps) / m.
  Proof using Hm. intros. pose proof eps_pos. apply Rdiv_lt_0_compat; lra. Qed.

  Lemma lscale_le x z : 0 <= x -> lscale lf m x <= z <-> x + eps <= m * pow10R (lf * (1 - z / 255)).
  Proof using Hm Hlf.
    intros Hx. pose proof (ratio_pos x Hx) as Hr. unfold lscale. fold eps.
    set (u := (x + eps) / m) in *.
    assert (Eu : x + eps = m * u) by (unfold u; field; lra).
    assert (lscale_alt : 255 * (log10R u - lf) / - lf <= z <-> log10R u <= lf * (1 - z / 255)).
    { split; intros H.
      - apply (Rmult_le_compat_r (- lf / 255)) in H; [|lra].
        replace (255 * (log10R u - lf) / - lf * (- lf / 255)) with (log10R u - lf) in H by (field; lra). lra.
      - apply (Rmult_le_reg_r (- lf / 255)); [lra|].
        replace (255 * (log10R u - lf) / - lf * (- lf / 255)) with (log10R u - lf) by (field; lra). lra. }
    rewrite lscale_alt, pow10_le, pow10_log, Eu by auto.
    split; intros H; [apply Rmult_le_compat_l; lra|apply Rmult_le_reg_l in H; auto].
  Qed.
  Lemma lscale_exact x : 0 <= x -> x + eps = m * pow10R (lf * (1 - lscale lf m x / 255)).
  Proof using Hm Hlf.
    intros Hx. unfold lscale. fold eps.
    replace (lf * (1 - 255 * (log10R ((x + eps) / m) - lf) / - lf / 255)) with (log10R ((x + eps) / m)) by (field; lra).
    rewrite pow10_log by (apply ratio_pos; lra). field. lra.
  Qed.
  Lemma lscale_mono x y : 0 <= x -> x <= y -> lscale lf m x <= lscale lf m y.
  Proof using Hm Hlf.
    intros Hx Hy. apply lscale_le; auto. eapply Rle_trans; [apply Rplus_le_compat_r, Hy|].
    apply lscale_le; lra.
  Qed.
  Lemma round_le0 (y : R) : (nround y <= 0)%Z <-> y <= 1 / 2.
  Proof using.
    pose proof (nround_error y) as E. split; intros H.
    - apply IZR_le in H. apply Rabs_le_between in E. lra.
    - destruct (Rlt_or_le y (1/2)) as [L|L].
      + assert (IZR (nround y) < IZR 1) by (apply Rabs_le_between in E; simpl; lra). apply lt_IZR in H0. lia.
      + assert (y = 1/2) as -> by lra. unfold nround.
        assert (F : nfloor (1/2) = 0%Z) by (apply nfloor_unique; lra). rewrite F, nhalf_R. numR.
        repeat ncase; try lra. cbn. lia.
  Qed.

  Lemma code_zero x : 0 <= x ->
    log_code log10R pow10R lf m x = 0%Z <-> x + eps <= m * pow10R (lf * (509 / 510)).
  Proof using Hm Hlf.
    intros Hx. rewrite log_code_eq.
    replace (509 / 510) with (1 - (1 / 2) / 255) by field. rewrite <- lscale_le by auto. rewrite <- round_le0. lia.
  Qed.
  Lemma code_mono x y : 0 <= x -> x <= y ->
    (log_code log10R pow10R lf m x <= log_code log10R pow10R lf m y)%Z.
  Proof using Hm Hlf. intros. rewrite !log_code_eq. pose proof (nround_mono _ _ (lscale_mono x y H H0)). lia. Qed.
  Lemma value_mono p q : (0 <= p)%Z -> (p <= q)%Z -> log_value pow10R lf m p <= log_value pow10R lf m q.
  Proof using Hm Hlf.
    intros Hp H. rewrite !log_value_eq. destruct (Z.eqb_spec p 0), (Z.eqb_spec q 0); try lia; try lra.
    - pose proof (pow10_pos (lf * (1 - IZR q / 255))). nra.
    - apply Rmult_le_compat_l; [lra|]. apply (proj1 (pow10_le _ _)). apply IZR_le in H. nra.
  Qed.
  Lemma value_max : log_value pow10R lf m 255 = m.
  Proof using. rewrite log_value_eq. simpl Z.eqb. cbn iota. replace (1 - 255 / 255) with 0 by field.
    rewrite Rmult_0_r, pow10_0. ring. Qed.
  Lemma code_max : log_code log10R pow10R lf m m = 255%Z.
  Proof using Hm Hlf.
    rewrite log_code_eq.
    assert (255 <= lscale lf m m).
    { destruct (Rle_or_lt 255 (lscale lf m m)); auto. exfalso.
      assert (lscale lf m m <= 255) by lra. apply lscale_le in H0; [|lra].
      replace (lf * (1 - 255 / 255)) with 0 in H0 by field. rewrite pow10_0 in H0. pose proof eps_pos. lra. }
    apply nround_mono in H. rewrite (nround_IZR 255) in H. lia.
  Qed.

  (** Bounds on a value that is kept. *)
  Lemma value_bounds x : 0 <= x <= m -> log_code log10R pow10R lf m x <> 0%Z ->
    let v := log_value pow10R lf m (log_code log10R pow10R lf m x) in
    x * pow10R (lf / 510) <= v /\ v <= (x + eps) * pow10R (- lf / 510).
  Proof using Hm Hlf.
    intros Hx Hne v. unfold v. rewrite log_value_eq.
    destruct (Z.eqb_spec (log_code log10R pow10R lf m x) 0); [contradiction|].
    pose proof (log_code_range lf m x) as Hrg. rewrite log_code_eq in *.
    set (y := lscale lf m x) in *. set (p := nround y) in *.
    pose proof (nround_error y) as E. fold p in E. apply Rabs_le_between in E.
    assert (Hu : x + eps = m * pow10R (lf * (1 - y / 255))).
    { apply lscale_exact. lra. }
    destruct (Z_le_gt_dec p 255) as [Hp|Hp].
    - assert (Z.min (Z.max p 0) 255 = p) as Ep by lia. rewrite Ep in *. clear Ep. split.
      + apply Rle_trans with ((x + eps) * pow10R (lf / 510)).
        { apply Rmult_le_compat_r; [left; apply pow10_pos|]. pose proof eps_pos. lra. }
        rewrite Hu, Rmult_assoc, <- pow10_add. apply Rmult_le_compat_l; [lra|]. apply (proj1 (pow10_le _ _)). nra.
      + rewrite Hu, Rmult_assoc, <- pow10_add. apply Rmult_le_compat_l; [lra|]. apply (proj1 (pow10_le _ _)). nra.
    - assert (Z.min (Z.max p 0) 255 = 255%Z) as Ep by lia. rewrite Ep in *. clear Ep.
      replace (lf * (1 - 255 / 255)) with 0 by field. rewrite pow10_0. split.
      + apply Rle_trans with (m * 1); [|lra].
        apply Rmult_le_compat; [lra|left; apply pow10_pos|lra|]. rewrite <- pow10_0. apply (proj1 (pow10_le _ _)). lra.
      + rewrite Hu, Rmult_assoc, <- pow10_add. apply Rmult_le_compat_l; [lra|]. rewrite <- pow10_0 at 1. apply (proj1 (pow10_le _ _)).
        assert (256 <= IZR p) by (apply IZR_le; lia).
        assert (0 <= - lf * (y - 255)) by (apply Rmult_le_pos; lra). lra.
  Qed.
  Lemma value_range p : (0 <= p <= 255)%Z -> 0 <= log_value pow10R lf m p <= m.
  Proof using Hm Hlf.
    intros Hp. split.
    - assert (log_value pow10R lf m 0 = 0) as <- by (rewrite log_value_eq; reflexivity). apply value_mono; lia.
    - rewrite <- value_max at 2. apply value_mono; lia.
  Qed.

  (** Repacking *)
  Lemma recode p : (0 <= p <= 255)%Z -> eps < m * pow10R lf * (pow10R (- lf / 510) - 1) ->
    log_code log10R pow10R lf m (log_value pow10R lf m p) = p.
  Proof using Hm Hlf.
    intros Hp Heps. pose proof eps_pos as He.
    assert (H1 : 1 < pow10R (- lf / 510)) by (rewrite <- pow10_0; apply pow10_lt; lra).
    destruct (Z.eq_dec p 0) as [->|Hne].
    - apply code_zero; [apply value_range; lia|].
      rewrite log_value_eq. simpl Z.eqb. cbn iota.
      replace (lf * (509 / 510)) with (lf + (- lf / 510)) by field. rewrite pow10_add.
      pose proof (pow10_pos lf). assert (0 < m * pow10R lf) by (apply Rmult_lt_0_compat; auto). nra.
    - rewrite log_code_eq, log_value_eq. destruct (Z.eqb_spec p 0); [contradiction|].
      assert (Hp1 : 1 <= IZR p) by (apply IZR_le; lia). assert (Hp2 : IZR p <= 255) by (apply IZR_le; lia).
      set (v := m * pow10R (lf * (1 - IZR p / 255))).
      assert (Hv : 0 < v) by (apply Rmult_lt_0_compat; auto; apply pow10_pos).
      assert (Hlow : m * pow10R lf <= v).
      { apply Rmult_le_compat_l; [lra|]. apply (proj1 (pow10_le _ _)). nra. }
      assert (L1 : IZR p < lscale lf m v).
      { destruct (Rlt_or_le (IZR p) (lscale lf m v)); auto. apply lscale_le in H; [|lra]. fold v in H. lra. }
      assert (L2 : lscale lf m v < IZR p + 1/2).
      { apply Rnot_le_lt. intros C.
        assert (Hlt : v + eps < m * pow10R (lf * (1 - (IZR p + 1/2) / 255))).
        { replace (lf * (1 - (IZR p + 1 / 2) / 255)) with (lf * (1 - IZR p / 255) + (- lf / 510)) by field.
          rewrite pow10_add, <- Rmult_assoc. fold v.
          assert (m * pow10R lf * (pow10R (- lf / 510) - 1) <= v * (pow10R (- lf / 510) - 1)) by (apply Rmult_le_compat_r; lra).
          lra. }
        rewrite (lscale_exact v) in Hlt by lra. apply Rmult_lt_reg_l in Hlt; auto.
        set (y := lscale lf m v) in *.
        assert (Hy : lf * (1 - (IZR p + 1/2) / 255) <= lf * (1 - y / 255)) by nra.
        apply (proj1 (pow10_le _ _)) in Hy. lra. }
      rewrite (nround_unique _ p); [lia|]. apply Rabs_def1; lra.
  Qed.
End Entry.

(** ** Whole arrays *)
Lemma c71_log : forall (rows : list (list R)) (lf : R), lf < 0 ->
  (forall row, In row rows -> packable row) ->
  exists packed maxs back,
    pack_array log10R pow10R LogFromRowmax (Some lf) rows = Ok (packed, maxs) /\
    unpack_array pow10R LogFromRowmax (Some lf) packed maxs = Ok back /\
    same_shape packed rows /\ same_shape back rows /\ length maxs = length rows /\
    (forall r i, (r < length rows)%nat -> (i < length (nth r rows []))%nat ->
       let m := nth0 r maxs in let x := entry rows r i in let v := entry back r i in
       let eps := Rpower 10 (3 * lf) in
       is_max m (nth r rows []) /\
       (0 <= byte packed r i <= 255)%Z /\
       (* dropped exactly below a threshold just above the floor *)
       (v = 0 <-> x + eps <= m * Rpower 10 (lf * (509 / 510))) /\
       (* kept within the resolution of the code *)
       (v <> 0 -> x * Rpower 10 (lf / 510) <= v /\ v <= (x + eps) * Rpower 10 (- lf / 510)) /\
       (x = m -> v = m)) /\
    (forall r i j, (r < length rows)%nat -> (i < length (nth r rows []))%nat -> (j < length (nth r rows []))%nat ->
       entry rows r i <= entry rows r j ->
       (byte packed r i <= byte packed r j)%Z /\ entry back r i <= entry back r j) /\
    (* packing again, when the added constant is small against the floor of every row *)
    ((forall r, (r < length rows)%nat ->
        Rpower 10 (3 * lf) < nth0 r maxs * Rpower 10 lf * (Rpower 10 (- lf / 510) - 1)) ->
     pack_array log10R pow10R LogFromRowmax (Some lf) back = Ok (packed, maxs)).
Proof.
  intros rows lf Hlf H.
  pose proof (pack_pointwise (log_code log10R pow10R lf) (log_value pow10R lf)
                (fun m x b v => b = log_code log10R pow10R lf m x /\ v = log_value pow10R lf m b)
                (fun m x _ _ => conj eq_refl eq_refl) rows H) as (p & ms & back & E & U & S1 & S2 & L & HP).
  exists p, ms, back. split; [exact E|]. split; [simpl; rewrite <- U; auto|].
  split; [auto|]. split; [auto|]. split; [auto|].
  assert (HM : forall r, (r < length rows)%nat -> nth0 r ms = row_max (nth r rows [])).
  { intros r Hr. pose proof (H _ (nth_In rows [] Hr)) as Hp. pose proof Hp as (_ & i & Hi & _).
    eapply is_max_unique; [apply (HP r i Hr Hi)|]. apply row_max_spec, packable_ne; auto. }
  assert (HR : forall r i, (r < length rows)%nat -> (i < length (nth r rows []))%nat ->
             0 < nth0 r ms /\ 0 <= entry rows r i <= nth0 r ms).
  { intros r i Hr Hi. pose proof (H _ (nth_In rows [] Hr)) as Hp. rewrite HM by auto.
    split; [apply packable_pos; auto|]. split; [apply Hp; auto|].
    apply (row_max_spec _ (packable_ne _ Hp)); auto. }
  split; [|split].
  - intros r i Hr Hi m x v eps. destruct (HP r i Hr Hi) as (M & Eb & Ev). destruct (HR r i Hr Hi) as (Hm & Hx).
    fold m in M, Eb, Ev, Hm, Hx. fold x in Eb, Hx. fold v in Ev. split; auto.
    pose proof (log_code_range lf m x) as Hc.
    assert (Hz : v = 0 <-> log_code log10R pow10R lf m x = 0%Z).
    { rewrite Ev, Eb, log_value_eq. destruct (Z.eqb_spec (log_code log10R pow10R lf m x) 0); [tauto|].
      split; [|tauto]. intros C. pose proof (pow10_pos (lf * (1 - IZR (log_code log10R pow10R lf m x) / 255))). nra. }
    split; [rewrite Eb; auto|]. split; [rewrite Hz; apply code_zero; auto; lra|].
    split.
    + intros Hv. assert (log_code log10R pow10R lf m x <> 0%Z) by tauto.
      pose proof (value_bounds lf m Hlf Hm x Hx H0) as B. cbv zeta in B.
      rewrite <- Eb, <- Ev in B. exact B.
    + intros Exm. rewrite Ev, Eb, Exm, code_max by auto. apply value_max; auto.
  - intros r i j Hr Hi Hj Hle.
    destruct (HP r i Hr Hi) as (_ & Eb & Ev). destruct (HP r j Hr Hj) as (_ & Eb' & Ev').
    destruct (HR r i Hr Hi) as (Hm & Hx). destruct (HR r j Hr Hj) as (_ & Hx').
    assert ((byte p r i <= byte p r j)%Z) by (rewrite Eb, Eb'; apply code_mono; lra).
    split; auto. rewrite Ev, Ev'. apply value_mono; auto. rewrite Eb. apply log_code_range.
  - intros Heps. unfold pack_array, log_pack. pose proof E as E'. unfold pack_rows in E'.
    rewrite no_empty in E' by auto. injection E' as <- <-.
    rewrite <- U. rewrite unpack_pack. apply repack; auto.
    intros row x Hr Hx m. pose proof (packable_pos _ (H row Hr)) as Hm. fold m in Hm, Hx.
    pose proof (log_code_range lf m x) as Hc.
    split; [apply value_range; auto|]. split.
    + apply recode; auto. apply (In_nth _ _ []) in Hr. destruct Hr as (r & Hr & Er).
      specialize (Heps r Hr). rewrite HM in Heps by auto. rewrite Er in Heps. exact Heps.
    + rewrite code_max by auto. apply value_max; auto.
Qed.

(** Only the two enum members are accepted; without [log_floor] the floor is -3. *)
Lemma pack_dispatch : forall (rows : list (list R)) packed maxs lf,
  pack_array log10R pow10R OtherPacking lf rows = Err ValueError /\
  unpack_array pow10R OtherPacking lf packed maxs = Err ValueError /\
  pack_array log10R pow10R LogFromRowmax None rows = pack_array log10R pow10R LogFromRowmax (Some (-3)) rows /\
  unpack_array pow10R LogFromRowmax None packed maxs = unpack_array pow10R LogFromRowmax (Some (-3)) packed maxs.
Proof. intros. repeat split. Qed.

(** The claims as first stated, as far as they hold. *)
Lemma c17_partial : forall (rows : list (list R)) (lf : R), lf < 0 ->
  (forall row, In row rows -> packable row) ->
  exists packed maxs back,
    pack_array log10R pow10R LogFromRowmax (Some lf) rows = Ok (packed, maxs) /\
    unpack_array pow10R LogFromRowmax (Some lf) packed maxs = Ok back /\
    same_shape packed rows /\ same_shape back rows /\ length maxs = length rows /\
    forall r i, (r < length rows)%nat -> (i < length (nth r rows []))%nat ->
       let m := nth0 r maxs in let x := entry rows r i in let v := entry back r i in
       let eps := Rpower 10 (3 * lf) in
       is_max m (nth r rows []) /\
       (0 <= byte packed r i <= 255)%Z /\
       (* half a step above the floor the relative error is at most half a step *)
       (m * Rpower 10 (lf * (509 / 510)) < x ->
          x * Rpower 10 (lf / 510) <= v /\ v <= (x + eps) * Rpower 10 (- lf / 510)) /\
       (* below the floor by at least the added constant, the value is dropped *)
       (x + eps <= m * Rpower 10 lf -> v = 0).
Proof.
  intros rows lf Hlf H. destruct (c71_log rows lf Hlf H) as (p & ms & back & E1 & E2 & S1 & S2 & L & HP & _).
  exists p, ms, back. split; auto. split; auto. split; auto. split; auto. split; auto.
  intros r i Hr Hi m x v eps. destruct (HP r i Hr Hi) as (M & Hb & Hz & Hk & _).
  fold m x v eps in M, Hz, Hk. pose proof (pow10_pos (3 * lf)) as He. unfold pow10R in He. fold eps in He.
  split; auto. split; auto. split.
  - intros Hx. apply Hk. intros C. apply Hz in C. lra.
  - intros Hx. apply Hz. eapply Rle_trans; [exact Hx|].
    assert (0 <= m).
    { pose proof (H _ (nth_In rows [] Hr)) as Hp. destruct M as (_ & M). specialize (M i Hi).
      assert (0 <= nth0 i (nth r rows [])) by (apply Hp; auto). lra. }
    apply Rmult_le_compat_l; auto. apply (proj1 (pow10_le _ _)). lra.
Qed.

Lemma pow10_ge a : 0 <= a -> 1 + a <= pow10R a.
Proof.
  intros Ha. unfold pow10R, Rpower. pose proof ln10.
  apply Rle_trans with (1 + a * ln 10); [nra|].
  destruct (Req_dec a 0) as [->|]; [rewrite Rmult_0_l, exp_0; lra|].
  left. apply exp_ineq1. nra.
Qed.
Lemma pow10_m3 : pow10R (-3) = / 1000.
Proof. unfold pow10R.
  replace (-3) with (- INR 3) by (simpl; ring). rewrite Rpower_Ropp, Rpower_pow by lra. f_equal. simpl. ring. Qed.
Lemma pow10_m9 : pow10R (3 * -3) = / 1000000000.
Proof. unfold pow10R.
  replace (3 * -3) with (- INR 9) by (simpl; ring). rewrite Rpower_Ropp, Rpower_pow by lra. f_equal. simpl. ring. Qed.

Lemma single_back lf rows packed maxs back : lf < 0 ->
  (forall row, In row rows -> packable row) ->
  pack_array log10R pow10R LogFromRowmax (Some lf) rows = Ok (packed, maxs) ->
  unpack_array pow10R LogFromRowmax (Some lf) packed maxs = Ok back ->
  forall r i, (r < length rows)%nat -> (i < length (nth r rows []))%nat ->
    entry back r i = log_value pow10R lf (row_max (nth r rows [])) (log_code log10R pow10R lf (row_max (nth r rows [])) (entry rows r i)).
Proof.
  intros Hlf H E U r i Hr Hi. unfold pack_array, log_pack, pack_rows in E. rewrite no_empty in E by auto.
  injection E as <- <-. cbn [unpack_array] in U. injection U as <-.
  change (log_unpack pow10R lf) with (unpack_rows (log_value pow10R lf)).
  rewrite unpack_pack. unfold entry. rewrite (nth_map' _ rows []) by auto. rewrite (nth0_map' _ _ 0) by auto. reflexivity.
Qed.

Lemma ex_row_packable a b : 0 < a -> 0 <= b -> forall row, In row [[a; b]] -> packable row.
Proof.
  intros Ha Hb row [<-|[]]. split.
  - intros [|[|]] Hi; simpl in *; try lia; unfold nth0; simpl; lra.
  - exists 0%nat. simpl. split; [lia|]. unfold nth0; simpl. auto.
Qed.
Lemma ex_row_max a b : b <= a -> row_max [a; b] = a.
Proof. intros. unfold row_max. simpl. unfold nmaximum. cbn [fold_left]. unfold nmax. ncase; auto. apply Rle_antisym; auto. Qed.

(** A value above the floor can be lost, and a zero can come back as the maximum. *)
Lemma c17_refuted : exists (rows : list (list R)) (lf : R) packed maxs back,
  lf < 0 /\ (forall row, In row rows -> packable row) /\
  pack_array log10R pow10R LogFromRowmax (Some lf) rows = Ok (packed, maxs) /\
  unpack_array pow10R LogFromRowmax (Some lf) packed maxs = Ok back /\
  (* row 0: 1.001 times the floor, dropped *)
  (nth0 0 maxs * Rpower 10 lf < entry rows 0 1 /\ entry back 0 1 = 0) /\
  (* row 1: a zero, far below the floor, becomes the maximum *)
  (entry rows 1 1 = 0 /\ entry back 1 1 = nth0 1 maxs /\ 0 < nth0 1 maxs).
Proof.
  set (rows := [[1; 1001 / 1000000]; [/ 1000000000; 0]]).
  assert (H : forall row, In row rows -> packable row).
  { intros row [<-|[<-|[]]]; [eapply (ex_row_packable 1 (1001/1000000))|eapply (ex_row_packable (/ 1000000000) 0)]; try lra; left; auto. }
  assert (Hlf : -3 < 0) by lra.
  destruct (c71_log rows (-3) Hlf H) as (p & ms & back & E1 & E2 & _).
  exists rows, (-3), p, ms, back. split; auto. split; auto. split; auto. split; auto.
  pose proof (single_back (-3) rows p ms back Hlf H E1 E2) as B.
  assert (Em : ms = map row_max rows).
  { unfold pack_array, log_pack, pack_rows in E1. rewrite no_empty in E1 by auto. injection E1 as _ <-. auto. }
  assert (M0 : row_max (nth 0 rows []) = 1) by (apply ex_row_max; lra).
  assert (M1 : row_max (nth 1 rows []) = / 1000000000) by (apply ex_row_max; lra).
  rewrite Em. change (nth0 0 (map row_max rows)) with (row_max (nth 0 rows [])).
  change (nth0 1 (map row_max rows)) with (row_max (nth 1 rows [])). rewrite !B by (simpl; lia). rewrite M0, M1.
  change (entry rows 0 1) with (1001 / 1000000). change (entry rows 1 1) with 0.
  pose proof pow10_m3 as P3. pose proof pow10_m9 as P9.
  split; split.
  - change (Rpower 10 (-3)) with (pow10R (-3)). rewrite P3. lra.
  - assert (log_code log10R pow10R (-3) 1 (1001 / 1000000) = 0%Z) as ->.
    { apply code_zero; try lra. rewrite P9.
      replace (-3 * (509 / 510)) with (-3 + 3 / 510) by field. rewrite pow10_add, P3.
      pose proof (pow10_ge (3 / 510) ltac:(lra)). lra. }
    rewrite log_value_eq. reflexivity.
  - auto.
  - split; [|lra].
    assert (log_code log10R pow10R (-3) (/ 1000000000) 0 = 255%Z) as ->.
    { rewrite log_code_eq. unfold lscale. rewrite P9.
      replace ((0 + / 1000000000) / / 1000000000) with 1 by field.
      unfold log10R. rewrite ln_1. replace (255 * (0 / ln 10 - -3) / - -3) with (IZR 255) by (pose proof ln10; field; lra).
      rewrite nround_IZR. reflexivity. }
    apply value_max.
Qed.

(** Negative values and the largest value of the model of the byte cast. *)
Lemma c16_negative_wraps :
  linear_code 1%Q (- (1 # 255))%Q = 255%Z.
Proof. vm_compute. reflexivity. Qed.

(** Hypotheses are satisfiable. *)
Lemma c16_example :
  pack_array (fun x => x) (fun x => x) LinearFromRowmax None [[1; 2; 3; 0]; [5; 1 # 7; 0; 0]]%Q
  = Ok ([[85; 170; 255; 0]; [255; 7; 0; 0]]%Z, [3; 5]%Q).
Proof. vm_compute. reflexivity. Qed.
Lemma c71_example : exists rows : list (list R), exists lf packed maxs,
  rows <> [] /\ lf < 0 /\ (forall row, In row rows -> packable row) /\
  pack_array log10R pow10R LogFromRowmax (Some lf) rows = Ok (packed, maxs) /\
  forall r, (r < length rows)%nat ->
        Rpower 10 (3 * lf) < nth0 r maxs * Rpower 10 lf * (Rpower 10 (- lf / 510) - 1).
Proof.
  exists [[1; 1/2]], (-3). destruct (c71_log [[1; 1/2]] (-3) ltac:(lra)) as (p & ms & back & E1 & _).
  { apply ex_row_packable; lra. }
  exists p, ms. split; [congruence|]. split; [lra|]. split; [apply ex_row_packable; lra|]. split; auto.
  unfold pack_array, log_pack, pack_rows in E1. rewrite no_empty in E1 by (apply ex_row_packable; lra).
  injection E1 as _ <-.
  intros [|r] Hr; [|simpl in Hr; lia].
  change (nth0 0 (map row_max [[1; 1/2]])) with (row_max [1; 1/2]). rewrite ex_row_max by lra.
  pose proof pow10_m3 as P3. pose proof pow10_m9 as P9. unfold pow10R in P3, P9. rewrite P3, P9.
  pose proof (pow10_ge (- -3 / 510) ltac:(lra)) as G. unfold pow10R in G.
  change (nth0 0 [1]) with 1. lra.
Qed.
