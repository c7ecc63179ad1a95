(** Grid points that lie on the line (C157). *)
From Coq Require Import String List Arith ZArith Bool Lia Reals Lra.
From Verif Require Import Num NumProofs PairwiseProofs Py NdArray NumpyLib Utils ScipyWrap Spec Values Ensemble Classes
  InterpPdf SortProofs BinProofs EvalProofs NdProofs IntegralProofs TableProofs InterpProofs InterpPdfProofs GridTheorems IrrTheorems HistProofs
  Kinds KindProofs EnsembleProofs KindInputs ReachProofs RowProofs EnsembleTheorems IntegrateTheorems ConvertTheorems
  Hdf5 Hdf5Theorems MetricsProofs Profile ProfileTheorems.
Import ListNotations.
Local Open Scope string_scope.
Local Open Scope list_scope.
Local Open Scope R_scope.

(** [v] put in front of position [k] *)
Definition ins (k : nat) (v : R) (l : list R) : list R := firstn k l ++ v :: skipn k l.
(** The value at [z] of the line through the two neighbours of position [k] *)
Definition on_line (xs row : list R) (k : nat) (z : R) : R :=
  nth0 (pred k) row + (nth0 k row - nth0 (pred k) row) * (z - nth0 (pred k) xs) / (nth0 k xs - nth0 (pred k) xs).
Definition between (xs : list R) (k : nat) (z : R) : Prop := (1 <= k < length xs)%nat /\ nth0 (pred k) xs < z < nth0 k xs.

Lemma ins_length k v l : length (ins k v l) = S (length l).
Proof. unfold ins. rewrite app_length. cbn [length]. rewrite <- plus_n_Sm. f_equal. rewrite <- app_length, firstn_skipn. reflexivity. Qed.
Lemma ins_lt k v l i : (k <= length l)%nat -> (i < k)%nat -> nth0 i (ins k v l) = nth0 i l.
Proof. intros Hk Hi. unfold ins, nth0. rewrite app_nth1 by (rewrite firstn_length; lia). rewrite <- (firstn_skipn k l) at 2. rewrite app_nth1 by (rewrite firstn_length; lia). reflexivity. Qed.
Lemma ins_eq k v l : (k <= length l)%nat -> nth0 k (ins k v l) = v.
Proof. intros Hk. unfold ins, nth0. rewrite app_nth2; rewrite firstn_length, Nat.min_l by exact Hk; [|lia]. rewrite Nat.sub_diag. reflexivity. Qed.
Lemma ins_gt k v l i : (k <= length l)%nat -> (k <= i)%nat -> nth0 (S i) (ins k v l) = nth0 i l.
Proof.
  intros Hk Hi. unfold ins, nth0. rewrite app_nth2; rewrite firstn_length, Nat.min_l by exact Hk; [|lia]. replace (S i - k)%nat with (S (i - k)) by lia. cbn [nth].
  rewrite <- (firstn_skipn k l) at 2. rewrite app_nth2; rewrite firstn_length, Nat.min_l by exact Hk; [reflexivity|lia].
Qed.
Lemma ins_in k v l x : In x (ins k v l) -> x = v \/ In x l.
Proof. unfold ins. intros H. apply in_app_or in H. destruct H as [H|[H|H]]; [right|left; auto|right]; rewrite <- (firstn_skipn k l); apply in_or_app; auto. Qed.
Lemma ins_inc xs k z : increasing xs -> between xs k z -> increasing (ins k z xs).
Proof.
  intros Hs (Hk & Hz). assert (G : forall i j, (i < j)%nat -> (j < length (ins k z xs))%nat -> nth0 i (ins k z xs) < nth0 j (ins k z xs)); [|apply step_increasing; intros i Hi; apply G; lia]. intros i j Hij Hj. rewrite ins_length in Hj.
  assert (L : forall i j, (i < j < length xs)%nat -> nth0 i xs < nth0 j xs) by (intros; apply inc_lt; auto; lia).
  assert (Lo : forall i, (i < k)%nat -> nth0 i xs < z). { intros i0 H0. destruct (Nat.eq_dec i0 (pred k)) as [->|]; [apply Hz|]. pose proof (L i0 (pred k) ltac:(lia)). lra. }
  assert (Up : forall i, (k <= i < length xs)%nat -> z < nth0 i xs). { intros i0 H0. destruct (Nat.eq_dec i0 k) as [->|]; [apply Hz|]. pose proof (L k i0 ltac:(lia)). lra. }
  destruct (lt_eq_lt_dec i k) as [[Hi|Hi]|Hi]; [rewrite (ins_lt k z xs i) by lia|subst i; rewrite ins_eq by lia|destruct i as [|i]; [lia|]; rewrite (ins_gt k z xs i) by lia].
  - destruct (lt_eq_lt_dec j k) as [[Hjk|Hjk]|Hjk]; [rewrite ins_lt by lia; apply L; lia|subst j; rewrite ins_eq by lia; apply Lo; lia|destruct j as [|j]; [lia|]; rewrite ins_gt by lia; apply L; lia].
  - destruct j as [|j]; [lia|]. rewrite ins_gt by lia. apply Up. lia.
  - destruct j as [|j]; [lia|]. rewrite ins_gt by lia. apply L. lia.
Qed.
Lemma ins_last xs k z : (1 <= k < length xs)%nat -> nlast (ins k z xs) = nlast xs.
Proof. intros H. rewrite !nlast_nth0, ins_length. cbn [pred]. destruct (length xs) as [|n] eqn:E; [lia|]. rewrite ins_gt by lia. reflexivity. Qed.

(** ** Interpolation with the additional point *)
Lemma ins_interp xs ys k z w lo hi x : increasing xs -> length ys = length xs -> between xs k z -> w = on_line xs ys k z \/ x <= nth0 (pred k) xs \/ nth0 k xs <= x ->
  interp1d (ins k z xs) (ins k w ys) lo hi x = interp1d xs ys lo hi x.
Proof.
  intros Hs Hl Hb Hw. pose proof (ins_inc xs k z Hs Hb) as Hs'. pose proof Hb as (Hk & Hz).
  assert (Hle : nth0 0 xs <= nlast xs) by (apply nondec_last; [apply inc_nd; exact Hs|lia]).
  destruct (Rlt_le_dec x (nth0 0 xs)) as [H0|H0]; [rewrite !interp1d_below by (rewrite ?ins_lt by lia; exact H0); reflexivity|].
  destruct (Rlt_le_dec (nlast xs) x) as [H1|H1]; [rewrite !interp1d_above by (rewrite ?ins_lt, ?ins_last by lia; assumption); reflexivity|].
  destruct (segment_exists_closed xs x (inc_nd _ Hs) ltac:(lia) (conj H0 H1)) as (j & Hj & Hx). rewrite (interp1d_closed xs ys lo hi x j Hs Hj Hx).
  destruct (lt_eq_lt_dec (S j) k) as [[Hjk|Hjk]|Hjk].
  - rewrite (interp1d_closed _ _ lo hi x j Hs'); [rewrite !ins_lt by lia; reflexivity|rewrite ins_length; lia|rewrite !ins_lt by lia; exact Hx].
  - assert (Ep : pred k = j) by lia. rewrite Ep in Hz, Hw. subst k. unfold on_line in Hw. cbn [pred] in Hw. assert (Hd : nth0 j xs < nth0 (S j) xs) by lra. destruct (Rle_lt_dec x z) as [Hxz|Hxz].
    + rewrite (interp1d_closed _ _ lo hi x j Hs'); [|rewrite ins_length; lia|rewrite ins_lt, ins_eq by lia; lra]. rewrite (ins_lt _ _ xs j), (ins_lt _ _ ys j), (ins_eq _ _ xs), (ins_eq _ _ ys) by lia. unfold seg. destruct Hw as [->|[Hw|Hw]]; [field; lra| |lra].
      assert (x = nth0 j xs) as -> by lra. unfold Rminus. rewrite !Rplus_opp_r, !Rmult_0_r. reflexivity.
    + rewrite (interp1d_closed _ _ lo hi x (S j) Hs'); [|rewrite ins_length; lia|rewrite (ins_gt _ _ xs (S j)), ins_eq by lia; lra]. rewrite (ins_gt _ _ xs (S j)), (ins_gt _ _ ys (S j)), (ins_eq _ _ xs), (ins_eq _ _ ys) by lia. unfold seg. destruct Hw as [->|[Hw|Hw]]; [field; lra|lra|].
      assert (x = nth0 (S j) xs) as -> by lra. field. lra.
  - rewrite (interp1d_closed _ _ lo hi x (S j) Hs'); [rewrite !ins_gt by lia; reflexivity|rewrite ins_length; lia|rewrite !ins_gt by lia; exact Hx].
Qed.
(** ** Areas with the additional point *)
Lemma ins_trap_lt xs ys k z w i : (k <= length xs)%nat -> length ys = length xs -> (S i < k)%nat -> trap (ins k z xs) (ins k w ys) i = trap xs ys i.
Proof. intros Hk Hl Hi. unfold trap. rewrite !ins_lt by lia. reflexivity. Qed.
Lemma ins_sum_lt xs ys k z w j : (k <= length xs)%nat -> length ys = length xs -> (j < k)%nat -> rsum j (trap (ins k z xs) (ins k w ys)) = rsum j (trap xs ys).
Proof. intros Hk Hl Hj. apply rsum_ext. intros i Hi. apply ins_trap_lt; lia. Qed.
Lemma ins_sum_ge xs ys k z j : between xs k z -> length ys = length xs -> (k <= j)%nat -> rsum (S j) (trap (ins k z xs) (ins k (on_line xs ys k z) ys)) = rsum j (trap xs ys).
Proof.
  intros (Hk & Hz) Hl Hj. induction Hj as [|j Hj IH].
  - destruct k as [|k]; [lia|]. cbn [rsum]. rewrite ins_sum_lt by lia. unfold trap at 2 3 5. rewrite (ins_gt _ _ xs (S k)), (ins_gt _ _ ys (S k)), (ins_eq _ _ xs), (ins_eq _ _ ys), (ins_lt _ _ xs k), (ins_lt _ _ ys k) by lia. unfold on_line. cbn [pred] in *. field. lra.
  - change (rsum (S j) (trap xs ys)) with (rsum j (trap xs ys) + trap xs ys j). rewrite <- IH. cbn [rsum]. f_equal. unfold trap. rewrite !ins_gt by lia. reflexivity.
Qed.
Lemma ins_area xs ys k z : between xs k z -> length ys = length xs -> area (ins k z xs) (ins k (on_line xs ys k z) ys) = area xs ys.
Proof. intros Hb Hl. unfold area. rewrite ins_length. cbn [pred]. pose proof Hb as (Hk & _). destruct (length xs) as [|n] eqn:E; [lia|]. cbn [pred]. destruct n; [lia|]. apply ins_sum_ge; [exact Hb|lia|lia]. Qed.
Lemma on_line_pos xs ys k z : between xs k z -> length ys = length xs -> (forall i, (i < length ys)%nat -> 0 <= nth0 i ys) -> 0 <= on_line xs ys k z.
Proof.
  intros (Hk & Hz) Hl Hp. pose proof (Hp (pred k) ltac:(lia)) as P0. pose proof (Hp k ltac:(lia)) as P1. unfold on_line. set (a := nth0 (pred k) xs) in *. set (b := nth0 k xs) in *. set (u := nth0 (pred k) ys) in *. set (v := nth0 k ys) in *.
  replace (u + (v - u) * (z - a) / (b - a)) with ((u * (b - z) + v * (z - a)) * / (b - a)) by (field; lra). apply Rmult_le_pos; [nra|]. left. apply Rinv_0_lt_compat. lra.
Qed.
Lemma ins_input xs rows k z : interp_input xs rows -> between xs k z -> interp_input (ins k z xs) (map (fun row => ins k (on_line xs row k z) row) rows).
Proof.
  intros (Hs & Hn & Hne & Hr) Hb. split; [apply ins_inc; assumption|]. split; [rewrite ins_length; lia|]. split; [destruct rows; [congruence|discriminate]|].
  intros row' Hin. apply in_map_iff in Hin. destruct Hin as (row & <- & Hin). destruct (Hr row Hin) as (Hl & Hp & Ha). pose proof Hb as (Hk & _). split; [rewrite !ins_length; lia|]. split.
  - intros i Hi. rewrite ins_length in Hi. destruct (lt_eq_lt_dec i k) as [[H|H]|H]; [rewrite ins_lt by lia; apply Hp; lia|subst i; rewrite ins_eq by lia; apply on_line_pos; assumption|destruct i as [|i]; [lia|]; rewrite ins_gt by lia; apply Hp; lia].
  - change (0 < area (ins k z xs) (ins k (on_line xs row k z) row)). rewrite ins_area by assumption. exact Ha.
Qed.
Lemma map_ins (f : R -> R) k v l : map f (ins k v l) = ins k (f v) (map f l).
Proof. unfold ins. rewrite map_app. cbn [map]. rewrite firstn_map, skipn_map. reflexivity. Qed.
Lemma ins_inorm xs row k z : interp_input xs [row] -> between xs k z ->
  inorm (ins k z xs) (ins k (on_line xs row k z) row) = ins k (on_line xs (inorm xs row) k z) (inorm xs row).
Proof.
  intros Hi Hb. pose proof (ins_input xs [row] k z Hi Hb) as Hi'. destruct Hi as (Hs & Hn & _ & Hr). destruct (Hr row (or_introl eq_refl)) as (Hl & _ & Ha). pose proof Hb as (Hk & Hz). unfold inorm. rewrite map_ins.
  rewrite (yc_last (ins k z xs)) by (rewrite ?ins_length; lia). rewrite (yc_last xs row) by assumption. rewrite ins_area by assumption. f_equal.
  unfold on_line. rewrite !(nth0_map (fun y => y / area xs row)) by lia. assert (Ha' : 0 < area xs row) by exact Ha. field. lra.
Qed.
(** C157: the density is unchanged everywhere, the cdf outside the interval that got the point *)
Lemma c157_interp : forall X xs rows k z, fill_outside X -> interp_input xs rows -> between xs k z ->
  exists e e', ens_new (create_of (qp X) "interp") (input_dict (IInterp xs rows)) None = Ok e /\
    ens_new (create_of (qp X) "interp") (input_dict (IInterp (ins k z xs) (map (fun row => ins k (on_line xs row k z) row) rows))) None = Ok e' /\
    (forall p, on_points p -> ens_pdf e' p = ens_pdf e p) /\
    (forall x, nth0 k xs <= x \/ (2 <= k)%nat /\ x <= nth0 (pred k) xs -> ens_cdf e' (PScalar x) = ens_cdf e (PScalar x)).
Proof.
  intros X xs rows k z HX Hi Hb. pose proof (ins_input xs rows k z Hi Hb) as Hi'. destruct (created X (IInterp xs rows) HX Hi) as (e & E & _ & HD & _). destruct (created X (IInterp _ _) HX Hi') as (e' & E' & _ & HD' & _).
  exists e, e'. split; [exact E|]. split; [exact E'|]. 
  assert (One : forall row, In row rows -> interp_input xs [row]).
  { intros row Hin. destruct Hi as (H1 & H2 & _ & H3). split; [exact H1|]. split; [exact H2|]. split; [discriminate|]. intros row' [<-|[]]. apply H3, Hin. }
  split.
  - intros p Hp. change (evaluate MPdf e' p = evaluate MPdf e p). rewrite (rep_answers _ _ _ _ MPdf p HD) by (cbn; auto). rewrite (rep_answers _ _ _ _ MPdf p HD') by (cbn; auto). f_equal. cbn [input_rows]. rewrite !map_map. apply map_ext_in. intros row Hin. specialize (One row Hin).
    assert (V : forall x, val (s_phi X) (s_Phi X) (s_quad X) (s_Phinv X) (KInterp (ins k z xs)) MPdf [Nums (inorm (ins k z xs) (ins k (on_line xs row k z) row))] x = val (s_phi X) (s_Phi X) (s_quad X) (s_Phinv X) (KInterp xs) MPdf [Nums (inorm xs row)] x).
    { intros x. cbn [val]. unfold interp_val, num_at, cell_at. cbn [nth nums]. f_equal. rewrite !inorm_twice, ins_inorm by assumption. destruct One as (H1 & H2 & _ & H3). apply ins_interp; auto. rewrite inorm_length. apply H3. left. reflexivity. }
    destruct p as [x|l|M]; cbn [row_answer input_kind]; [rewrite V; reflexivity|apply map_ext; exact V|destruct Hp].
  - intros x Hx. change (evaluate MCdf e' (PScalar x) = evaluate MCdf e (PScalar x)). rewrite (rep_answers _ _ _ _ MCdf _ HD) by (cbn; auto). rewrite (rep_answers _ _ _ _ MCdf _ HD') by (cbn; auto). f_equal. cbn [input_rows]. rewrite !map_map. apply map_ext_in. intros row Hin. specialize (One row Hin).
    cbn [row_answer input_kind val]. unfold interp_val, num_at, cell_at. cbn [nth nums]. do 2 f_equal. rewrite !icum_inorm. pose proof One as (H1 & H2 & _ & H3). destruct (H3 row (or_introl eq_refl)) as (Hl & _ & _). pose proof Hb as (Hk & Hz).
    set (c := icum xs row). set (c' := icum (ins k z xs) (ins k (on_line xs row k z) row)).
    assert (Lc : length c = length xs) by (unfold c, icum; rewrite map_length; apply yc_length; assumption). assert (Lc' : length c' = S (length xs)) by (unfold c', icum; rewrite map_length, yc_length, ins_length by (rewrite ?ins_length; lia); reflexivity).
    assert (A : forall i, (k <= i < length xs)%nat -> nth0 (S i) c' = nth0 i c).
    { intros i Hi0. unfold c, c', icum. rewrite !nth0_map_div, !yc_last by (rewrite ?ins_length; lia). rewrite ins_area by assumption. f_equal. rewrite yc_S by (rewrite ?ins_length; lia). destruct i as [|i]; [lia|]. rewrite yc_S by lia. apply ins_sum_ge; [exact Hb|exact Hl|lia]. }
    assert (B : forall i, (2 <= k)%nat -> (i < k)%nat -> nth0 i c' = nth0 i c).
    { intros i H2k Hi0. unfold c, c', icum. rewrite !nth0_map_div, !yc_last by (rewrite ?ins_length; lia). rewrite ins_area by assumption. f_equal. destruct i as [|i]; [rewrite !yc_0 by (rewrite ?ins_length; lia); unfold first_step; rewrite !ins_lt by lia; reflexivity|].
      rewrite !yc_S by (rewrite ?ins_length; lia). apply ins_sum_lt; lia. }
    destruct (le_lt_dec 2 k) as [H2k|H2k].
    + assert (Ec : c' = ins k (nth0 k c') c).
      { apply (nth_ext _ _ 0 0); [rewrite ins_length; lia|]. intros i Hi0. change (nth0 i c' = nth0 i (ins k (nth0 k c') c)). destruct (lt_eq_lt_dec i k) as [[H|H]|H]; [rewrite ins_lt by lia; apply B; lia|subst i; rewrite ins_eq by lia; reflexivity|destruct i as [|i]; [lia|]; rewrite ins_gt by lia; apply A; lia]. }
      rewrite Ec. apply ins_interp; auto. right. destruct Hx as [Hx|[_ Hx]]; auto.
    + assert (k = 1%nat) by lia. subst k. destruct Hx as [Hx|[Hx _]]; [|lia]. cbn [pred] in *. pose proof (ins_inc xs 1 z H1 Hb) as Hs'.
      destruct (Rlt_le_dec (nlast xs) x) as [Hgt|Hgt]; [assert (nth0 0 xs <= nlast xs) by (apply nondec_last; [apply inc_nd; exact H1|lia]); rewrite !interp1d_above by (rewrite ?ins_lt, ?ins_last by lia; assumption); reflexivity|].
      destruct (segment_exists_closed xs x (inc_nd _ H1) ltac:(lia)) as (j & Hj & Hxj); [split; [|exact Hgt]; lra|].
      destruct j as [|j].
      * assert (x = nth0 1 xs) as -> by lra. rewrite (interp1d_knot xs c) by (try assumption; lia). replace (nth0 1 xs) with (nth0 2 (ins 1 z xs)) by (apply ins_gt; lia). rewrite interp1d_knot by (try assumption; rewrite ins_length; lia). apply A. lia.
      * rewrite (interp1d_closed xs c 0 1 x (S j) H1 Hj Hxj). rewrite (interp1d_closed (ins 1 z xs) c' 0 1 x (S (S j)) Hs'); [rewrite !A, !ins_gt by lia; reflexivity|rewrite ins_length; lia|rewrite !ins_gt by lia; exact Hxj].
Qed.
(** A point in the first interval changes the cdf at the lower end: the table of the cdf starts with half the first step. *)
Lemma c157_first : exists X xs rows z e e' y y', fill_outside X /\ interp_input xs rows /\ between xs 1 z /\
  ens_new (create_of (qp X) "interp") (input_dict (IInterp xs rows)) None = Ok e /\
  ens_new (create_of (qp X) "interp") (input_dict (IInterp (ins 1 z xs) (map (fun row => ins 1 (on_line xs row 1 z) row) rows))) None = Ok e' /\
  ens_cdf e (PScalar (nth0 0 xs)) = Ok [[Fin y]] /\ ens_cdf e' (PScalar (nth0 0 xs)) = Ok [[Fin y']] /\ y <> y'.
Proof.
  assert (Hi : interp_input [0; 2] [[1; 1]]).
  { split; [repeat constructor; lra|]. split; [simpl; lia|]. split; [discriminate|]. intros row [<-|[]]. split; [reflexivity|]. split; [intros [|[|j]] Hj; unfold nth0; simpl in *; try lra; lia|unfold nth0; simpl; lra]. }
  assert (Hb : between [0; 2] 1 1) by (split; [simpl; lia|unfold nth0; simpl; lra]).
  pose proof (ins_input _ _ 1 1 Hi Hb) as Hi'. destruct (created scipy0 (IInterp _ _) scipy0_fill Hi) as (e & E & _ & HD & _). destruct (created scipy0 (IInterp _ _) scipy0_fill Hi') as (e' & E' & _ & HD' & _).
  exists scipy0, [0; 2], [[1; 1]], 1, e, e', (1 / 2), (1 / 4). split; [exact scipy0_fill|]. split; [exact Hi|]. split; [exact Hb|]. split; [exact E|]. split; [exact E'|].
  assert (One : forall xs row, interp_input xs [row] -> nth0 0 (icum xs row) = first_step xs row / area xs row).
  { intros xs row (H1 & H2 & _ & H3). destruct (H3 row (or_introl eq_refl)) as (Hl & _ & _). unfold icum. rewrite nth0_map_div, yc_last, yc_0 by assumption. reflexivity. }
  split; [|split; [|lra]].
  - change (evaluate MCdf e (PScalar (nth0 0 [0; 2])) = Ok [[Fin (1 / 2)]]). rewrite (rep_answers _ _ _ _ MCdf _ HD) by (cbn; auto). cbn [input_rows map row_answer input_kind val]. unfold interp_val, num_at, cell_at. cbn [nth nums]. rewrite icum_inorm. rewrite interp1d_knot by (try apply Hi; simpl; lia). rewrite (One _ _ Hi). unfold first_step, area, trap, nth0. cbn. do 4 f_equal. field.
  - change (evaluate MCdf e' (PScalar (nth0 0 [0; 2])) = Ok [[Fin (1 / 4)]]). rewrite (rep_answers _ _ _ _ MCdf _ HD') by (cbn; auto). cbn [map] in Hi' |- *. cbn [input_rows map row_answer input_kind val]. unfold interp_val, num_at, cell_at. cbn [nth nums]. rewrite icum_inorm.
    change (nth0 0 [0; 2]) with (nth0 (N := RNum) 0 (ins 1 1 [0; 2])). rewrite interp1d_knot by (try apply Hi'; simpl; lia). rewrite (One _ _ Hi'). rewrite ins_area by (try exact Hb; reflexivity). unfold first_step, area, trap, on_line, ins, nth0. cbn. do 4 f_equal. field.
Qed.
(** The irregular class normalises by right-hand rectangles, so there a point on the line changes the density. *)
Lemma c157_irregular : exists X xs row z e e' x y y', fill_outside X /\ irr_input (length xs) [xs] [row] /\ between xs 1 z /\
  ens_new (create_of (qp X) "interp_irregular") (input_dict (IIrr (length xs) [xs] [row])) None = Ok e /\
  ens_new (create_of (qp X) "interp_irregular") (input_dict (IIrr (S (length xs)) [ins 1 z xs] [ins 1 (on_line xs row 1 z) row])) None = Ok e' /\
  ens_pdf e (PScalar x) = Ok [[Fin y]] /\ ens_pdf e' (PScalar x) = Ok [[Fin y']] /\ y <> y'.
Proof.
  assert (Hl : on_line [0; 2] [0; 2] 1 1 = 1) by (unfold on_line, nth0; cbn; field).
  assert (Hi : irr_input 2 [[0; 2]] [[0; 2]]).
  { split; [lia|]. split; [discriminate|]. split; [reflexivity|]. split; [intros xs [<-|[]]; split; [reflexivity|repeat constructor; lra]|]. split; [intros ys [<-|[]]; split; [reflexivity|intros [|[|j]] Hj; unfold nth0; simpl in *; try lra; lia]|]. intros [|r] Hr; [|simpl in Hr; lia]. unfold at2, nth0. simpl. lra. }
  assert (Hi' : irr_input 3 [[0; 1; 2]] [[0; 1; 2]]).
  { split; [lia|]. split; [discriminate|]. split; [reflexivity|]. split; [intros xs [<-|[]]; split; [reflexivity|repeat constructor; lra]|]. split; [intros ys [<-|[]]; split; [reflexivity|intros [|[|[|j]]] Hj; unfold nth0; simpl in *; try lra; lia]|]. intros [|r] Hr; [|simpl in Hr; lia]. unfold at2, nth0. simpl. lra. }
  destruct (created scipy0 (IIrr _ _ _) scipy0_fill Hi) as (e & E & _ & HD & _). destruct (created scipy0 (IIrr _ _ _) scipy0_fill Hi') as (e' & E' & _ & HD' & _).
  exists scipy0, [0; 2], [0; 2], 1, e, e', 2, (1 / 2), (2 / 3). split; [exact scipy0_fill|]. split; [exact Hi|]. split; [split; [simpl; lia|unfold nth0; simpl; lra]|]. split; [exact E|]. split; [rewrite Hl; exact E'|]. split; [|split; [|lra]].
  - change (evaluate MPdf e (PScalar 2) = Ok [[Fin (1 / 2)]]). rewrite (rep_answers _ _ _ _ MPdf _ HD) by (cbn; auto). cbn [input_rows map2 map row_answer input_kind val]. unfold num_at, cell_at. cbn [nth nums]. replace (interp1d [0; 2] (normalize_interp1d_row [0; 2] [0; 2]) 0 0 2) with (interp1d [0; 2] (normalize_interp1d_row [0; 2] [0; 2]) 0 0 (nth0 1 [0; 2])) by reflexivity. rewrite interp1d_knot by (try (repeat constructor; lra); simpl; lia).
    unfold normalize_interp1d_row. rewrite npsum_R. unfold right_rect_terms, ndiff, nth0. cbn. do 4 f_equal. field.
  - change (evaluate MPdf e' (PScalar 2) = Ok [[Fin (2 / 3)]]). rewrite (rep_answers _ _ _ _ MPdf _ HD') by (cbn; auto). cbn [input_rows map2 map row_answer input_kind val]. unfold num_at, cell_at. cbn [nth nums]. replace (interp1d [0; 1; 2] (normalize_interp1d_row [0; 1; 2] [0; 1; 2]) 0 0 2) with (interp1d [0; 1; 2] (normalize_interp1d_row [0; 1; 2] [0; 1; 2]) 0 0 (nth0 2 [0; 1; 2])) by reflexivity. rewrite interp1d_knot by (try (repeat constructor; lra); simpl; lia).
    unfold normalize_interp1d_row. rewrite npsum_R. unfold right_rect_terms, ndiff, nth0. cbn. do 4 f_equal. field.
Qed.

(** ** Example *)
Lemma c157_example : exists xs rows k z, interp_input xs rows /\ between xs k z /\ (2 <= k)%nat /\ length rows = 2%nat /\ on_line xs (nth 0 rows []) k z <> on_line xs (nth 1 rows []) k z.
Proof.
  exists [0; 1; 3; 4], [[0; 1; 2; 0]; [1; 1; 0; 5]], 2%nat, 2. split.
  { split; [repeat constructor; lra|]. split; [simpl; lia|]. split; [discriminate|]. intros row [<-|[<-|[]]]; (split; [reflexivity|]; split; [intros [|[|[|[|j]]]] Hj; unfold nth0; simpl in *; try lra; lia|unfold nth0; simpl; lra]). }
  split; [split; [simpl; lia|unfold nth0; simpl; lra]|]. split; [lia|]. split; [reflexivity|]. unfold on_line, nth0. cbn. lra.
Qed.
