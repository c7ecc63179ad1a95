(** Quantile ensembles: padding, cdf / ppf at the given quantiles, pdf constructors. *)
From Coq Require Import String List Arith ZArith QArith Bool Sorted Lia Reals Lra Psatz.
From Coquelicot Require Import Coquelicot.
From Verif Require Import Num NumProofs Py NdArray NumpyLib Utils ScipyWrap Spec InterpPdf QuantPdf
  SortProofs EvalProofs NdProofs InterpProofs IntegralProofs BinProofs HistProofs HistTheorems TableProofs InterpPdfProofs
  GridTheorems IrrTheorems EvalTheorems.
Import ListNotations.
Local Open Scope R_scope.

(** Legal input: strictly increasing quantiles in [0,1], at least two of them, at least
    one PDF, strictly increasing locations. *)
Definition quant_input (quants : list R) (rows : list (list R)) : Prop :=
  increasing quants /\ (2 <= length quants)%nat /\ 0 <= nth0 0 quants /\ nlast quants <= 1 /\
  rows <> [] /\ forall row, In row rows -> length row = length quants /\ increasing row.

Lemma inc_app l1 l2 : increasing l1 -> increasing l2 ->
  (forall a b, In a l1 -> In b l2 -> a < b) -> increasing (l1 ++ l2).
Proof.
  intros H1 H2 H. induction H1 as [|a l Hs IH Hf]; simpl; auto.
  constructor; [apply IH; intros; apply H; simpl; auto|].
  apply Forall_app. split; auto. apply Forall_forall. intros. apply H; simpl; auto.
Qed.
Lemma in_ge_first l x : increasing l -> In x l -> nth0 0 l <= x.
Proof.
  intros Hs Hx. destruct (In_nth l x 0 Hx) as (i & Hi & <-). apply (inc_le l 0 i); auto. lia.
Qed.
Lemma in_le_last l x : increasing l -> In x l -> x <= nlast l.
Proof.
  intros Hs Hx. destruct (In_nth l x 0 Hx) as (i & Hi & <-). rewrite nlast_nth0.
  apply (inc_le l i (pred (length l))); auto. lia.
Qed.
Lemma float_eps_pos : 0 < (float_eps : R).
Proof. unfold float_eps, nfrac. cbn [ndiv nofZ RNum]. apply Rdiv_lt_0_compat; apply IZR_lt; reflexivity. Qed.

Lemma nth0_app_r (l1 l2 : list R) i : nth0 (length l1 + i) (l1 ++ l2) = nth0 i l2.
Proof. unfold nth0. rewrite app_nth2 by lia. f_equal. lia. Qed.
Lemma nth0_app_l (l1 l2 : list R) i : (i < length l1)%nat -> nth0 i (l1 ++ l2) = nth0 i l1.
Proof. intros. unfold nth0. apply app_nth1. auto. Qed.
Lemma nlast_app (l : list R) a : nlast (l ++ [a]) = a.
Proof. unfold nlast. apply last_last. Qed.

Section Pad.
  Variable quants : list R.
  Hypothesis Hq : increasing quants.
  Hypothesis Hn : (2 <= length quants)%nat.
  Hypothesis H0 : 0 <= nth0 0 quants.
  Hypothesis H1 : nlast quants <= 1.

  Lemma pad_lo_iff : pad_lo quants = true <-> (float_eps : R) < nth0 0 quants.
  Proof. unfold pad_lo. rewrite nhead_nth0. destruct (nltb_reflect (float_eps : R) (nth0 0 quants)); split; auto; try discriminate; contradiction. Qed.
  Lemma pad_hi_iff : pad_hi quants = true <-> nlast quants < 1.
  Proof. unfold pad_hi. numR. destruct (nltb_reflect (nlast quants) 1); split; auto; try discriminate; contradiction. Qed.

  Lemma pad_inc : increasing (pad_quants quants).
  Proof.
    unfold pad_quants. pose proof float_eps_pos. apply inc_app; [|apply inc_app; auto|].
    - destruct (pad_lo quants); repeat constructor.
    - destruct (pad_hi quants); repeat constructor.
    - intros a b Ha Hb. destruct (pad_hi quants) eqn:E; [|destruct Hb]. rewrite pad_hi_iff in E.
      destruct Hb as [<-|[]]. pose proof (in_le_last quants a Hq Ha). simpl. lra.
    - intros a b Ha Hb. destruct (pad_lo quants) eqn:E; [|destruct Ha]. rewrite pad_lo_iff in E.
      destruct Ha as [<-|[]]. apply in_app_or in Hb. destruct Hb as [Hb|Hb].
      + pose proof (in_ge_first quants b Hq Hb). simpl. lra.
      + destruct (pad_hi quants); [|destruct Hb]. destruct Hb as [<-|[]]. simpl. lra.
  Qed.
  Definition pad_off : nat := if pad_lo quants then 1 else 0.
  Lemma pad_quants_nth i : (i < length quants)%nat -> nth0 (pad_off + i) (pad_quants quants) = nth0 i quants.
  Proof.
    intros. unfold pad_quants, pad_off. destruct (pad_lo quants).
    - change 1%nat with (length [n0:R]). rewrite nth0_app_r, nth0_app_l; auto.
    - cbn [app plus]. apply nth0_app_l; auto.
  Qed.
  Lemma pad_first : 0 <= nth0 0 (pad_quants quants) <= float_eps /\ (pad_lo quants = true -> nth0 0 (pad_quants quants) = 0).
  Proof.
    pose proof float_eps_pos. unfold pad_quants. destruct (pad_lo quants) eqn:E.
    - unfold nth0. simpl. lra.
    - cbn [app]. rewrite nth0_app_l by lia. split; [|discriminate]. split; auto.
      destruct (Rle_lt_dec (nth0 0 quants) float_eps); auto. apply pad_lo_iff in r. congruence.
  Qed.
  Lemma pad_last : nlast (pad_quants quants) = 1.
  Proof.
    unfold pad_quants. destruct (pad_hi quants) eqn:E.
    - rewrite app_assoc. apply nlast_app.
    - rewrite app_nil_r. destruct (Rlt_le_dec (nlast quants) 1); [apply pad_hi_iff in r; congruence|].
      assert (nlast quants = 1) by lra. rewrite <- H. unfold nlast.
      destruct quants; [simpl in Hn; lia|]. destruct (pad_lo _); reflexivity.
  Qed.
  Lemma pad_lo_pad : pad_lo (pad_quants quants) = false.
  Proof.
    destruct (pad_lo (pad_quants quants)) eqn:E; auto. unfold pad_lo in E. rewrite nhead_nth0 in E.
    pose proof pad_first. destruct (nltb_reflect (float_eps : R) (nth0 0 (pad_quants quants))); [|discriminate]. lra.
  Qed.
  Lemma pad_hi_pad : pad_hi (pad_quants quants) = false.
  Proof.
    unfold pad_hi. rewrite pad_last. numR. destruct (nltb_reflect 1 1); auto. lra.
  Qed.
  Lemma pad_quants_idem : pad_quants (pad_quants quants) = pad_quants quants.
  Proof. unfold pad_quants at 1. rewrite pad_lo_pad, pad_hi_pad. simpl. apply app_nil_r. Qed.
  Lemma pad_locs_idem l : pad_locs (pad_quants quants) l = l.
  Proof. unfold pad_locs. rewrite pad_lo_pad, pad_hi_pad. simpl. apply app_nil_r. Qed.
  Lemma pad_quants_bound : (length quants <= length (pad_quants quants) <= length quants + 2)%nat.
  Proof. unfold pad_quants. rewrite !app_length. destruct (pad_lo quants), (pad_hi quants); simpl; lia. Qed.

  Variable row : list R.
  Hypothesis Hr : increasing row.
  Hypothesis Hl : length row = length quants.
  Lemma pad_lo_loc : pad_lo quants = true ->
    nth0 0 row - nth0 0 quants * (nth0 1 row - nth0 0 row) / (nth0 1 quants - nth0 0 quants) < nth0 0 row.
  Proof.
    intros E. rewrite pad_lo_iff in E. pose proof float_eps_pos.
    assert (nth0 0 quants < nth0 1 quants) by (apply inc_lt; auto; lia).
    assert (nth0 0 row < nth0 1 row) by (apply inc_lt; auto; lia).
    assert (0 < nth0 0 quants * (nth0 1 row - nth0 0 row) / (nth0 1 quants - nth0 0 quants)).
    { apply Rdiv_lt_0_compat; [apply Rmult_lt_0_compat|]; lra. }
    lra.
  Qed.
  Lemma last2_lt (l : list R) : increasing l -> (2 <= length l)%nat -> last2 l < nlast l.
  Proof. intros. unfold last2. rewrite nlast_nth0. apply inc_lt; auto. lia. Qed.
  Lemma pad_hi_loc : pad_hi quants = true ->
    nlast row < nlast row - (1 - nlast quants) * (last2 row - nlast row) / (nlast quants - last2 quants).
  Proof.
    intros E. rewrite pad_hi_iff in E. 
    pose proof (last2_lt quants Hq Hn). pose proof (last2_lt row Hr ltac:(lia)).
    assert (0 < (1 - nlast quants) * (nlast row - last2 row) / (nlast quants - last2 quants)).
    { apply Rdiv_lt_0_compat; [apply Rmult_lt_0_compat|]; lra. }
    assert ((1 - nlast quants) * (last2 row - nlast row) / (nlast quants - last2 quants) =
            - ((1 - nlast quants) * (nlast row - last2 row) / (nlast quants - last2 quants))) by (field; lra).
    lra.
  Qed.
  Lemma pad_locs_inc : increasing (pad_locs quants row).
  Proof.
    assert (Hb1 : forall b, In b row -> b <= nlast row) by (intros; apply in_le_last; auto).
    assert (Hb2 : forall b, In b row -> nth0 0 row <= b) by (intros; apply in_ge_first; auto).
    assert (Hlt : nth0 0 row <= nlast row) by (rewrite nlast_nth0; apply inc_le; auto; lia).
    unfold pad_locs. apply inc_app; [|apply inc_app; auto|].
    - destruct (pad_lo quants); repeat constructor.
    - destruct (pad_hi quants); repeat constructor.
    - intros a b Ha Hb. destruct (pad_hi quants) eqn:E; [|destruct Hb]. apply pad_hi_loc in E.
      destruct Hb as [<-|[]]. specialize (Hb1 a Ha). cbn [nsub nmul ndiv n1 RNum]. lra.
    - intros a b Ha Hb. destruct (pad_lo quants) eqn:E; [|destruct Ha]. apply pad_lo_loc in E.
      destruct Ha as [<-|[]]. apply in_app_or in Hb. cbn [nsub nmul ndiv n1 RNum] in *. destruct Hb as [Hb|Hb].
      + specialize (Hb2 b Hb). lra.
      + destruct (pad_hi quants) eqn:E2; [|destruct Hb]. apply pad_hi_loc in E2. destruct Hb as [<-|[]]. lra.
  Qed.
  Lemma pad_len : length (pad_locs quants row) = length (pad_quants quants).
  Proof. unfold pad_locs, pad_quants. rewrite !app_length. destruct (pad_lo quants), (pad_hi quants); simpl; lia. Qed.
  Lemma pad_locs_nth i : (i < length quants)%nat -> nth0 (pad_off + i) (pad_locs quants row) = nth0 i row.
  Proof.
    intros. unfold pad_locs, pad_off. destruct (pad_lo quants).
    - match goal with |- nth0 (1 + i) ([?a] ++ _) = _ => change 1%nat with (length [a]) end.
      rewrite nth0_app_r, nth0_app_l; auto. lia.
    - cbn [app plus]. apply nth0_app_l. lia.
  Qed.
End Pad.

Lemma quant_init_build quants rows name chk : (2 <= length quants)%nat -> rows <> [] -> (forall row, In row rows -> length row = length quants) ->
  In name pdf_constructor_names ->
  quant_init quants (nd2 (length quants) rows) chk name =
  Ok (mkquant (if chk then pad_quants quants else quants) (if chk then map (pad_locs quants) rows else rows)
        (nminimum (nhead (concat rows)) (tl (concat rows))) (nmaximum (nhead (concat rows)) (tl (concat rows)))
        name chk [length rows] : quant R).
Proof.
  intros Hn Hne Hr Hnm. unfold quant_init. replace (length (dat (nd2 (length quants) rows)) =? 0)%nat with false.
  2:{ symmetry. apply Nat.eqb_neq. destruct rows as [|row rows]; [congruence|]. cbn [nd2 dat concat]. rewrite app_length, (Hr row) by (left; reflexivity). lia. }
  rewrite reshape_nd2 by (intros; apply Hr; auto). cbn [bind].
  rewrite rows_of_nd2 by (intros; apply Hr; auto).
  change (last (shp (nd2 (length quants) rows)) 0%nat) with (length quants).
  replace (length quants =? 0)%nat with false by (symmetry; apply Nat.eqb_neq; lia). replace (length quants =? 1)%nat with false by (symmetry; apply Nat.eqb_neq; lia). cbn [orb]. rewrite andb_false_r, Nat.eqb_refl. cbn [negb].
  replace (existsb (String.eqb name) pdf_constructor_names) with true; [reflexivity|].
  symmetry. apply existsb_exists. exists name. split; auto. apply String.eqb_refl.
Qed.
Lemma eps_pos : 0 < float_eps (T := R).
Proof. unfold float_eps, nfrac. simpl. lra. Qed.
(** A padded list of quantiles is not padded again. *)
Lemma pad_quants_lo (quants : list R) : (1 <= length quants)%nat -> pad_lo (pad_quants quants) = false.
Proof.
  intros Hn. unfold pad_quants. destruct (pad_lo quants) eqn:E.
  - change (nltb (T := R) float_eps n0 = false). pose proof eps_pos. destruct (nltb_reflect float_eps n0) as [L|L]; [|reflexivity]. revert L. numR. lra.
  - destruct quants as [|q quants]; [simpl in Hn; lia|]. exact E.
Qed.
Lemma pad_quants_hi (quants : list R) : (1 <= length quants)%nat -> pad_hi (pad_quants quants) = false.
Proof.
  intros Hn. unfold pad_quants. destruct (pad_hi quants) eqn:E.
  - unfold pad_hi. rewrite app_assoc. unfold nlast. rewrite last_last.
    destruct (nltb_reflect n1 n1) as [L|L]; [|reflexivity]. revert L. numR. lra.
  - rewrite app_nil_r. unfold pad_hi, nlast in *. destruct quants as [|q quants]; [simpl in Hn; lia|].
    destruct (pad_lo (q :: quants)); exact E.
Qed.
Lemma pad_locs_length (quants : list R) row : length row = length quants -> length (pad_locs quants row) = length (pad_quants quants).
Proof. intros H. unfold pad_locs, pad_quants. rewrite !app_length, H. destruct (pad_lo quants), (pad_hi quants); reflexivity. Qed.
Lemma pad_quants_same (quants : list R) : pad_lo quants = false -> pad_hi quants = false -> pad_quants quants = quants.
Proof. intros H1 H2. unfold pad_quants. rewrite H1, H2. simpl. apply app_nil_r. Qed.
Lemma pad_locs_same (quants : list R) row : pad_lo quants = false -> pad_hi quants = false -> pad_locs quants row = row.
Proof. intros H1 H2. unfold pad_locs. rewrite H1, H2. simpl. apply app_nil_r. Qed.
(** The frozen object: padded once; its smallest and largest location are those of the padded rows. *)
Lemma quant_build_gen quants rows name : (2 <= length quants)%nat -> rows <> [] -> (forall row, In row rows -> length row = length quants) ->
  In name pdf_constructor_names ->
  quant_ctor quants (nd2 (length quants) rows) true name =
  Ok (mkquant (pad_quants quants) (map (pad_locs quants) rows)
        (nminimum (nhead (concat (map (pad_locs quants) rows))) (tl (concat (map (pad_locs quants) rows))))
        (nmaximum (nhead (concat (map (pad_locs quants) rows))) (tl (concat (map (pad_locs quants) rows))))
        name true [length rows]).
Proof.
  intros Hn Hne Hr Hnm. unfold quant_ctor. rewrite quant_init_build by auto. cbn [bind]. unfold quant_freeze.
  cbn [q_quants q_locs q_check q_ctor_name q_shape].
  assert (Lp : (2 <= length (pad_quants quants))%nat) by (unfold pad_quants; rewrite !app_length; lia).
  rewrite quant_init_build; auto.
  2:{ destruct rows; [congruence|discriminate]. }
  - cbn [bind q_quants q_locs q_xmin q_xmax q_check q_ctor_name].
    assert (Plo := pad_quants_lo quants ltac:(lia)). assert (Phi := pad_quants_hi quants ltac:(lia)).
    rewrite (pad_quants_same _ Plo Phi). do 2 f_equal. rewrite map_map. apply map_ext. intros row. apply pad_locs_same; auto.
  - intros row H. apply in_map_iff in H. destruct H as (r & <- & H). apply pad_locs_length. auto.
Qed.
Lemma quant_build quants rows name : quant_input quants rows -> In name pdf_constructor_names ->
  quant_ctor quants (nd2 (length quants) rows) true name =
  Ok (mkquant (pad_quants quants) (map (pad_locs quants) rows)
        (nminimum (nhead (concat (map (pad_locs quants) rows))) (tl (concat (map (pad_locs quants) rows))))
        (nmaximum (nhead (concat (map (pad_locs quants) rows))) (tl (concat (map (pad_locs quants) rows))))
        name true [length rows]).
Proof. intros (Hq & Hn & H0 & H1 & Hne & Hr) Hnm. apply quant_build_gen; auto. intros; apply Hr; auto. Qed.

Lemma quant_input_example : quant_input [1/4; 1/2; 3/4] [[0; 1; 3]; [-2; 5; 6]].
Proof.
  repeat split; try (simpl; lia); try discriminate.
  - repeat constructor; lra.
  - unfold nth0. simpl. lra.
  - unfold nlast. simpl. lra.
  - destruct H as [<-|[<-|[]]]; reflexivity.
  - destruct H as [<-|[<-|[]]]; repeat constructor; lra.
Qed.

Lemma c12 : forall quants rows name, quant_input quants rows -> In name pdf_constructor_names ->
  exists q, quant_ctor quants (nd2 (length quants) rows) true name = Ok q /\
    increasing (q_quants q) /\
    0 <= nth0 0 (q_quants q) <= / 2 ^ 52 /\
    nlast (q_quants q) = 1 /\
    length (q_locs q) = length rows /\
    (length (q_quants q) <= length quants + 2)%nat /\
    (exists off, forall i, (i < length quants)%nat ->
       nth0 (off + i) (q_quants q) = nth0 i quants /\
       forall r, (r < length rows)%nat -> at2 (q_locs q) r (off + i) = at2 rows r i) /\
    (forall r, (r < length rows)%nat ->
       length (nth r (q_locs q) []) = length (q_quants q) /\ increasing (nth r (q_locs q) [])) /\
    exists q', quant_ctor (q_quants q) (nd2 (length (q_quants q)) (q_locs q)) true name = Ok q' /\
       q_quants q' = q_quants q /\ q_locs q' = q_locs q.
Proof.
  intros quants rows name Hi Hnm. rewrite quant_build by auto. eexists. split; [reflexivity|].
  cbn [q_quants q_locs]. destruct Hi as (Hq & Hn & H0 & H1 & Hne & Hr).
  assert (Hrow : forall r, (r < length rows)%nat -> nth r (map (pad_locs quants) rows) [] = pad_locs quants (nth r rows [])
            /\ length (nth r rows []) = length quants /\ increasing (nth r rows [])).
  { intros r Hlt. split; [apply nth_map_in; auto|]. apply Hr. apply nth_In; auto. }
  split; [apply pad_inc; auto|]. split.
  { pose proof (pad_first quants Hn H0) as [? _]. unfold float_eps, nfrac in *. cbn [nofZ ndiv RNum] in *.
    unfold Rdiv in *. rewrite Rmult_1_l in *. replace (2 ^ 52) with (IZR (2 ^ 52)); auto.
    rewrite pow_IZR. reflexivity. }
  split; [apply pad_last; auto|]. split; [apply map_length|].
  split; [apply (proj2 (pad_quants_bound quants Hn))|]. split; [|split].
  - exists (pad_off quants). intros i Hi. split; [apply pad_quants_nth; auto|].
    intros r Hlt. unfold at2. destruct (Hrow r Hlt) as (-> & Hl & _). apply pad_locs_nth; auto.
  - intros r Hlt. destruct (Hrow r Hlt) as (-> & Hl & Hs). split; [apply pad_len; auto|apply pad_locs_inc; auto].
  - assert (Hi' : quant_input (pad_quants quants) (map (pad_locs quants) rows)).
    { repeat split.
      - apply pad_inc; auto.
      - pose proof (pad_quants_bound quants Hn). lia.
      - apply pad_first; auto.
      - rewrite pad_last by auto. lra.
      - destruct rows; [congruence|discriminate].
      - apply in_map_iff in H. destruct H as (l & <- & Hin). apply pad_len; auto. apply Hr; auto.
      - apply in_map_iff in H. destruct H as (l & <- & Hin). destruct (Hr l Hin). apply pad_locs_inc; auto. }
    rewrite quant_build by auto. eexists. split; [reflexivity|]. cbn [q_quants q_locs].
    split; [apply pad_quants_idem; auto|]. rewrite map_map. apply map_ext. intros. apply pad_locs_idem; auto.
Qed.

(** ** cdf and ppf *)
(** What is assumed of scipy's quadratic spline: on three or more strictly increasing
    points it goes through the points and uses the fill values outside. *)
Definition interpolates (quad : list R -> list R -> R -> R -> R -> R) : Prop :=
  forall xs ys lo hi, increasing xs -> (3 <= length xs)%nat -> length ys = length xs ->
    (forall i, (i < length xs)%nat -> quad xs ys lo hi (nth0 i xs) = nth0 i ys) /\
    (forall x, x < nth0 0 xs -> quad xs ys lo hi x = lo) /\
    (forall x, nlast xs < x -> quad xs ys lo hi x = hi).
Lemma interpolates_example : interpolates interp1d.
Proof.
  intros xs ys lo hi Hs Hn Hl. split; [|split].
  - intros. apply interp1d_knot; auto.
  - intros. apply interp1d_below; auto.
  - intros. apply interp1d_above; auto. rewrite nlast_nth0. apply inc_le; auto. lia.
Qed.

Section Methods.
  Variable quad : list R -> list R -> R -> R -> R -> R.
  Variable q : quant R.
  Hypothesis H3 : (3 <= length (q_quants q))%nat.
  Lemma quant_cdf_dispatches :
    dispatches (fun x r => quad (nth r (q_locs q) []) (q_quants q) 0 1 x) (q_npdf q) (quant_cdf quad q).
  Proof.
    destruct (multi_x_y_dispatches (fun xs ys => quad xs ys 0 1) (q_locs q) (q_quants q) (q_npdf q)) as (a & b & c & E & R).
    exists a, b, c. split; auto. intros x row. unfold quant_cdf.
    replace (length (q_quants q) <? 3)%nat with false by (symmetry; apply Nat.ltb_ge; auto). apply E.
  Qed.
  Lemma quant_ppf_dispatches :
    dispatches (fun x r => quad (q_quants q) (nth r (q_locs q) []) (q_xmin q) (q_xmax q) x) (q_npdf q) (quant_ppf quad q).
  Proof.
    destruct (x_multi_y_dispatches (fun xs ys => quad xs ys (q_xmin q) (q_xmax q)) (fun xs ys => quad xs ys (q_xmin q) (q_xmax q))
       (q_quants q) (q_locs q)) as (a & b & c & E & R); [auto|].
    exists a, b, c. split; auto. intros x row. unfold quant_ppf.
    replace (length (q_quants q) <? 3)%nat with false by (symmetry; apply Nat.ltb_ge; auto). apply E.
  Qed.
End Methods.

Section QBuilt.
  Variables (quants : list R) (rows : list (list R)) (name : string) (q : quant R).
  Hypothesis Hi : quant_input quants rows.
  Hypothesis Hnm : In name pdf_constructor_names.
  Hypothesis E : quant_ctor quants (nd2 (length quants) rows) true name = Ok q.
  Lemma qb_quants : q_quants q = pad_quants quants.
  Proof. rewrite quant_build in E by auto. injection E as <-. auto. Qed.
  Lemma qb_locs : q_locs q = map (pad_locs quants) rows.
  Proof. rewrite quant_build in E by auto. injection E as <-. auto. Qed.
  Lemma qb_name : q_ctor_name q = name.
  Proof. rewrite quant_build in E by auto. injection E as <-. auto. Qed.
  Lemma qb_npdf : q_npdf q = length rows.
  Proof. unfold q_npdf. rewrite qb_locs. apply map_length. Qed.
  Lemma qb_pos : (0 < q_npdf q)%nat.
  Proof. rewrite qb_npdf. pose proof Hi as (_ & _ & _ & _ & Hne & _). destruct rows; [congruence|simpl; lia]. Qed.
  Lemma qb_inc : increasing (q_quants q).
  Proof. rewrite qb_quants. pose proof Hi as (? & ? & ? & ? & _). apply pad_inc; auto. Qed.
  Lemma qb_last : nlast (q_quants q) = 1.
  Proof. rewrite qb_quants. pose proof Hi as (? & ? & ? & ? & _). apply pad_last; auto. Qed.
  Variable r : nat.
  Hypothesis Hr : (r < length rows)%nat.
  Lemma qb_row : nth r (q_locs q) [] = pad_locs quants (nth r rows []).
  Proof. rewrite qb_locs. apply nth_map_in. auto. Qed.
  Lemma qb_row_len : length (nth r (q_locs q) []) = length (q_quants q).
  Proof.
    rewrite qb_row, qb_quants. pose proof Hi as (? & ? & _ & _ & _ & H1). destruct (H1 (nth r rows [])); [apply nth_In; auto|]. apply pad_len; auto.
  Qed.
  Lemma qb_row_inc : increasing (nth r (q_locs q) []).
  Proof.
    rewrite qb_row. pose proof Hi as (? & ? & ? & ? & _ & H'). destruct (H' (nth r rows [])); [apply nth_In; auto|].
    apply pad_locs_inc; auto.
  Qed.
  Lemma qb_pair i : (i < length quants)%nat ->
    exists k, (k < length (q_quants q))%nat /\ nth0 k (q_quants q) = nth0 i quants /\ at2 (q_locs q) r k = at2 rows r i.
  Proof.
    intros Hlt. pose proof Hi as (? & ? & ? & ? & _ & H'). destruct (H' (nth r rows [])); [apply nth_In; auto|].
    exists (pad_off quants + i)%nat. rewrite qb_quants. split; [|split].
    - unfold pad_off, pad_quants. rewrite !app_length. destruct (pad_lo quants); simpl; lia.
    - apply pad_quants_nth; auto.
    - unfold at2. rewrite qb_row. apply pad_locs_nth; auto.
  Qed.
End QBuilt.

Lemma c13 : forall quad, interpolates quad ->
  forall quants rows name q, quant_input quants rows -> In name pdf_constructor_names ->
  quant_ctor quants (nd2 (length quants) rows) true name = Ok q -> (3 <= length (q_quants q))%nat ->
  exists F Q, evaluates (quant_ens_cdf quad q) (length rows) F /\
    evaluates_on 0 1 (quant_ens_ppf quad q) (length rows) Q /\
    forall r, (r < length rows)%nat ->
      (forall i, (i < length quants)%nat -> F r (at2 rows r i) = nth0 i quants) /\
      (forall i, (i < length quants)%nat -> 0 < nth0 i quants < 1 -> Q r (nth0 i quants) = at2 rows r i) /\
      (forall x, x < at2 (q_locs q) r 0 -> F r x = 0) /\
      (forall x, nlast (nth r (q_locs q) []) <= x -> F r x = 1).
Proof.
  intros quad Hq quants rows name q Hi Hnm E H3.
  pose proof (qb_npdf quants rows name q Hi Hnm E) as En. pose proof (qb_pos quants rows name q Hi Hnm E) as Hp.
  exists (fun r x => quad (nth r (q_locs q) []) (q_quants q) 0 1 x),
         (fun r x => quad (q_quants q) (nth r (q_locs q) []) (q_xmin q) (q_xmax q) x).
  rewrite <- En. split; [|split].
  - intros x. unfold quant_ens_cdf, rv_cdf. rewrite (rv_eval_scalar _ _ _ _ _ _ (quant_cdf_dispatches quad q H3)); auto.
  - intros x Hx. unfold quant_ens_ppf, rv_ppf. rewrite (rv_eval_scalar _ _ _ _ _ _ (quant_ppf_dispatches quad q H3)); auto.
    numR. destruct (nltb_reflect 0 x); [|lra]. destruct (nltb_reflect x 1); [auto|lra].
  - rewrite En. intros r Hr.
    assert (Hl := qb_row_len quants rows name q Hi Hnm E r Hr). assert (Hs := qb_row_inc quants rows name q Hi Hnm E r Hr).
    assert (Hqs := qb_inc quants rows name q Hi Hnm E).
    destruct (Hq (nth r (q_locs q) []) (q_quants q) 0 1 Hs ltac:(lia) ltac:(lia)) as (K & B & A).
    destruct (Hq (q_quants q) (nth r (q_locs q) []) (q_xmin q) (q_xmax q) Hqs H3 Hl) as (K' & _ & _).
    repeat split.
    + intros i Hlt. destruct (qb_pair quants rows name q Hi Hnm E r Hr i Hlt) as (k & Hk & E1 & E2).
      rewrite <- E2, <- E1. apply K. lia.
    + intros i Hlt _. destruct (qb_pair quants rows name q Hi Hnm E r Hr i Hlt) as (k & Hk & E1 & E2).
      rewrite <- E2, <- E1. apply K'. lia.
    + intros x Hx. apply B. exact Hx.
    + intros x [Hx|<-]; [apply A; auto|]. rewrite nlast_nth0, K by lia.
      rewrite <- (qb_last quants rows name q Hi Hnm E), nlast_nth0. f_equal. lia.
Qed.

(** With the quantiles 0 and 1 only, there are too few points for scipy's spline. *)
Lemma c13_refuted_two :
  exists (quants : list Q) (rows : list (list Q)) (q : quant Q),
    quant_ctor quants (nd2 2 rows) true "piecewise_linear" = Ok q /\
    forall quad x, quant_ens_cdf quad q (PScalar x) = Err ValueError.
Proof.
  exists [0; 1]%Q, [[0; 1]]%Q. eexists. split; [vm_compute; reflexivity|]. reflexivity.
Qed.
(** The quantiles 0 and 1 themselves are answered by scipy with the infinite support. *)
Lemma c13_refuted_ends :
  exists (quants : list Q) (rows : list (list Q)) (q : quant Q),
    quant_ctor quants (nd2 3 rows) true "piecewise_linear" = Ok q /\
    forall quad, quant_ens_ppf quad q (PGrid [0; 1]%Q) = Ok [[NInf; PInf]].
Proof.
  exists [0; 1 # 2; 1]%Q, [[0; 1; 2]]%Q. eexists. split; [vm_compute; reflexivity|]. reflexivity.
Qed.
(** On three points the spline is the parabola through them: it exceeds 1 between
    the second and the last location of the table (0,0) (1/10,9/10) (1,1). *)
Lemma quant_cdf_overshoots :
  exists (quants : list Q) (rows : list (list Q)) (q : quant Q),
    quant_ctor quants (nd2 3 rows) true "piecewise_linear" = Ok q /\
    quant_ens_cdf lagrange_fill q (PGrid [1 # 10; 1 # 2; 1]%Q) = Ok [[Fin (9 # 10); Fin (49 # 18); Fin 1]]%Q.
Proof.
  exists [0; 9 # 10; 1]%Q, [[0; 1 # 10; 1]]%Q. eexists. split; [vm_compute; reflexivity|]. vm_compute. reflexivity.
Qed.

(** ** pdf constructors *)
Definition mid (l : list R) (j : nat) : R := (nth0 j l + nth0 (S j) l) / 2.
Definition quotient (q l : list R) (j : nat) : R := (nth0 (S j) q - nth0 j q) / (nth0 (S j) l - nth0 j l).

Lemma adj_len (l : list R) : length (adjusted_locations l) = pred (length l).
Proof. unfold adjusted_locations. rewrite map2_len, ndiff_length, tl_length. lia. Qed.
Lemma adj_nth (l : list R) j : (S j < length l)%nat -> nth0 j (adjusted_locations l) = mid l j.
Proof.
  intros. unfold adjusted_locations, nth0.
  rewrite map2_nth with (a := n0) (b := n0); [|rewrite tl_length; lia|rewrite ndiff_length; lia].
  rewrite tl_nth. change (nth j (ndiff l) n0) with (nth0 j (ndiff l)). rewrite ndiff_nth by auto.
  unfold mid, nth0. cbn [nsub ndiv nofZ RNum]. field.
Qed.
Lemma adj_inc (l : list R) : increasing l -> increasing (adjusted_locations l).
Proof.
  intros Hs. apply nth_ss. intros i j Hij. rewrite adj_len in Hij.
  rewrite !adj_nth by lia. unfold mid.
  assert (nth0 i l < nth0 j l) by (apply inc_lt; auto; lia).
  assert (nth0 (S i) l < nth0 (S j) l) by (apply inc_lt; auto; lia). lra.
Qed.
Lemma der_len (q l : list R) : length l = length q -> length (cdf_derivatives q l) = pred (length l).
Proof. intros. unfold cdf_derivatives. rewrite map2_len, !ndiff_length. lia. Qed.
Lemma der_nth (q l : list R) j : length l = length q -> (S j < length l)%nat -> nth0 j (cdf_derivatives q l) = quotient q l j.
Proof.
  intros Hl Hj. unfold cdf_derivatives, nth0. rewrite map2_nth with (a := n0) (b := n0); [|rewrite ndiff_length; lia..].
  change (nth j (ndiff q) n0) with (nth0 j (ndiff q)). change (nth j (ndiff l) n0) with (nth0 j (ndiff l)).
  rewrite !ndiff_nth by lia. reflexivity.
Qed.
Lemma quotient_pos q l j : increasing q -> increasing l -> length l = length q -> (S j < length l)%nat -> 0 < quotient q l j.
Proof.
  intros Hq Hl E Hj. unfold quotient.
  assert (nth0 j q < nth0 (S j) q) by (apply inc_lt; auto; lia).
  assert (nth0 j l < nth0 (S j) l) by (apply inc_lt; auto; lia). apply Rdiv_lt_0_compat; lra.
Qed.

Lemma quant_pl_dispatches (cubic dspline : list R -> list R -> R -> R) (q : quant R) : q_ctor_name q = "piecewise_linear"%string ->
  dispatches (fun x r => interp1d (nth r (map adjusted_locations (q_locs q)) [])
                                  (nth r (map (cdf_derivatives (q_quants q)) (q_locs q)) []) 0 0 x)
             (q_npdf q) (quant_pdf cubic dspline q).
Proof.
  intros En. unfold quant_pdf. rewrite En. cbn [String.eqb Ascii.eqb Bool.eqb].
  exact (multi_x_multi_y_dispatches (fun xs ys => interp1d xs ys 0 0) _ _ _).
Qed.
Lemma quant_pc_dispatches (cubic dspline : list R -> list R -> R -> R) (q : quant R) : q_ctor_name q = "piecewise_constant"%string ->
  dispatches (hist_multi_point (map adjusted_locations (q_locs q)) (map (cdf_derivatives_0 (q_quants q)) (q_locs q))
                (map (cdf_2nd_derivatives (q_quants q)) (q_locs q)))
             (q_npdf q) (quant_pdf cubic dspline q).
Proof.
  intros En. unfold quant_pdf. rewrite En. cbn [String.eqb Ascii.eqb Bool.eqb].
  exact (hist_multi_dispatches _ _ _ _).
Qed.

Lemma c14_linear : forall cubic dspline quants rows q, quant_input quants rows ->
  quant_ctor quants (nd2 (length quants) rows) true "piecewise_linear" = Ok q -> (3 <= length (q_quants q))%nat ->
  exists f, evaluates (quant_ens_pdf cubic dspline q) (length rows) f /\
    forall r, (r < length rows)%nat ->
      let l := nth r (q_locs q) [] in
      (forall x, 0 <= f r x) /\
      (forall j, (S j < length l)%nat -> f r (mid l j) = quotient (q_quants q) l j) /\
      (forall j x, (S (S j) < length l)%nat -> mid l j <= x <= mid l (S j) ->
         f r x * (mid l (S j) - mid l j) = f r (mid l j) * (mid l (S j) - x) + f r (mid l (S j)) * (x - mid l j)) /\
      (forall x, x < mid l 0 \/ mid l (length l - 2) < x -> f r x = 0).
Proof.
  intros cubic dspline quants rows q Hi E H3.
  assert (Hnm : In "piecewise_linear"%string pdf_constructor_names) by (simpl; auto).
  pose proof (qb_npdf quants rows _ q Hi Hnm E) as En. pose proof (qb_pos quants rows _ q Hi Hnm E) as Hp.
  pose proof (qb_name quants rows _ q Hi Hnm E) as Enm.
  exists (fun r x => interp1d (adjusted_locations (nth r (q_locs q) [])) (cdf_derivatives (q_quants q) (nth r (q_locs q) [])) 0 0 x).
  split.
  - intros x. unfold quant_ens_pdf, rv_pdf. rewrite (rv_eval_scalar _ _ _ _ _ _ (quant_pl_dispatches cubic dspline q Enm)); auto.
    rewrite En. f_equal. apply map_seq_ext. intros r Hr. rewrite <- En in Hr. unfold q_npdf in Hr.
    rewrite !nth_map_in with (d' := []) by auto. reflexivity.
  - intros r Hr l. subst l.
    assert (Hl := qb_row_len quants rows _ q Hi Hnm E r Hr). assert (Hs := qb_row_inc quants rows _ q Hi Hnm E r Hr).
    assert (Hqs := qb_inc quants rows _ q Hi Hnm E).
    set (l := nth r (q_locs q) []) in *. set (a := adjusted_locations l). set (d := cdf_derivatives (q_quants q) l).
    assert (La : length a = pred (length l)) by apply adj_len.
    assert (Ld : length d = pred (length l)) by (apply der_len; auto).
    assert (Ha : increasing a) by (apply adj_inc; auto).
    assert (Na : forall j, (S j < length l)%nat -> nth0 j a = mid l j) by (intros; apply adj_nth; auto).
    assert (Nd : forall j, (S j < length l)%nat -> nth0 j d = quotient (q_quants q) l j) by (intros; apply der_nth; auto).
    assert (K : forall j, (S j < length l)%nat -> interp1d a d 0 0 (mid l j) = quotient (q_quants q) l j).
    { intros j Hj. rewrite <- Na, <- Nd by auto. apply interp1d_knot; auto. lia. }
    assert (Hle : nth0 0 a <= nlast a) by (rewrite nlast_nth0; apply inc_le; auto; lia).
    assert (S0 : forall j x, (S (S j) < length l)%nat -> mid l j <= x <= mid l (S j) ->
              interp1d a d 0 0 x = seg (mid l j) (mid l (S j)) (quotient (q_quants q) l j) (quotient (q_quants q) l (S j)) x).
    { intros j x Hj Hx. rewrite (interp1d_closed a d 0 0 x j) by (auto; try lia; rewrite !Na by lia; auto).
      rewrite !Na, !Nd by lia. reflexivity. }
    assert (Hm : forall j, (S (S j) < length l)%nat -> mid l j < mid l (S j)).
    { intros. rewrite <- !Na by lia. apply inc_lt; auto. lia. }
    split; [|split; [|split]].
    + intros x. destruct (Rlt_le_dec x (nth0 0 a)); [rewrite interp1d_below by auto; lra|].
      destruct (Rlt_le_dec (nlast a) x); [rewrite interp1d_above by (auto; lra); lra|].
      destruct (segment_exists_closed a x) as (j & Hj & Hx); auto; [apply inc_nd; auto|lia|].
      rewrite !Na in Hx by lia. rewrite (S0 j) by (auto; lia).
      apply seg_ge; auto; try (apply Hm; lia); apply Rlt_le, quotient_pos; auto; lia.
    + auto.
    + intros j x Hj Hx. rewrite !K, (S0 j) by (auto; lia). unfold seg. specialize (Hm j Hj). field. lra.
    + intros x [Hx|Hx]; [apply interp1d_below; rewrite Na by lia; auto|apply interp1d_above; auto].
      rewrite nlast_nth0, La. replace (pred (pred (length l))) with (length l - 2)%nat by lia. rewrite Na by lia. auto.
Qed.

Lemma der0_nth (q l : list R) j : length l = length q -> (S j < length l)%nat -> nth0 j (cdf_derivatives_0 q l) = quotient q l j.
Proof.
  intros. unfold cdf_derivatives_0. rewrite nth0_app_l by (rewrite der_len; auto; lia). apply der_nth; auto.
Qed.
Lemma der2_nth (q l : list R) j : length l = length q -> (S (S j) < length l)%nat ->
  nth0 j (cdf_2nd_derivatives q l) = quotient q l (S j) - quotient q l j.
Proof.
  intros. unfold cdf_2nd_derivatives.
  assert (L : length (cdf_derivatives_0 q l) = length l).
  { unfold cdf_derivatives_0. rewrite app_length, der_len by auto. simpl. lia. }
  rewrite nth0_app_l by (rewrite ndiff_length; lia). rewrite ndiff_nth by lia. rewrite !der0_nth by (auto; lia). auto.
Qed.

(** The piecewise-constant constructor: between two mid points the value is the difference
    quotient plus the distance to the left mid point times the plain difference of quotients. *)
Lemma c14_constant : forall cubic dspline quants rows q, quant_input quants rows ->
  quant_ctor quants (nd2 (length quants) rows) true "piecewise_constant" = Ok q ->
  exists f, evaluates (quant_ens_pdf cubic dspline q) (length rows) f /\
    forall r, (r < length rows)%nat ->
      let l := nth r (q_locs q) [] in
      sound_bins (adjusted_locations l) ->
      (forall j x, (S (S j) < length l)%nat -> mid l j < x < mid l (S j) ->
         f r x = quotient (q_quants q) l j + (x - mid l j) * (quotient (q_quants q) l (S j) - quotient (q_quants q) l j)) /\
      (forall x, (3 <= length l)%nat -> x < mid l 0 \/ mid l (length l - 2) < x -> f r x = 0).
Proof.
  intros cubic dspline quants rows q Hi E.
  assert (Hnm : In "piecewise_constant"%string pdf_constructor_names) by (simpl; auto).
  pose proof (qb_npdf quants rows _ q Hi Hnm E) as En. pose proof (qb_pos quants rows _ q Hi Hnm E) as Hp.
  pose proof (qb_name quants rows _ q Hi Hnm E) as Enm.
  eexists (fun r x => hist_multi_point _ _ _ x r). split.
  - intros x. unfold quant_ens_pdf, rv_pdf. rewrite (rv_eval_scalar _ _ _ _ _ _ (quant_pc_dispatches cubic dspline q Enm)); auto.
    rewrite En. reflexivity.
  - intros r Hr l Hb. subst l.
    assert (Hl := qb_row_len quants rows _ q Hi Hnm E r Hr). assert (Hs := qb_row_inc quants rows _ q Hi Hnm E r Hr).
    assert (Hrq : (r < length (q_locs q))%nat) by (unfold q_npdf in En; lia).
    split.
    + intros j x Hj Hx. unfold hist_multi_point, at2. rewrite !nth_map_in with (d' := []) by auto.
      set (l := nth r (q_locs q) []) in *.
      rewrite (lookup_interior (adjusted_locations l) x j); auto.
      * rewrite adj_nth, der0_nth, der2_nth by (auto; lia). reflexivity.
      * apply adj_inc; auto.
      * rewrite adj_len. lia.
      * rewrite !adj_nth by lia. auto.
    + intros x H3 Hx. unfold hist_multi_point. rewrite !nth_map_in with (d' := []) by auto.
      set (l := nth r (q_locs q) []) in *.
      assert (M : snd (get_bin_indices (adjusted_locations l) x) = false).
      { apply lookup_out; auto; [apply adj_inc; auto|rewrite adj_len; lia|].
        rewrite nlast_nth0, adj_len, !adj_nth by lia. replace (pred (pred (length l))) with (length l - 2)%nat by lia. auto. }
      destruct (get_bin_indices (adjusted_locations l) x) as [i m]. simpl in M. subst m. reflexivity.
Qed.

(** It is neither constant between derivative points nor non-negative. *)
Lemma c14_refuted_constant :
  exists (quants : list Q) (rows : list (list Q)) (q : quant Q),
    quant_ctor quants (nd2 4 rows) true "piecewise_constant" = Ok q /\
    forall cubic dspline, quant_ens_pdf cubic dspline q (PGrid [3 # 2; 7 # 2]%Q) =
       Ok [[Fin (1 # 8); Fin (- 7 # 40)]]%Q.
Proof.
  exists [0; 4 # 10; 8 # 10; 1]%Q, [[0; 2; 10; 14]]%Q. eexists. split; [vm_compute; reflexivity|].
  intros. vm_compute. reflexivity.
Qed.

(** The spline constructors return one line per distinct PDF over all the points, and scipy
    keeps the first values: every PDF gets the values of PDF 0. *)
Lemma place_all (other : R -> xnum R) pts : forall vals rest, length vals = length pts ->
  place (fun _ => true) other pts (vals ++ rest) = map Fin vals.
Proof. induction pts; destruct vals; simpl; intros; try lia; auto. f_equal. apply IHpts. lia. Qed.
Lemma concat_repeat_len {A} (l : list A) n : length (concat (repeat l n)) = (n * length l)%nat.
Proof. induction n; simpl; auto. rewrite app_length, IHn. auto. Qed.
Lemma map_repeat_list {A B} (f : A -> B) l n : map f (concat (repeat l n)) = concat (repeat (map f l) n).
Proof. induction n; simpl; auto. rewrite map_app, IHn. auto. Qed.

Lemma first_pdf_wins (g : nat -> R -> R) npdf m : (0 < npdf)%nat ->
  (forall x row, m x row = Ok (flat_map (fun r => map (g r) (dat x)) (np_unique_nat (dat row)))) ->
  forall xs, xs <> [] -> rv_pdf npdf m (PGrid xs) = table npdf (fun _ x => Fin (g 0%nat x)) xs.
Proof.
  intros Hn Hm xs Hx. unfold rv_pdf, rv_eval. cbn [broadcast_points bind].
  assert (Hr : forallb (fun _ : R => true) (concat (repeat xs npdf)) = true) by (apply forallb_forall; auto).
  rewrite Hr. assert (Hlen : (length xs <> 0)%nat) by (destruct xs; simpl; [congruence|lia]).
  replace (length (concat (repeat xs npdf)) =? 0)%nat with false.
  2:{ symmetry. apply Nat.eqb_neq. rewrite concat_repeat_len. nia. }
  rewrite Hm. cbn [bind nd1 dat].
  assert (Hu : np_unique_nat (flat_rows (repeat xs npdf) (seq 0 npdf)) = seq 0 npdf).
  { rewrite (np_unique_nat_ext _ (seq 0 npdf)); [apply np_unique_nat_sorted_id, seq_sorted|].
    intros r. pose proof (flat_rows_in xs (seq 0 npdf) r Hx) as F. rewrite seq_length in F. auto. }
  rewrite Hu. destruct npdf as [|n]; [lia|]. cbn [seq flat_map]. rewrite place_all by (rewrite map_length; auto).
  rewrite map_map, map_repeat_list.
  rewrite repeat_length. change (match repeat xs (S n) with [] => 0%nat | l :: _ => length l end) with (length xs).
  unfold table. f_equal.
  replace (S n) with (length (repeat (map (fun x => Fin (g 0%nat x)) xs) (S n))) at 1 by apply repeat_length.
  rewrite chunks_concat by (intros l Hl; apply repeat_spec in Hl; subst; apply map_length).
  clear. generalize (map (fun x => Fin (g 0%nat x)) xs) as l. intros l.
  change (0%nat :: seq 1 n) with (seq 0 (S n)). generalize (S n) as k, 0%nat as s.
  induction k; simpl; intros; auto. f_equal. apply IHk.
Qed.

Lemma c65_cdf_spline : forall cubic dspline quants rows q, quant_input quants rows ->
  quant_ctor quants (nd2 (length quants) rows) true "cdf_spline_derivative" = Ok q -> (4 <= length (q_quants q))%nat ->
  forall xs, xs <> [] -> quant_ens_pdf cubic dspline q (PGrid xs) =
    table (length rows) (fun _ x => Fin (dspline (nth 0 (q_locs q) []) (q_quants q) x)) xs.
Proof.
  intros cubic dspline quants rows q Hi E H4 xs Hx.
  assert (Hnm : In "cdf_spline_derivative"%string pdf_constructor_names) by (simpl; auto).
  rewrite <- (qb_npdf quants rows _ q Hi Hnm E). pose proof (qb_pos quants rows _ q Hi Hnm E) as Hp.
  apply (first_pdf_wins (fun r => dspline (nth r (q_locs q) []) (q_quants q))); auto.
  intros x row. unfold quant_pdf. rewrite (qb_name quants rows _ q Hi Hnm E). cbn [String.eqb Ascii.eqb Bool.eqb].
  unfold cdf_spline_pdf. replace (length (q_quants q) <? 4)%nat with false by (symmetry; apply Nat.ltb_ge; auto). reflexivity.
Qed.
Lemma c65_dual_spline : forall cubic dspline quants rows q, quant_input quants rows ->
  quant_ctor quants (nd2 (length quants) rows) true "dual_spline_average" = Ok q -> (4 <= length (odds (q_quants q)))%nat ->
  forall xs, xs <> [] -> exists f, quant_ens_pdf cubic dspline q (PGrid xs) = table (length rows) (fun _ x => Fin (f x)) xs.
Proof.
  intros cubic dspline quants rows q Hi E H4 xs Hx.
  assert (Hnm : In "dual_spline_average"%string pdf_constructor_names) by (simpl; auto).
  rewrite <- (qb_npdf quants rows _ q Hi Hnm E). pose proof (qb_pos quants rows _ q Hi Hnm E) as Hp.
  eexists. eapply (first_pdf_wins (fun r v => let l := nth r (q_locs q) [] in
            let p := p_of_zs (q_quants q) l in (cubic (evens l) (evens p) v + cubic (odds l) (odds p) v) / 2)); auto.
  intros x row. unfold quant_pdf. rewrite (qb_name quants rows _ q Hi Hnm E). cbn [String.eqb Ascii.eqb Bool.eqb].
  unfold dual_spline_pdf. replace (length (odds (q_quants q)) <? 4)%nat with false by (symmetry; apply Nat.ltb_ge; auto). reflexivity.
Qed.
(** On four points the interpolating cubic and its derivative are polynomials. *)
Definition dlagrange4 (xs ys : list Q) (x : Q) : Q :=
  (* derivative of a cubic polynomial p by exact differences:
     p'(x) = (8 (p(x+1) - p(x-1)) - (p(x+2) - p(x-2))) / 12 *)
  let p := lagrange xs ys in
  (if Qle_bool (hd 0 xs) x && Qle_bool x (last xs 0) then
   Qred ((8 * (p (x + 1) - p (x - 1)) - (p (x + 2) - p (x - 2))) / 12) else 0)%Q.
Lemma c65_refuted :
  exists (quants : list Q) (rows : list (list Q)) (q : quant Q),
    quant_ctor quants (nd2 4 rows) true "cdf_spline_derivative" = Ok q /\
    quant_ens_pdf lagrange dlagrange4 q (PScalar (2 # 1)%Q) = Ok [[Fin (1 # 3)]; [Fin (1 # 3)]]%Q /\
    dlagrange4 (nth 1 (q_locs q) []) (q_quants q) 2%Q = (1 # 6)%Q.
Proof.
  exists [0; 1 # 3; 2 # 3; 1]%Q, [[0; 1; 2; 3]; [0; 2; 4; 6]]%Q. eexists. split; [vm_compute; reflexivity|].
  vm_compute. auto.
Qed.
Lemma c14_refuted_cdf_spline :
  exists (quants : list Q) (rows : list (list Q)) (q : quant Q),
    quant_ctor quants (nd2 4 rows) true "cdf_spline_derivative" = Ok q /\
    quant_ens_pdf lagrange dlagrange4 q (PScalar (5 # 1)%Q) = Ok [[Fin (- 13 # 120)]]%Q.
Proof.
  exists [0; 4 # 10; 6 # 10; 1]%Q, [[0; 1; 9; 10]]%Q. eexists. split; [vm_compute; reflexivity|].
  vm_compute. reflexivity.
Qed.
Lemma c14_refuted_dual_spline :
  exists (quants : list Q) (rows : list (list Q)) (q : quant Q),
    quant_ctor quants (nd2 8 rows) true "dual_spline_average" = Ok q /\
    quant_ens_pdf (fun xs ys => lagrange_fill xs ys 0%Q 0%Q) dlagrange4 q (PScalar (5 # 1)%Q) = Ok [[Fin (- 9 # 64)]]%Q.
Proof.
  exists [0; 1 # 20; 15 # 20; 16 # 20; 17 # 20; 18 # 20; 19 # 20; 1]%Q, [[0; 1; 2; 3; 4; 5; 6; 7]]%Q.
  eexists. split; [vm_compute; reflexivity|]. vm_compute. reflexivity.
Qed.

(** Grids and matrices: every PDF is evaluated with its own table by cdf, ppf and the two
    piecewise pdf constructors. *)
Lemma quant_eval : forall quad cubic dspline quants rows name q, quant_input quants rows ->
  name = "piecewise_linear"%string \/ name = "piecewise_constant"%string ->
  quant_ctor quants (nd2 (length quants) rows) true name = Ok q -> (3 <= length (q_quants q))%nat ->
  exists f F Q,
    (evaluates (quant_ens_pdf cubic dspline q) (length rows) f /\ evaluates (quant_ens_cdf quad q) (length rows) F /\
     evaluates_on 0 1 (quant_ens_ppf quad q) (length rows) Q) /\
    (faithful_on_grids (quant_ens_pdf cubic dspline q) (length rows) (fin f) /\
     faithful_on_matrices (quant_ens_pdf cubic dspline q) (length rows) (fin f)) /\
    (faithful_on_grids (quant_ens_cdf quad q) (length rows) (fin F) /\
     faithful_on_matrices (quant_ens_cdf quad q) (length rows) (fin F)) /\
    (ppf_on_grids (quant_ens_ppf quad q) (length rows) Q /\
     forall p, quant_ens_ppf quad q (PScalar p) = Ok (map (fun r => [with_ends Q r p]) (seq 0 (length rows)))).
Proof.
  intros quad cubic dspline quants rows name q Hi Hn E H3.
  assert (Hnm : In name pdf_constructor_names) by (destruct Hn as [-> | ->]; simpl; auto).
  rewrite <- (qb_npdf quants rows _ q Hi Hnm E). pose proof (qb_pos quants rows _ q Hi Hnm E) as Hp.
  pose proof (qb_name quants rows _ q Hi Hnm E) as Enm.
  assert (Hd : exists g, dispatches g (q_npdf q) (quant_pdf cubic dspline q)).
  { destruct Hn as [-> | ->]; eexists; [apply quant_pl_dispatches|apply quant_pc_dispatches]; auto. }
  destruct Hd as [g Hd]. pose proof (quant_cdf_dispatches quad q H3) as Hc. pose proof (quant_ppf_dispatches quad q H3) as Hpp.
  eexists (fun r x => g x r), (fun r x => _), (fun r x => _). split; [split; [|split]|split; [|split]].
  - intros x. unfold quant_ens_pdf, rv_pdf. rewrite (rv_eval_scalar _ _ _ _ _ _ Hd); auto.
  - intros x. unfold quant_ens_cdf, rv_cdf. rewrite (rv_eval_scalar _ _ _ _ _ _ Hc); auto.
  - intros x Hx. unfold quant_ens_ppf, rv_ppf. rewrite (rv_eval_scalar _ _ _ _ _ _ Hpp); auto.
    numR. destruct (nltb_reflect 0 x); [|lra]. destruct (nltb_reflect x 1); [auto|lra].
  - destruct (gen_pdf g _ _ (fun r x => g x r) (quant_ens_pdf cubic dspline q) Hd) as (A & _ & B & _); auto.
  - destruct (gen_pdf _ _ _ (fun r x => quad (nth r (q_locs q) []) (q_quants q) 0 1 x) (quant_ens_cdf quad q) Hc) as (A & _ & B & _); auto.
  - apply (gen_ppf _ _ _ (fun r x => quad (q_quants q) (nth r (q_locs q) []) (q_xmin q) (q_xmax q) x) (quant_ens_ppf quad q) Hpp); auto.
Qed.

(** Selecting another constructor on an existing ensemble is the same as building it with
    that constructor. *)
Lemma set_constructor_eq : forall quants rows name name' q, quant_input quants rows ->
  In name pdf_constructor_names -> In name' pdf_constructor_names ->
  quant_ctor quants (nd2 (length quants) rows) true name = Ok q ->
  set_pdf_constructor q name' = quant_ctor quants (nd2 (length quants) rows) true name'.
Proof.
  intros quants rows name name' q Hi Hn Hn' E. rewrite (quant_build _ _ name') by auto.
  rewrite quant_build in E by auto. injection E as <-. unfold set_pdf_constructor.
  replace (existsb (String.eqb name') pdf_constructor_names) with true; [reflexivity|].
  symmetry. apply existsb_exists. exists name'. split; auto. apply String.eqb_refl.
Qed.
Lemma set_constructor_unknown : forall (q : quant R) name, ~ In name pdf_constructor_names ->
  set_pdf_constructor q name = Err ValueError.
Proof.
  intros q name H. unfold set_pdf_constructor.
  destruct (existsb (String.eqb name) pdf_constructor_names) eqn:E; auto.
  apply existsb_exists in E. destruct E as (n & Hn & En). apply String.eqb_eq in En. subst. contradiction.
Qed.

Lemma c64 : forall quad, interpolates quad ->
  forall quants rows name q, quant_input quants rows -> In name pdf_constructor_names ->
  quant_ctor quants (nd2 (length quants) rows) true name = Ok q -> (3 <= length (q_quants q))%nat ->
  exists F, evaluates (quant_ens_cdf quad q) (length rows) F /\
    forall r, (r < length rows)%nat ->
      (forall i j, (i < j < length quants)%nat -> F r (at2 rows r i) < F r (at2 rows r j)) /\
      (forall i, (i < length quants)%nat -> 0 <= F r (at2 rows r i) <= 1).
Proof.
  intros quad Hq quants rows name q Hi Hnm E H3.
  destruct (c13 quad Hq quants rows name q Hi Hnm E H3) as (F & Q0 & EF & _ & H).
  exists F. split; auto. intros r Hr. destruct (H r Hr) as (K & _).
  pose proof Hi as (Hs & Hn & H0 & H1 & _).
  split.
  - intros i j Hij. rewrite !K by lia. apply inc_lt; auto.
  - intros i Hlt. rewrite K by auto. split.
    + apply Rle_trans with (nth0 0 quants); auto. apply inc_le; auto. lia.
    + apply Rle_trans with (nlast quants); auto. rewrite nlast_nth0. apply inc_le; auto. lia.
Qed.
