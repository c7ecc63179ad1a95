(** Packed piecewise-linear ensembles. *)
From Coq Require Import List Arith ZArith QArith Bool Sorted Lia Reals Lra Psatz.
From Coquelicot Require Import Coquelicot.
From Verif Require Import Num NumProofs Py NdArray NumpyLib Utils ScipyWrap Spec InterpPdf Packing PackedPdf
  SortProofs EvalProofs NdProofs InterpProofs IntegralProofs BinProofs HistProofs HistTheorems TableProofs InterpPdfProofs
  GridTheorems MixmodTheorems PackingTheorems.
Import ListNotations.
Local Open Scope R_scope.

(** The column of row maxima as [pack_array] returns it. *)
Definition column (ms : list R) : nd R := nd2 1 (map (fun m => [m]) ms).

Lemma column_dat ms : dat (column ms) = ms.
Proof. unfold column, nd2. cbn [dat]. induction ms; simpl; congruence. Qed.
Lemma column_reshape ms : reshape_to_pdf_size (column ms) = Ok (column ms).
Proof. apply reshape_nd2. intros r Hr. apply in_map_iff in Hr. destruct Hr as (m & <- & _). reflexivity. Qed.

Lemma packed_init_build xs (pk : list (list Z)) ms pt lf chk ys :
  (forall row, In row pk -> length row = length xs) -> length ms = length pk ->
  unpack_array pow10R pt (Some lf) pk ms = Ok ys -> length ys = length pk ->
  packed_init pow10R xs (nd2 (length xs) pk) (column ms) pt lf chk =
  (let* t := interp_init xs (nd2 (length xs) ys) chk in Ok (mkpacked pk ms pt lf t)).
Proof.
  intros Hr Hm U Hy. unfold packed_init. change (last (shp (nd2 (length xs) pk)) 0%nat) with (length xs).
  rewrite Nat.eqb_refl. cbn [negb]. rewrite column_reshape. cbn [bind]. rewrite reshape_nd2 by auto. cbn [bind].
  rewrite rows_of_nd2, column_dat by auto. change (last (shp (column ms)) 0%nat) with 1%nat.
  rewrite Hm, !Nat.eqb_refl. cbn [andb negb]. rewrite U. cbn [bind].
  unfold nd2 at 1. cbn [shp]. unfold nd2. rewrite Hy. reflexivity.
Qed.
Lemma unpack_rows pt lf (pk : list (list Z)) ms ys n : (forall row, In row pk -> length row = n) ->
  unpack_array pow10R pt lf pk ms = Ok ys -> forall row, In row ys -> length row = n.
Proof.
  intros Hr U. assert (G : forall f : list Z -> R -> list R, (forall r m, length (f r m) = length r) ->
    forall ms row, In row (map2 f pk ms) -> length row = n).
  { intros f Hf. revert Hr. clear - Hf. induction pk as [|r pk IH]; intros Hr [|m ms] row H; try (destruct H; fail).
    destruct H as [<-|H]; [rewrite Hf; apply Hr; left; auto|]. apply (IH (fun r H => Hr r (or_intror H)) ms row H). }
  destruct pt; try discriminate; injection U as <-; apply G; intros; apply map_length.
Qed.
(** The frozen object is normalised whatever [check_input] was. *)
Lemma packed_build xs (pk : list (list Z)) ms pt lf chk ys : (2 <= length xs)%nat ->
  (forall row, In row pk -> length row = length xs) -> length ms = length pk ->
  unpack_array pow10R pt (Some lf) pk ms = Ok ys -> length ys = length pk ->
  packed_ctor pow10R xs (nd2 (length xs) pk) (column ms) pt lf chk =
  (let* t := interp_ctor xs (nd2 (length xs) ys) chk in Ok (mkpacked pk ms pt lf t)).
Proof.
  intros H2 Hr Hm U Hy. unfold packed_ctor. rewrite (packed_init_build xs pk ms pt lf chk ys) by auto.
  assert (Hl := unpack_rows _ _ _ _ _ _ Hr U). rewrite interp_build by auto. rewrite interp_init_build by auto. cbn [bind].
  assert (F : forall t, i_xvals t = xs -> i_shape t = [length ys] -> packed_freeze pow10R (mkpacked pk ms pt lf t) =
    Ok (mkpacked pk ms pt lf (mkinterp xs (map (inorm xs) ys) (map (icum xs) ys) [length ys]))).
  { intros t Ex Es. unfold packed_freeze. cbn [k_table k_packed k_max k_type k_floor]. rewrite Ex, Es.
    fold (column ms). rewrite (packed_init_build xs pk ms pt lf true ys) by auto. rewrite interp_init_build by auto. reflexivity. }
  destruct chk; apply F; reflexivity.
Qed.

(** A non-negative row with a positive entry has a positive area. *)
Lemma rsum_term n f k : (forall i, (i < n)%nat -> 0 <= f i) -> (k < n)%nat -> f k <= rsum n f.
Proof.
  induction n; intros H Hk; [lia|]. simpl. destruct (Nat.eq_dec k n) as [->|].
  - assert (0 <= rsum n f) by (apply rsum_nonneg; auto). lra.
  - assert (f k <= rsum n f) by (apply IHn; auto; lia). assert (0 <= f n) by auto. lra.
Qed.
Lemma area_pos xs ys : increasing xs -> (2 <= length xs)%nat -> length ys = length xs -> packable ys -> 0 < area xs ys.
Proof.
  intros Hs Hn Hl (Hp & k & Hk & Pk).
  assert (Ht : forall i, (i < pred (length xs))%nat -> 0 <= trap xs ys i).
  { intros i Hi. unfold trap. assert (nth0 i xs < nth0 (S i) xs) by (apply inc_lt; auto; lia).
    assert (0 <= nth0 i ys) by (apply Hp; lia). assert (0 <= nth0 (S i) ys) by (apply Hp; lia). nra. }
  set (j := if Nat.eqb (S k) (length xs) then pred k else k).
  assert (Hj : (j < pred (length xs))%nat) by (unfold j; destruct (Nat.eqb_spec (S k) (length xs)); lia).
  assert (Hjk : j = k \/ S j = k) by (unfold j; destruct (Nat.eqb_spec (S k) (length xs)); lia).
  apply Rlt_le_trans with (trap xs ys j); [|apply rsum_term; auto].
  unfold trap. assert (nth0 j xs < nth0 (S j) xs) by (apply inc_lt; auto; lia).
  assert (0 <= nth0 j ys) by (apply Hp; lia). assert (0 <= nth0 (S j) ys) by (apply Hp; lia).
  assert (0 < nth0 j ys + nth0 (S j) ys) by (destruct Hjk as [Ej|Ej]; rewrite <- Ej in Pk; lra).
  assert (0 < (nth0 (S j) xs - nth0 j xs) * (nth0 j ys + nth0 (S j) ys)) by (apply Rmult_lt_0_compat; lra). lra.
Qed.
Lemma pos_or_zero (row : list R) : (exists i, (i < length row)%nat /\ 0 < nth0 i row) \/
  forall i, (i < length row)%nat -> nth0 i row <= 0.
Proof.
  induction row as [|a row IH]; [right; simpl; intros; lia|].
  destruct (Rlt_or_le 0 a) as [Ha|Ha]; [left; exists 0%nat; simpl; split; [lia|auto]|].
  destruct IH as [(i & Hi & Pi)|Hz].
  - left. exists (S i). simpl. split; [lia|]. rewrite nth0_cons_S. auto.
  - right. intros [|i] Hi; [exact Ha|]. rewrite nth0_cons_S. apply Hz. simpl in Hi. lia.
Qed.
Lemma interp_packable xs rows : interp_input xs rows -> forall row, In row rows -> packable row.
Proof.
  intros (Hs & Hn & _ & H) row Hr. destruct (H row Hr) as (Hl & Hp & Ha). split; auto.
  destruct (pos_or_zero row) as [?|Hz]; auto. exfalso.
  assert (Hz0 : forall i, (i < length row)%nat -> nth0 i row = 0) by (intros i Hi; apply Rle_antisym; auto).
  rewrite (rsum_ext _ _ (fun _ => 0 * 0)) in Ha.
  - rewrite rsum_scale in Ha. lra.
  - intros i Hi. rewrite !Hz0 by lia. field.
Qed.

(** The unpacked rows *)
Section Lin.
  Variables (code : R -> R -> Z) (value : R -> Z -> R).
  Definition back_row (row : list R) : list R := map (fun x => value (row_max row) (code (row_max row) x)) row.
  Hypothesis Hrange : forall m x, 0 < m -> 0 <= x <= m -> 0 <= value m (code m x).
  Hypothesis Hmax : forall m, 0 < m -> value m (code m m) = m.
  Lemma back_len row : length (back_row row) = length row.
  Proof using. apply map_length. Qed.
  Lemma back_nth row i : (i < length row)%nat ->
    nth0 i (back_row row) = value (row_max row) (code (row_max row) (nth0 i row)).
  Proof using. intros. unfold back_row. rewrite nth0_map; auto. Qed.
  Lemma back_packable row : packable row -> packable (back_row row).
  Proof using Hrange Hmax.
    intros Hp. pose proof (packable_pos _ Hp) as Hm. pose proof (row_max_spec _ (packable_ne _ Hp)) as ((k & Hk & Ek) & HM).
    split.
    - intros i Hi. rewrite back_len in Hi. rewrite back_nth by auto. apply Hrange; auto. split; [apply Hp|apply HM]; auto.
    - exists k. rewrite back_len. split; auto. rewrite back_nth by auto. rewrite Ek, Hmax; auto.
  Qed.
  Lemma back_input xs rows : interp_input xs rows -> interp_input xs (map back_row rows).
  Proof using Hrange Hmax.
    intros Hi. pose proof (interp_packable _ _ Hi) as HP. pose proof Hi as (Hs & Hn & Hne & H).
    split; auto. split; auto. split; [destruct rows; simpl; congruence|].
    intros row Hr. apply in_map_iff in Hr. destruct Hr as (row0 & <- & Hr).
    assert (Hl : length (back_row row0) = length xs) by (rewrite back_len; apply H; auto).
    pose proof (back_packable _ (HP _ Hr)) as Hb.
    split; auto. split; [apply Hb|]. apply area_pos; auto.
  Qed.
End Lin.

(** Legal packing choices *)
Definition legal (pt : packing) (lf : R) : Prop := pt = LinearFromRowmax \/ (pt = LogFromRowmax /\ lf < 0).
Definition pcode (pt : packing) (lf : R) : R -> R -> Z :=
  match pt with LogFromRowmax => log_code log10R pow10R lf | _ => linear_code end.
Definition pvalue (pt : packing) (lf : R) : R -> Z -> R :=
  match pt with LogFromRowmax => log_value pow10R lf | _ => linear_value end.

Lemma pvalue_ok pt lf : legal pt lf ->
  (forall m x, 0 < m -> 0 <= x <= m -> 0 <= pvalue pt lf m (pcode pt lf m x)) /\
  (forall m, 0 < m -> pvalue pt lf m (pcode pt lf m m) = m).
Proof.
  intros [->|[-> Hlf]]; cbn [pvalue pcode]; split; intros.
  - apply linear_value_range; auto. apply linear_code_range; auto.
  - destruct (linear_max m H) as [-> ->]. auto.
  - apply value_range; auto. apply log_code_range.
  - rewrite code_max by auto. apply value_max; auto.
Qed.

Lemma pack_eq pt lf rows : legal pt lf -> (forall row, In row rows -> packable row) ->
  pack_array log10R pow10R pt (Some lf) rows =
    Ok (map (fun r => map (pcode pt lf (row_max r)) r) rows, map row_max rows) /\
  unpack_array pow10R pt (Some lf) (map (fun r => map (pcode pt lf (row_max r)) r) rows) (map row_max rows) =
    Ok (map (back_row (pcode pt lf) (pvalue pt lf)) rows).
Proof.
  intros [->|[-> Hlf]] H; simpl; split; unfold linear_pack, log_pack, pack_rows; try (rewrite no_empty by auto; reflexivity).
  - f_equal. apply (unpack_pack linear_code linear_value).
  - f_equal. apply (unpack_pack (log_code log10R pow10R lf) (log_value pow10R lf)).
Qed.

(** Packing an ensemble's values and constructing the packed ensemble gives the interpolated ensemble of
    the unpacked values: same pdf, cdf and ppf on all inputs; a proper density. *)
Lemma c72_refines : forall xs rows pt lf, interp_input xs rows -> legal pt lf ->
  exists pk ms back k i,
    pack_array log10R pow10R pt (Some lf) rows = Ok (pk, ms) /\
    unpack_array pow10R pt (Some lf) pk ms = Ok back /\
    packed_ctor pow10R xs (nd2 (length xs) pk) (column ms) pt lf true = Ok k /\
    interp_ctor xs (nd2 (length xs) back) true = Ok i /\
    (forall x, packed_ens_pdf k x = interp_ens_pdf i x) /\
    (forall x, packed_ens_cdf k x = interp_ens_cdf i x) /\
    (forall q, packed_ens_ppf k q = interp_ens_ppf i q) /\
    exists f, evaluates (packed_ens_pdf k) (length rows) f /\
      forall r, (r < length rows)%nat ->
        (forall x, 0 <= f r x) /\ is_RInt (f r) (nth0 0 xs) (nlast xs) 1 /\
        (forall x, x < nth0 0 xs \/ nlast xs < x -> f r x = 0).
Proof.
  intros xs rows pt lf Hi Hl. pose proof (interp_packable _ _ Hi) as HP.
  destruct (pack_eq pt lf rows Hl HP) as (E1 & E2). destruct (pvalue_ok pt lf Hl) as (V1 & V2).
  set (back := map (back_row (pcode pt lf) (pvalue pt lf)) rows) in *.
  assert (Hb : interp_input xs back) by (apply back_input; auto).
  destruct (c08 xs back Hb) as (i & Ei & f & Ef & Hf).
  assert (Lb : length back = length rows) by apply map_length.
  eexists _, _, back, _, i. split; [exact E1|]. split; [exact E2|].
  assert (Ec : packed_ctor pow10R xs (nd2 (length xs) (map (fun r => map (pcode pt lf (row_max r)) r) rows))
                 (column (map row_max rows)) pt lf true
               = Ok (mkpacked (map (fun r => map (pcode pt lf (row_max r)) r) rows) (map row_max rows) pt lf i)).
  { rewrite packed_build with (ys := back).
    - rewrite Ei. reflexivity.
    - apply Hi.
    - intros row Hr. apply in_map_iff in Hr. destruct Hr as (r0 & <- & Hr). rewrite map_length. apply Hi; auto.
    - rewrite !map_length. auto.
    - exact E2.
    - rewrite Lb, map_length. auto. }
  split; [exact Ec|]. split; [exact Ei|].
  split; [reflexivity|]. split; [reflexivity|]. split; [reflexivity|].
  exists f. split; [rewrite <- Lb; exact Ef|]. intros r Hr. rewrite <- Lb in Hr.
  destruct (Hf r Hr) as (F1 & F2 & F3 & _). auto.
Qed.

(** ** Distance to the ensemble that was packed *)
Lemma rsum_abs n f g e : (forall i, (i < n)%nat -> Rabs (f i - g i) <= e i) -> Rabs (rsum n f - rsum n g) <= rsum n e.
Proof.
  induction n; intros H; simpl; [rewrite Rminus_diag_eq, Rabs_R0 by auto; lra|].
  replace (rsum n f + f n - (rsum n g + g n)) with ((rsum n f - rsum n g) + (f n - g n)) by ring.
  eapply Rle_trans; [apply Rabs_triang|]. apply Rplus_le_compat; auto.
Qed.
Lemma rsum_tele (xs : list R) n : rsum n (fun i => nth0 (S i) xs - nth0 i xs) = nth0 n xs - nth0 0 xs.
Proof. induction n; simpl; [lra|rewrite IHn; lra]. Qed.

Section Close.
  Variables (xs a b : list R) (e : R).
  Hypothesis Hs : increasing xs.
  Hypothesis Hn : (2 <= length xs)%nat.
  Hypothesis La : length a = length xs.
  Hypothesis Lb : length b = length xs.
  Hypothesis He : 0 <= e.
  Hypothesis H : forall i, (i < length xs)%nat -> Rabs (nth0 i a - nth0 i b) <= e.

  Lemma area_close : Rabs (area xs a - area xs b) <= e * (nlast xs - nth0 0 xs).
  Proof.
    unfold area. eapply Rle_trans; [apply (rsum_abs _ _ _ (fun i => (nth0 (S i) xs - nth0 i xs) * e))|].
    - intros i Hi. unfold trap.
      assert (D : 0 < nth0 (S i) xs - nth0 i xs) by (assert (nth0 i xs < nth0 (S i) xs) by (apply inc_lt; auto; lia); lra).
      assert (A1 : Rabs (nth0 i a - nth0 i b) <= e) by (apply H; lia).
      assert (A2 : Rabs (nth0 (S i) a - nth0 (S i) b) <= e) by (apply H; lia).
      apply Rabs_le_between in A1, A2. apply Rabs_le_between. nra.
    - rewrite rsum_scale, rsum_tele, nlast_nth0. lra.
  Qed.
  Lemma seg_close x0 x1 u0 u1 v0 v1 x : x0 < x1 -> x0 <= x <= x1 -> Rabs (u0 - v0) <= e -> Rabs (u1 - v1) <= e ->
    Rabs (seg x0 x1 u0 u1 x - seg x0 x1 v0 v1 x) <= e.
  Proof using.
    intros Hlt Hx A1 A2. apply Rabs_le_between in A1, A2.
    set (t := (x - x0) / (x1 - x0)).
    assert (Ht : 0 <= t <= 1).
    { unfold t. split; [apply Rmult_le_pos; [lra|left; apply Rinv_0_lt_compat; lra]|].
      apply (Rmult_le_reg_r (x1 - x0)); [lra|]. unfold Rdiv. rewrite Rmult_assoc, Rinv_l by lra. lra. }
    assert (E : seg x0 x1 u0 u1 x - seg x0 x1 v0 v1 x = (1 - t) * (u0 - v0) + t * (u1 - v1)).
    { unfold seg, t. field. lra. }
    rewrite E. apply Rabs_le_between. nra.
  Qed.
  Lemma pl_close x : Rabs (pl xs a x - pl xs b x) <= e.
  Proof.
    unfold pl.
    assert (Hlt : nth0 0 xs < nlast xs) by (rewrite nlast_nth0; apply inc_lt; auto; lia).
    destruct (Rlt_le_dec x (nth0 0 xs)); [rewrite !interp1d_below by auto; rewrite Rminus_diag_eq, Rabs_R0; auto|].
    destruct (Rlt_le_dec (nlast xs) x); [rewrite !interp1d_above by (auto; lra); rewrite Rminus_diag_eq, Rabs_R0; auto|].
    destruct (segment_exists_closed xs x) as (j & Hj & Hx); auto; [apply inc_nd; auto|].
    rewrite !(interp1d_closed _ _ _ _ _ j) by auto.
    apply seg_close; [apply inc_lt; auto; lia|auto|apply H; lia|apply H; lia].
  Qed.
End Close.

Lemma pl_scale xs ys k x : increasing xs -> (2 <= length xs)%nat -> length ys = length xs -> k <> 0 ->
  pl xs (map (fun y => y / k) ys) x = pl xs ys x / k.
Proof.
  intros Hs Hn Hl Hk. unfold pl.
  assert (Hlt : nth0 0 xs < nlast xs) by (rewrite nlast_nth0; apply inc_lt; auto; lia).
  destruct (Rlt_le_dec x (nth0 0 xs)); [rewrite !interp1d_below by auto; field; auto|].
  destruct (Rlt_le_dec (nlast xs) x); [rewrite !interp1d_above by (auto; lra); field; auto|].
  destruct (segment_exists_closed xs x) as (j & Hj & Hx); auto; [apply inc_nd; auto|].
  rewrite !(interp1d_closed _ _ _ _ _ j) by auto. rewrite !nth0_map by lia. unfold seg.
  assert (nth0 j xs < nth0 (S j) xs) by (apply inc_lt; auto; lia). field. lra.
Qed.

Lemma c72_linear_error : forall xs rows lf, interp_input xs rows ->
  exists pk ms k i,
    pack_array log10R pow10R LinearFromRowmax (Some lf) rows = Ok (pk, ms) /\
    packed_ctor pow10R xs (nd2 (length xs) pk) (column ms) LinearFromRowmax lf true = Ok k /\
    interp_ctor xs (nd2 (length xs) rows) true = Ok i /\
    exists f g, evaluates (packed_ens_pdf k) (length rows) f /\ evaluates (interp_ens_pdf i) (length rows) g /\
      forall r, (r < length rows)%nat ->
        let total := rsum (pred (length xs)) (fun j =>
          (nth0 (S j) xs - nth0 j xs) * (nth0 j (nth r rows []) + nth0 (S j) (nth r rows [])) / 2) in
        forall x, Rabs (f r x - g r x) <= (nth0 r ms / (510 * total)) * (1 + (nlast xs - nth0 0 xs) * f r x).
Proof.
  intros xs rows lf Hi. assert (Hl : legal LinearFromRowmax lf) by (left; auto).
  pose proof (interp_packable _ _ Hi) as HP. pose proof Hi as (Hs & Hn & _ & Hrows).
  destruct (pack_eq _ lf rows Hl HP) as (E1 & E2). destruct (pvalue_ok _ lf Hl) as (V1 & V2).
  cbn [pcode pvalue] in *.
  set (back := map (back_row linear_code linear_value) rows) in *.
  assert (Hb : interp_input xs back) by (apply back_input; auto).
  assert (Lb : length back = length rows) by apply map_length.
  assert (Ei : exists i, interp_ctor xs (nd2 (length xs) back) true = Ok i)
    by (eexists; apply interp_build; [apply Hb|intros; apply Hb; auto]).
  destruct Ei as (i & Ei).
  assert (Ej : exists i, interp_ctor xs (nd2 (length xs) rows) true = Ok i)
    by (eexists; apply interp_build; [apply Hi|intros; apply Hi; auto]).
  destruct Ej as (i0 & Ej).
  eexists _, _, _, i0. split; [exact E1|].
  assert (Ec : packed_ctor pow10R xs (nd2 (length xs) (map (fun r => map (linear_code (row_max r)) r) rows))
                 (column (map row_max rows)) LinearFromRowmax lf true
               = Ok (mkpacked (map (fun r => map (linear_code (row_max r)) r) rows) (map row_max rows) LinearFromRowmax lf i)).
  { rewrite packed_build with (ys := back).
    - rewrite Ei. reflexivity.
    - apply Hi.
    - intros row Hr. apply in_map_iff in Hr. destruct Hr as (r0 & <- & Hr). rewrite map_length. apply Hi; auto.
    - rewrite !map_length. auto.
    - exact E2.
    - rewrite Lb, map_length. auto. }
  split; [exact Ec|]. split; [exact Ej|].
  destruct (interp_evals xs back i Hb Ei) as (F1 & _). destruct (interp_evals xs rows i0 Hi Ej) as (F2 & _).
  exists (if_ xs back), (if_ xs rows). split; [rewrite <- Lb; exact F1|]. split; [exact F2|].
  intros r Hr x.
  match goal with |- context [510 * ?t] => change t with (area xs (irow rows r)) end.
  pose proof (HP _ (nth_In rows [] Hr)) as Hp. pose proof (packable_pos _ Hp) as Hm.
  change (nth0 r (map row_max rows)) with (nth r (map row_max rows) 0).
  rewrite (nth_map' _ rows []) by auto.
  set (m := row_max (nth r rows [])) in *.
  assert (Hrow : irow rows r = nth r rows []) by reflexivity.
  assert (Hback : irow back r = back_row linear_code linear_value (nth r rows [])).
  { unfold irow, back. rewrite (nth_map' _ rows []) by auto. auto. }
  set (a := irow back r). set (b := irow rows r).
  assert (La : length a = length xs) by (apply irow_len; auto; rewrite Lb; auto).
  assert (Lb' : length b = length xs) by (apply irow_len; auto).
  assert (Cl : forall j, (j < length xs)%nat -> Rabs (nth0 j a - nth0 j b) <= m / 510).
  { intros j Hj. unfold a, b. rewrite Hback, Hrow. rewrite back_nth by (rewrite <- Hrow; fold b; lia).
    fold m. apply linear_err; auto. rewrite <- Hrow. fold b. split; [apply Hp; rewrite <- Hrow; fold b; lia|].
    apply (row_max_spec _ (packable_ne _ Hp)). rewrite <- Hrow. fold b. lia. }
  set (A' := area xs a). set (A := area xs b).
  assert (PA' : 0 < A') by (apply irow_area; auto; rewrite Lb; auto).
  assert (PA : 0 < A) by (apply irow_area; auto).
  assert (CA : Rabs (A' - A) <= m / 510 * (nlast xs - nth0 0 xs)) by (apply area_close; auto).
  assert (CP : Rabs (pl xs a x - pl xs b x) <= m / 510) by (apply pl_close; auto; lra).
  assert (Efa : if_ xs back r x = pl xs a x / A').
  { unfold if_, inorm. fold a. rewrite yc_last by auto. fold A'. apply pl_scale; auto; lra. }
  assert (Efb : if_ xs rows r x = pl xs b x / A).
  { unfold if_, inorm. fold b. rewrite yc_last by auto. fold A. apply pl_scale; auto; lra. }
  assert (Pf : 0 <= if_ xs back r x).
  { unfold if_. unfold pl.
    destruct (Rlt_le_dec x (nth0 0 xs)); [rewrite interp1d_below by auto; lra|].
    assert (Hlt : nth0 0 xs < nlast xs) by (rewrite nlast_nth0; apply inc_lt; auto; lia).
    destruct (Rlt_le_dec (nlast xs) x); [rewrite interp1d_above by (auto; lra); lra|].
    destruct (segment_exists_closed xs x) as (j & Hj & Hx); auto; [apply inc_nd; auto|].
    rewrite (interp1d_closed _ _ _ _ _ j) by auto.
    assert (Hr' : (r < length back)%nat) by (rewrite Lb; auto).
    apply seg_ge; auto; try (apply inorm_pos; auto; lia). apply inc_lt; auto; lia. }
  set (f := if_ xs back r x) in *. rewrite Efb.
  replace (f - pl xs b x / A) with ((pl xs a x - pl xs b x) * / A + f * ((A - A') * / A)) by (rewrite Efa; field; lra).
  replace (m / (510 * A) * (1 + (nlast xs - nth0 0 xs) * f))
    with (m / 510 * / A + f * (m / 510 * (nlast xs - nth0 0 xs) * / A)) by (field; lra).
  assert (IA : 0 < / A) by (apply Rinv_0_lt_compat; auto).
  eapply Rle_trans; [apply Rabs_triang|]. apply Rplus_le_compat.
  - rewrite Rabs_mult, (Rabs_pos_eq (/ A)) by lra. apply Rmult_le_compat_r; lra.
  - rewrite !Rabs_mult, (Rabs_pos_eq f), (Rabs_pos_eq (/ A)) by lra. rewrite (Rabs_minus_sym A A').
    apply Rmult_le_compat_l; auto. apply Rmult_le_compat_r; lra.
Qed.
