(** Interpolated densities in double precision. *)
From Coq Require Import List Arith ZArith Bool Sorted Lia Reals Lra Psatz Floats.SpecFloat.
From Flocq Require Import Core.Zaux Core.Raux.
From Verif Require Import Num NumProofs Py NdArray NumpyLib Utils ScipyWrap SortProofs InterpProofs BinProofs EvalProofs HistPdf HistProofs InterpPdf Spec Float FloatProofs FloatHist FloatMachine FloatTheorems FloatExamples FloatNorm FloatCdf FloatCdfTheorems FloatInterp.
Import ListNotations.
Local Open Scope R_scope.

(** ** Specification *)
(** Area under the density over the cell from grid point [i] to the next; over all cells; and up to grid point [k].
    For the first grid point the code takes half of the first value times the first cell (see C58). *)
Definition cell (xs ys : list spec_float) (i : nat) : R :=
  (val64 (nth i ys zero64) + val64 (nth (S i) ys zero64)) / 2 * (val64 (nth (S i) xs zero64) - val64 (nth i xs zero64)).
Definition all_cells (xs ys : list spec_float) : R := rsum (pred (length xs)) (cell xs ys).
Definition cells_to (xs ys : list spec_float) (k : nat) : R :=
  match k with O => val64 (nth 0 ys zero64) / 2 * (val64 (nth 1 xs zero64) - val64 (nth 0 xs zero64)) | S _ => rsum k (cell xs ys) end.
(** Share of the area up to [x] in the cell that starts at grid point [k]: the straight line between the shares of its ends. *)
Definition share_in (xs ys : list spec_float) (k : nat) (x : R) : R :=
  (cells_to xs ys k + (cells_to xs ys (S k) - cells_to xs ys k) * ((x - val64 (nth k xs zero64)) / (val64 (nth (S k) xs zero64) - val64 (nth k xs zero64)))) / all_cells xs ys.
(** Grid points: increasing, of magnitude at most 2^200, at least 2^-1000 apart, at most 2^40 of them. *)
Definition good_grid (xs : list spec_float) : Prop := good_edges xs /\ forall b, In b xs -> Rabs (val64 b) <= 2 ^ 200.
(** Values: non-negative, at most 2^200, with an area of at least 2^-500; the first one is 0 or at least 2^-500. *)
Definition good_values (xs ys : list spec_float) : Prop :=
  length ys = length xs /\ (forall y, In y ys -> double y /\ 0 <= val64 y <= 2 ^ 200) /\
  (val64 (nth 0 ys zero64) = 0 \/ / 2 ^ 500 <= val64 (nth 0 ys zero64)) /\ / 2 ^ 500 <= all_cells xs ys.

(** ** The constructor *)
Definition norm_row (xs ys : list spec_float) : list spec_float := map (fun y => SFdiv 53 1024 y (nlast (N := SFNum) (ycumul_row (N := SFNum) xs ys))) ys.
Definition table_row (xs ys : list spec_float) : list spec_float := map (fun c => SFdiv 53 1024 c (nlast (N := SFNum) (ycumul_row (N := SFNum) xs ys))) (ycumul_row (N := SFNum) xs ys).
Definition values_for (xs : list spec_float) (chk : bool) (row : list spec_float) : list spec_float := if chk then norm_row xs row else row.
Lemma map2_same {A B C} (f : A -> B -> C) (g : A -> B) l : map2 f l (map g l) = map (fun a => f a (g a)) l.
Proof. induction l; [reflexivity|]. cbn [map map2]. f_equal. exact IHl. Qed.
Lemma interp_init_64 xs (rows : list (list spec_float)) : (2 <= length xs)%nat -> (forall row, In row rows -> length row = length xs) -> (forall chk,
  interp_init (N := SFNum) xs (nd2 (length xs) rows) chk =
  Ok (mkinterp xs (if chk then map (norm_row xs) rows else rows) (if chk then map (table_row xs) rows else map (ycumul_row (N := SFNum) xs) rows) [length rows])).
Proof.
  intros H2 Hr chk. unfold interp_init. change (last (shp (nd2 (length xs) rows)) 0%nat) with (length xs).
  rewrite Nat.eqb_refl. cbn [negb].
  replace (Nat.eqb (length xs) 0) with false by (symmetry; apply Nat.eqb_neq; lia). replace (Nat.eqb (length xs) 1) with false by (symmetry; apply Nat.eqb_neq; lia). rewrite reshape_nd2 by auto. cbn [bind]. rewrite rows_of_nd2 by auto. destruct chk; [|reflexivity].
  rewrite map2_same, map_map. reflexivity.
Qed.
Lemma interp_build_64 xs (rows : list (list spec_float)) chk : (2 <= length xs)%nat -> (forall row, In row rows -> length row = length xs) ->
  interp_ctor (N := SFNum) xs (nd2 (length xs) rows) chk =
  Ok (mkinterp xs (map (fun row => norm_row xs (values_for xs chk row)) rows) (map (fun row => table_row xs (values_for xs chk row)) rows) [length rows]).
Proof.
  intros H2 Hr. unfold interp_ctor. rewrite interp_init_64 by auto. cbn [bind]. unfold interp_freeze. cbn [i_xvals i_yvals i_shape]. rewrite interp_init_64; auto.
  - cbn [bind i_xvals i_yvals i_cumul]. destruct chk; [rewrite !map_map|]; reflexivity.
  - destruct chk; auto. intros row H. apply in_map_iff in H. destruct H as (r & <- & H). unfold norm_row. rewrite map_length. auto.
Qed.

(** ** The table on the machine *)
Lemma half64 : nhalf (N := SFNum) = f64 4503599627370496 (-53). Proof. vm_compute. reflexivity. Qed.
Lemma half_val : val64 (nhalf (N := SFNum)) = / 2. Proof. rewrite half64, val_f64. simpl bpow. lra. Qed.
Lemma half_mod : moderate 0 (nhalf (N := SFNum)).
Proof. split; [rewrite half64; split; reflexivity|]. rewrite half_val, Rabs_pos_eq by lra. simpl. lra. Qed.
Lemma sums_count t e : (-1074 <= e)%Z -> forall k, (forall i, (i < k)%nat -> 0 <= t i <= bpow radix2 e) -> (Z.of_nat k <= 2 ^ 53)%Z -> 0 <= sums t k <= IZR (Z.of_nat k) * bpow radix2 e.
Proof.
  intros He. assert (D : forall z, (0 <= z <= 2 ^ 53)%Z -> dbl (IZR z * bpow radix2 e)).
  { intros z Hz. destruct (Z.eq_dec z (2 ^ 53)) as [->|Hz'].
    - change (IZR (2 ^ 53)) with (bpow radix2 53). rewrite <- bpow_plus. apply dbl_bpow. lia.
    - apply FLT.generic_format_FLT. exists (Defs.Float radix2 z e); [reflexivity|simpl; lia|simpl; lia]. }
  induction k as [|k IH]; intros Ht Hk; [simpl; lra|]. destruct (IH (fun i Hi => Ht i ltac:(lia)) ltac:(lia)) as [A B]. destruct (Ht k ltac:(lia)) as [T0 T1]. cbn [sums]. split; [apply rd_pos; lra|].
  rewrite <- (rd_id (IZR (Z.of_nat (S k)) * bpow radix2 e)) by (apply D; lia). apply rd_mono. rewrite Nat2Z.inj_succ, succ_IZR. lra.
Qed.

Lemma small8 z : 0 <= z <= 8 -> small (rd z).
Proof. intros H. apply (small_le 3); [lia|]. apply rd_le_bpow; [lia|]. rewrite Rabs_pos_eq by lra. simpl. lra. Qed.

Section Machine.
  Variables xs ys : list spec_float.
  Hypothesis Hg : good_grid xs.
  Let n := pred (length xs).
  Let X i := val64 (nth i xs zero64).
  Let Y i := val64 (nth i ys zero64).
  Hypothesis Hl : length ys = length xs.
  Hypothesis Hv : forall i, (i <= n)%nat -> fin64 (nth i ys zero64) /\ 0 <= Y i <= bpow radix2 701.
  Hypothesis Hf : Y 0%nat = 0 \/ / 2 ^ 1020 <= Y 0%nat.
  Let He : good_edges xs := proj1 Hg.
  Lemma m_n : (1 <= n)%nat. Proof. apply n_pos, He. Qed.
  Lemma m_N : INR n <= 2 ^ 40. Proof. apply n_small, He. Qed.
  Lemma m_len : length xs = S n. Proof. apply len_e, He. Qed.
  Lemma m_X i : (i <= n)%nat -> moderate 200 (nth i xs zero64).
  Proof. clear Hl Hv Hf. intros H. split; [apply (e_mod xs He i H)|]. change 200%Z with (Z.of_nat 200). rewrite <- pow_bpow. apply Hg, nth_In. rewrite m_len. lia. Qed.
  Lemma m_dX i : (i <= n)%nat -> dbl (X i). Proof. intros H. apply dbl64, m_X, H. Qed.
  Lemma m_gap i : (i < n)%nat -> / 2 ^ 1000 <= X (S i) - X i. Proof. apply (W_low xs He). Qed.
  Lemma m_dY i : (i <= n)%nat -> dbl (Y i). Proof. intros H. apply dbl64, Hv, H. Qed.
  Lemma m_Y i : (i <= n)%nat -> 0 <= Y i. Proof. intros H. apply Hv, H. Qed.
  Lemma m_Ymod i : (i <= n)%nat -> moderate 701 (nth i ys zero64).
  Proof. intros H. destruct (Hv i H) as [F [A B]]. split; [exact F|]. fold (Y i). rewrite Rabs_pos_eq by exact A. exact B. Qed.
  Lemma m_tot : X n - X 0%nat <= 2 ^ 202.
  Proof.
    clear Hl Hv Hf. pose proof (m_X n (le_n n)) as [_ A]. pose proof (m_X 0 (Nat.le_0_l n)) as [_ B]. apply Rabs_le_inv in A, B. fold (X n) in A. fold (X 0%nat) in B.
    apply Rle_trans with (bpow radix2 200 + bpow radix2 200); [lra|]. rewrite bpow_add1, pow_bpow. apply bpow_le. simpl. lia.
  Qed.
  Lemma m_w i : (i < n)%nat -> moderate 201 (SFsub 53 1024 (nth (S i) xs zero64) (nth i xs zero64)) /\ val64 (SFsub 53 1024 (nth (S i) xs zero64) (nth i xs zero64)) = rd (width X i).
  Proof. intros H. apply (mod_sub 200); [lia|apply m_X; lia|apply m_X; lia]. Qed.
  Let tr i := SFmul 53 1024 (SFmul 53 1024 (SFsub 53 1024 (nth (S i) xs zero64) (nth i xs zero64)) (nhalf (N := SFNum))) (SFadd 53 1024 (nth (S i) ys zero64) (nth i ys zero64)).
  Lemma m_trap i : (i < n)%nat -> moderate 903 (tr i) /\ val64 (tr i) = trap64 Y X i.
  Proof.
    intros H. destruct (m_w i H) as [Mw Vw]. destruct (mod_mul 201 0 _ _ ltac:(lia) Mw half_mod) as [Mh Vh]. rewrite Vw, half_val in Vh.
    destruct (mod_add 701 _ _ ltac:(lia) (m_Ymod (S i) H) (m_Ymod i ltac:(lia))) as [Ms Vs]. destruct (mod_mul 201 702 _ _ ltac:(lia) Mh Ms) as [Mt Vt]. split; [exact Mt|]. unfold tr. rewrite Vt, Vh, Vs. reflexivity.
  Qed.
  Lemma m_first : let z := SFmul 53 1024 (SFmul 53 1024 (nhalf (N := SFNum)) (nth 0 ys zero64)) (SFsub 53 1024 (nth 1 xs zero64) (nth 0 xs zero64)) in fin64 z /\ val64 z = first64 Y X.
  Proof.
    intros z. destruct (m_w 0 m_n) as [Mw Vw]. destruct (mod_mul 0 701 _ _ ltac:(lia) half_mod (m_Ymod 0 ltac:(lia))) as [Mh Vh]. rewrite half_val in Vh. destruct (mod_mul 701 201 _ _ ltac:(lia) Mh Mw) as [Mz Vz].
    split; [apply Mz|]. unfold z. rewrite Vz, Vh, Vw. reflexivity.
  Qed.
  Lemma traps_eq : trapezoids (N := SFNum) xs ys = map tr (seq 0 n).
  Proof.
    unfold trapezoids. rewrite (map2_seq _ _ _ n zero64 zero64).
    - apply map_ext_in. intros i Hi. apply in_seq in Hi.
      assert (A : nth i (map (fun d => nmul (Num := SFNum) d (nhalf (N := SFNum))) (ndiff (N := SFNum) xs)) zero64 = SFmul 53 1024 (SFsub 53 1024 (nth (S i) xs zero64) (nth i xs zero64)) (nhalf (N := SFNum))).
      { rewrite nth_map_in with (d' := zero64) by (rewrite ndiff_length_64; fold n; lia). unfold zero64. rewrite ndiff_nth_64 by (rewrite m_len; lia). reflexivity. }
      assert (B : nth i (map2 (nadd (Num := SFNum)) (tl ys) (removelast ys)) zero64 = SFadd 53 1024 (nth (S i) ys zero64) (nth i ys zero64)).
      { rewrite map2_nth with (a := zero64) (b := zero64); [|rewrite tl_length, Hl, m_len; simpl; lia|rewrite removelast_length, Hl, m_len; simpl; lia].
        rewrite tl_nth, removelast_nth by (rewrite Hl, m_len; lia). reflexivity. }
      rewrite A, B. reflexivity.
    - rewrite map_length, ndiff_length_64. reflexivity.
    - rewrite map2_len, tl_length, removelast_length, Hl. fold n. lia.
  Qed.
  Lemma cumul_len : length (ycumul_row (N := SFNum) xs ys) = S n.
  Proof. unfold ycumul_row, ncumsum. cbn [length]. rewrite ncumsum_len, traps_eq, map_length, seq_length. reflexivity. Qed.
  Lemma m_small k : (k <= n)%nat -> 0 <= sums (trap64 Y X) k <= bpow radix2 943.
  Proof.
    intros Hk. assert (Nz : (Z.of_nat n <= 2 ^ 40)%Z) by (apply le_IZR; rewrite <- INR_IZR_INZ; pose proof m_N as A; simpl in *; lra).
    destruct (sums_count (trap64 Y X) 903 ltac:(lia) k) as [A B]; [|lia|].
    - intros i Hi. destruct (m_trap i ltac:(lia)) as [[_ M] V]. rewrite V in M. apply Rabs_le_inv in M. split; [|apply M]. apply (trap64_pos n Y X); try apply m_n; try apply m_N; try apply m_dX; try apply m_gap; try apply m_dY; try apply m_Y; lia.
    - split; [exact A|]. eapply Rle_trans; [exact B|]. change 943%Z with (40 + 903)%Z. rewrite bpow_plus. apply Rmult_le_compat_r; [apply bpow_ge_0|]. change (bpow radix2 40) with (IZR (2 ^ 40)). apply IZR_le. lia.
  Qed.
  Lemma cumul64 k : (k <= n)%nat -> fin64 (nth k (ycumul_row (N := SFNum) xs ys) zero64) /\ val64 (nth k (ycumul_row (N := SFNum) xs ys) zero64) = cum64 Y X k.
  Proof.
    intros Hk. destruct k as [|k]; [apply m_first|]. unfold ycumul_row. cbn [nth]. rewrite traps_eq. set (l := map tr (seq 0 n)). assert (Ll : length l = n) by (unfold l; rewrite map_length; apply seq_length).
    unfold ncumsum. change (n0 (Num := SFNum)) with (sums64 l 0). rewrite (ncumsum_nth l l 0 k eq_refl) by lia. change (0 + k)%nat with k. change (cum64 Y X (S k)) with (sums (trap64 Y X) (S k)).
    set (j := S k) in *. clearbody j. induction j as [|j IH]; [split; [apply fin64_0|reflexivity]|]. destruct (IH ltac:(lia)) as [F V]. cbn [sums64].
    assert (Nl : nth j l zero64 = tr j) by (unfold l; rewrite nth_indep with (d' := tr 0%nat) by (rewrite map_length, seq_length; lia); rewrite (map_nth tr), seq_nth by lia; reflexivity).
    rewrite Nl. destruct (m_trap j ltac:(lia)) as [[Ft _] Vt]. pose proof (m_small (S j) ltac:(lia)) as B. cbn [sums] in B.
    destruct (add64 _ _ F Ft) as [A C]; [rewrite V, Vt; apply (small_le 943); [lia|]; rewrite Rabs_pos_eq by apply B; apply B|]. split; [exact A|]. rewrite C, V, Vt. reflexivity.
  Qed.
  Lemma m_last : nlast (N := SFNum) (ycumul_row (N := SFNum) xs ys) = nth n (ycumul_row (N := SFNum) xs ys) zero64.
  Proof. unfold nlast. rewrite (last_nth' _ zero64), cumul_len. reflexivity. Qed.

  Hypothesis Hmass : / 2 ^ 500 <= all_cells xs ys.
  Lemma m_mass : / 2 ^ 500 <= cum Y X n.
  Proof. pose proof m_n as N1. destruct n eqn:E; [lia|]. unfold all_cells in Hmass. fold n in Hmass. rewrite E in Hmass. exact Hmass. Qed.
  Lemma m_total : 0 < cum64 Y X n /\ Rabs (cum64 Y X n - cum Y X n) <= / 2 ^ 10 * cum Y X n.
  Proof. apply total_near; [apply m_n|apply m_N|apply m_dX|apply m_gap|apply m_dY|apply m_Y|exact Hf|apply m_mass]. Qed.
  Lemma m_total_low : / 2 ^ 501 <= cum64 Y X n.
  Proof. destruct m_total as [_ E]. pose proof m_mass as M. apply Rabs_le_inv in E. simpl (2 ^ 10) in E. assert (0 < / 2 ^ 500) by (apply Rinv_0_lt_compat, pow_lt; lra). replace (/ 2 ^ 501) with (/ 2 ^ 500 * / 2) by (change (2 ^ 501) with (2 * 2 ^ 500); rewrite Rinv_mult; ring). lra. Qed.
  Lemma m_table k : (k <= n)%nat -> fin64 (nth k (table_row xs ys) zero64) /\ val64 (nth k (table_row xs ys) zero64) = table64 n Y X k.
  Proof.
    intros Hk. unfold table_row. rewrite m_last. set (s := nth n _ zero64). destruct (cumul64 n (le_n n)) as [Fs Vs]. fold s in Fs, Vs. destruct (cumul64 k Hk) as [Fk Vk].
    rewrite nth_map_in with (d' := zero64) by (rewrite cumul_len; lia). destruct m_total as [P _].
    assert (B : 0 <= cum64 Y X k / cum64 Y X n <= 1) by (apply quot_bounds; [apply m_n|apply m_N|apply m_dX|apply m_gap|apply m_dY|apply m_Y|exact Hf|apply m_mass|exact Hk]).
    destruct (div64 _ _ Fk Fs) as [A C]; [rewrite Vs; lra|rewrite Vs, Vk; apply small8; lra|]. split; [exact A|]. rewrite C, Vs, Vk. reflexivity.
  Qed.
  Lemma m_norm i : (i <= n)%nat -> Y i / cum64 Y X n <= bpow radix2 1000 -> fin64 (nth i (norm_row xs ys) zero64) /\ val64 (nth i (norm_row xs ys) zero64) = stored64 n Y X i.
  Proof.
    intros Hi Hq. unfold norm_row. rewrite m_last. set (s := nth n _ zero64). destruct (cumul64 n (le_n n)) as [Fs Vs]. fold s in Fs, Vs. destruct (Hv i Hi) as [Fi [A B]].
    rewrite nth_map_in with (d' := zero64) by (rewrite Hl, m_len; lia). destruct m_total as [P _]. pose proof m_total_low as L.
    destruct (div64 _ _ Fi Fs) as [C D]; [rewrite Vs; lra| |split; [exact C|rewrite D, Vs; reflexivity]].
    rewrite Vs. fold (Y i). apply (small_le 1010); [lia|]. apply rd_le_bpow; [lia|]. rewrite Rabs_pos_eq by (apply Rmult_le_pos; [exact A|apply Rlt_le, Rinv_0_lt_compat, P]). eapply Rle_trans; [exact Hq|]. apply bpow_le. lia.
  Qed.
End Machine.

(** ** Reading a table of increasing values by linear interpolation *)
Section Reading.
  Variables edges tab : list spec_float.
  Variable y : nat -> R.
  Hypothesis He : good_edges edges.
  Let n := pred (length edges).
  Let e i := val64 (nth i edges zero64).
  Hypothesis tab64 : forall k, (k <= n)%nat -> fin64 (nth k tab zero64) /\ val64 (nth k tab zero64) = y k.
  Hypothesis ydbl : forall k, dbl (y k).
  Hypothesis y_inc : forall k, (k < n)%nat -> 0 <= y k <= y (S k).
  Hypothesis y_high : forall k, (k <= n)%nat -> y k <= 3.
  Lemma r_inc i j : (i <= j <= n)%nat -> e i <= e j. Proof. apply (e_inc edges He). Qed.
  Lemma r_len : length edges = S n. Proof. apply (len_e edges He). Qed.
  Lemma r_npos : (1 <= n)%nat. Proof. apply (n_pos edges He). Qed.
  Variable x : spec_float.
  Hypothesis Fx : double x.
  Let v := val64 x.
  Lemma r_xfin : fin64 x. Proof. apply double_moderate, Fx. Qed.
  Lemma r_xdbl : dbl v. Proof. apply dbl64, r_xfin. Qed.
  Lemma r_dW k : (k < n)%nat -> / 2 ^ 1000 <= e (S k) - e k <= 2 ^ 401. Proof. intros H. split; [apply ((W_low edges He) k H)|apply ((W_high edges He) k H)]. Qed.
  Lemma r_seg k : (k < n)%nat -> e k <= v <= e (S k) ->
    let z := SFadd 53 1024 (SFmul 53 1024 (SFdiv 53 1024 (SFsub 53 1024 (nth (S k) tab zero64) (nth k tab zero64)) (SFsub 53 1024 (nth (S k) edges zero64) (nth k edges zero64)))
                                          (SFsub 53 1024 x (nth k edges zero64))) (nth k tab zero64) in
    fin64 z /\ val64 z = seg (e k) (e (S k)) (y k) (y (S k)) v.
  Proof.
    intros Hk Hx z. destruct (tab64 k ltac:(lia)) as [F0 V0]. destruct (tab64 (S k) ltac:(lia)) as [F1 V1]. pose proof (y_inc k Hk) as Yi. pose proof (y_high (S k) ltac:(lia)) as Yh. pose proof (r_dW k Hk) as HW.
    pose proof (ydbl k) as Dk. pose proof (ydbl (S k)) as Dk1.
    assert (De : dbl (e k)) by (apply (e_dbl edges He); fold n; lia). assert (De1 : dbl (e (S k))) by (apply (e_dbl edges He); fold n; lia).
    pose proof ((e_mod edges He) k ltac:(lia)) as M0. pose proof ((e_mod edges He) (S k) ltac:(lia)) as M1.
    destruct (sub64 _ _ F1 F0) as [Fd Vd]; [rewrite V1, V0; apply small8; lra|]. rewrite V1, V0 in Vd.
    destruct (mod_sub 400 _ _ ltac:(lia) M1 M0) as [[Fw _] Vw]. fold (e (S k)) (e k) in Vw.
    assert (Mx : moderate 400 x). { split; [apply r_xfin|]. destruct M0 as [_ A]. destruct M1 as [_ B]. fold (e k) in A. fold (e (S k)) in B. fold v. apply Rabs_le_inv in A, B. apply Rabs_le. lra. }
    destruct (mod_sub 400 _ _ ltac:(lia) Mx M0) as [[Fv _] Vv]. fold v in Vv. fold (e k) in Vv.
    pose proof (w_low (e k) (e (S k)) HW) as Wl. pose proof inv1000 as I.
    pose proof (d_pos (y k) (y (S k)) Dk Dk1 Yi Yh) as D4.
    destruct (div64 _ _ Fd Fw) as [Fq Vq].
    { rewrite Vw. lra. }
    { rewrite Vd, Vw. apply (small_le 1002); [lia|]. apply rd_le_bpow; [lia|]. rewrite Rabs_pos_eq by (apply Rmult_le_pos; [lra|apply Rlt_le, Rinv_0_lt_compat; lra]).
      change 1002%Z with (2 + Z.of_nat 1000)%Z. rewrite bpow_plus, <- pow_bpow. unfold Rdiv. apply Rmult_le_compat; [lra|apply Rlt_le, Rinv_0_lt_compat; lra|simpl; lra|].
      rewrite <- (Rinv_inv (2 ^ 1000)). apply Rinv_le_contravar; [exact I|exact Wl]. }
    rewrite Vd, Vw in Vq.
    pose proof (sv_small _ _ _ _ De De1 Dk Dk1 HW Yi Yh v r_xdbl Hx) as S4. pose proof (t_small _ _ _ _ De De1 Dk Dk1 HW Yi Yh v r_xdbl Hx) as T4.
    destruct (mul64 _ _ Fq Fv) as [Fm Vm]; [rewrite Vq, Vv; apply small8; lra|]. rewrite Vq, Vv in Vm.
    destruct (add64 _ _ Fm F0) as [Fz Vz]; [rewrite Vm, V0; apply small8; lra|]. rewrite Vm, V0 in Vz. split; [exact Fz|exact Vz].
  Qed.

  Definition read_at (z : spec_float) : Prop :=
    fin64 z /\ exists k, (k < n)%nat /\ e k <= v <= e (S k) /\ (val64 z = seg (e k) (e (S k)) (y k) (y (S k)) v \/ (v = e (S k) /\ val64 z = y (S k))).
  Lemma r_nth0 i : nth0 (N := RNum) i (map val64 edges) = e i.
  Proof. unfold nth0, e. symmetry. apply nth64. Qed.
  Lemma r_head : nhead (N := SFNum) edges = nth 0 edges zero64. Proof. destruct edges; reflexivity. Qed.
  Lemma r_last : nlast (N := SFNum) edges = nth n edges zero64. Proof. unfold nlast. apply last_nth'. Qed.
  Lemma r_ltb b c : fin64 b -> fin64 c -> nltb (N := SFNum) b c = nltb (N := RNum) (val64 b) (val64 c).
  Proof. intros Hb Hc. unfold nltb. cbn [nleb SFNum]. rewrite leb64 by assumption. reflexivity. Qed.
  Lemma r_fin i : (i <= n)%nat -> fin64 (nth i edges zero64). Proof. intros H. apply (e_mod edges He), H. Qed.
  Lemma r_fins b : In b edges -> fin64 b. Proof. intros H. destruct He as (_ & _ & M & _). apply modest_mod, M, H. Qed.

  Lemma r_below : v < e 0%nat -> interp1d_nd (N := SFNum) edges tab (n0 (Num := SFNum)) (n1 (Num := SFNum)) x = zero64 /\ interp1d (N := SFNum) edges tab (n0 (Num := SFNum)) (n1 (Num := SFNum)) x = zero64.
  Proof.
    intros H. unfold interp1d_nd, interp1d. rewrite r_head, r_ltb by (try apply r_xfin; apply r_fin; lia). fold v. fold (e 0%nat). rewrite (proj2 (nltb_R_true v (e 0%nat))) by exact H. split; reflexivity.
  Qed.
  Lemma r_above : e n < v -> interp1d_nd (N := SFNum) edges tab (n0 (Num := SFNum)) (n1 (Num := SFNum)) x = one64 /\ interp1d (N := SFNum) edges tab (n0 (Num := SFNum)) (n1 (Num := SFNum)) x = one64.
  Proof.
    intros H. unfold interp1d_nd, interp1d. rewrite r_head, r_last, !r_ltb by (try apply r_xfin; apply r_fin; lia). fold v. fold (e 0%nat) (e n). rewrite (proj2 (nltb_R_true (e n) v)) by exact H.
    pose proof (r_inc 0 n ltac:(lia)) as I. destruct (nltb (N := RNum) v (e 0%nat)) eqn:E; [apply nltb_R_true in E; lra|]. split; reflexivity.
  Qed.
  Lemma r_nd : e 0%nat <= v <= e n -> read_at (interp1d_nd (N := SFNum) edges tab (n0 (Num := SFNum)) (n1 (Num := SFNum)) x).
  Proof.
    intros H. unfold interp1d_nd. rewrite r_head, r_last, !r_ltb by (try apply r_xfin; apply r_fin; lia). fold v. fold (e 0%nat) (e n).
    destruct (nltb (N := RNum) v (e 0%nat)) eqn:E; [apply nltb_R_true in E; lra|]. destruct (nltb (N := RNum) (e n) v) eqn:E'; [apply nltb_R_true in E'; lra|]. clear E E'.
    rewrite search64 by (try apply r_xfin; apply r_fins). change (searchsorted_left (N := DNum)) with (searchsorted_left (N := RNum)). fold v. set (j := searchsorted_left (N := RNum) (map val64 edges) v).
    pose proof (ssl_le (map val64 edges) v) as L. rewrite map_length, r_len in L. fold j in L. pose proof r_npos as Np. rewrite r_len. cbn [pred].
    set (hh := Nat.min (Nat.max j 1) n). assert (Hh : (1 <= hh <= n)%nat) by (unfold hh; lia).
    assert (K : e (pred hh) <= v <= e hh).
    { split.
      - destruct (Nat.eq_dec hh 1) as [->|]; [apply H|]. assert (pred hh < j)%nat by (unfold hh in *; lia). pose proof (ssl_below (map val64 edges) v (pred hh) H0) as B. rewrite r_nth0 in B. lra.
      - destruct (Nat.le_gt_cases j n) as [Hj|Hj]; [|replace hh with n by (unfold hh; lia); lra].
        pose proof (ssl_at (map val64 edges) v) as B. rewrite map_length, r_len in B. specialize (B ltac:(fold j; lia)). fold j in B. rewrite r_nth0 in B. pose proof (r_inc j hh ltac:(unfold hh; lia)). lra. }
    set (k := pred hh) in *. assert (Eh : hh = S k) by (unfold k; lia). rewrite Eh in *. cbn [pred].
    destruct (r_seg k ltac:(lia) K) as [Fz Vz]. split; [exact Fz|]. exists k. split; [lia|]. split; [exact K|]. left. exact Vz.
  Qed.
  Lemma r_one : e 0%nat <= v <= e n -> read_at (interp1d (N := SFNum) edges tab (n0 (Num := SFNum)) (n1 (Num := SFNum)) x).
  Proof.
    intros H. unfold interp1d. rewrite r_head, r_last, !r_ltb by (try apply r_xfin; apply r_fin; lia). fold v. fold (e 0%nat) (e n).
    destruct (nltb (N := RNum) v (e 0%nat)) eqn:E; [apply nltb_R_true in E; lra|]. destruct (nltb (N := RNum) (e n) v) eqn:E'; [apply nltb_R_true in E'; lra|]. clear E E'.
    rewrite search_r64 by (try apply r_xfin; apply r_fins). fold v. set (j := searchsorted_right (N := RNum) (map val64 edges) v).
    pose proof (ssr_le (map val64 edges) v) as L. rewrite map_length, r_len in L. fold j in L. pose proof r_npos as Np. rewrite r_len. cbn [pred].
    assert (J1 : (1 <= j)%nat). { destruct j eqn:Ej; [|lia]. pose proof (ssr_at (map val64 edges) v) as B. fold j in B. rewrite map_length, r_len, Ej in B. specialize (B ltac:(lia)). rewrite r_nth0 in B. lra. }
    pose proof (ssr_below (map val64 edges) v (pred j) ltac:(fold j; lia)) as B. rewrite r_nth0 in B.
    destruct (Nat.eqb_spec (pred j) n) as [En|En].
    - rewrite En in *. destruct (tab64 n ltac:(lia)) as [Ft Vt]. split; [exact Ft|]. exists (pred n). replace (S (pred n)) with n by lia. split; [lia|]. pose proof (r_inc (pred n) n ltac:(lia)). split; [lra|]. right. split; [lra|exact Vt].
    - set (k := pred j) in *. assert (Ej : j = S k) by (unfold k; lia). assert (Hk : (k < n)%nat) by lia.
      pose proof (ssr_at (map val64 edges) v) as C. fold j in C. rewrite map_length, r_len in C. specialize (C ltac:(lia)). rewrite Ej, r_nth0 in C.
      change (nth0 (N := SFNum) k edges) with (nth k edges zero64). change (nth0 (N := SFNum) (S k) edges) with (nth (S k) edges zero64). change (nth0 (N := SFNum) k tab) with (nth k tab zero64). change (nth0 (N := SFNum) (S k) tab) with (nth (S k) tab zero64).
      destruct (tab64 k ltac:(lia)) as [F0 V0]. destruct (neqb (N := SFNum) (nth k edges zero64) x) eqn:Q.
      + split; [exact F0|]. exists k. split; [exact Hk|]. split; [lra|]. left. rewrite V0. unfold neqb in Q. cbn [nleb SFNum] in Q. rewrite !leb64 in Q by (try apply r_xfin; apply r_fin; lia). apply andb_true_iff in Q. destruct Q as [Q1 Q2]. apply Rleb_true in Q1, Q2. fold v in Q1, Q2. fold (e k) in Q1, Q2.
        assert (Ev : v = e k) by lra. rewrite Ev. symmetry. apply seg_at. apply ydbl.
      + destruct (r_seg k Hk ltac:(lra)) as [Fz Vz]. split; [exact Fz|]. exists k. split; [exact Hk|]. split; [lra|]. left. exact Vz.
  Qed.

  Lemma r_unique z k : read_at z -> (k < n)%nat -> e k < v < e (S k) -> val64 z = seg (e k) (e (S k)) (y k) (y (S k)) v.
  Proof.
    intros (_ & j & Hj & Hx & Hz) Hk Hv. assert (j = k).
    { destruct (Nat.lt_trichotomy j k) as [C|[C|C]]; [|exact C|]; [pose proof (r_inc (S j) k ltac:(lia)); lra|pose proof (r_inc (S k) j ltac:(lia)); lra]. }
    subst j. destruct Hz as [Hz|[Hz _]]; [exact Hz|lra].
  Qed.

  Lemma r_err z : read_at z -> exists k, (k < n)%nat /\ e k <= v <= e (S k) /\ Rabs (val64 z - (y k + (y (S k) - y k) * ((v - e k) / (e (S k) - e k)))) <= / 2 ^ 50 * y (S k) + 3 / 2 ^ 600.
  Proof.
    intros (_ & k & Hk & Hx & Hz). exists k. split; [exact Hk|]. split; [exact Hx|]. pose proof (y_inc k Hk) as Yi. pose proof (y_high (S k) Hk) as Yh. destruct Hz as [->|[Ev ->]].
    - apply seg_err; try apply ydbl; try (apply (e_dbl edges He); unfold n in *; lia); [apply r_dW, Hk|lra|lra|apply r_xdbl|exact Hx].
    - pose proof (W_low edges He k Hk) as Wl. pose proof inv1000 as I. rewrite Ev. replace ((e (S k) - e k) / (e (S k) - e k)) with 1 by (field; unfold e; lra). replace (y (S k) - (y k + (y (S k) - y k) * 1)) with 0 by ring. rewrite Rabs_R0.
      pose proof p600 as P6. assert (0 <= / 2 ^ 50 * y (S k)) by (apply Rmult_le_pos; [apply Rlt_le, Rinv_0_lt_compat, pow_lt; lra|lra]). unfold Rdiv. lra.
  Qed.
  Lemma r_pos z : read_at z -> 0 <= val64 z.
  Proof.
    intros (_ & k & Hk & Hx & Hz). pose proof (y_inc k Hk) as Yi. destruct Hz as [->|[_ ->]]; [|lra].
    unfold seg. apply rd_pos. apply Rplus_le_le_0_compat; [|apply Yi]. apply rd_pos, Rmult_le_pos; [|apply rd_pos; lra].
    apply rd_pos. apply Rmult_le_pos; [apply rd_pos; lra|]. apply Rlt_le, Rinv_0_lt_compat. apply w_pos. apply (r_dW k Hk).
  Qed.
End Reading.

(** ** Evaluation at one point, for any kind of numbers *)
Section AnyNumbers.
  Context {T : Type} {N : Num T}.
  Variable x : T.
  Hypothesis Hx : nleb x x = true.
  Definition icdf_point (i : interp T) (r : nat) : T :=
    (if Nat.eqb (i_npdf i) 1 then interp1d (i_xvals i) (nth r (i_cumul i) []) n0 n1 x else interp1d_nd (i_xvals i) (nth r (i_cumul i) []) n0 n1 x).
  Lemma interp_cdf_scalar (i : interp T) : (0 < i_npdf i)%nat ->
    interp_ens_cdf i (PScalar x) = Ok (map (fun r => [Fin (icdf_point i r)]) (seq 0 (i_npdf i))).
  Proof.
    intros Hk. unfold interp_ens_cdf, rv_cdf, rv_eval. cbn [broadcast_points bind]. rewrite concat_single.
    replace (flat_rows (repeat [x] (i_npdf i)) (seq 0 (i_npdf i))) with (seq 0 (i_npdf i)) by (rewrite <- (seq_length (i_npdf i) 0) at 2; symmetry; apply flat_rows_one).
    unfold icdf_point. set (n := i_npdf i) in *. set (g := fun r => if Nat.eqb n 1 then interp1d (i_xvals i) (nth r (i_cumul i) []) n0 n1 x else interp1d_nd (i_xvals i) (nth r (i_cumul i) []) n0 n1 x).
    assert (C : forallb (fun _ : T => true) (repeat x n) = true) by (apply forallb_forall; auto). rewrite C, repeat_length.
    destruct (Nat.eqb_spec n 0); [lia|].
    assert (E : interp_cdf i (nd1 (repeat x n)) (nd1 (seq 0 n)) = Ok (map g (seq 0 n))).
    { unfold interp_cdf, interpolate_x_multi_y, dispatch, get_eval_case. change (np_ndim (nd1 (repeat x n))) with 1%nat. change (np_ndim (nd1 (seq 0 n))) with 1%nat. cbn [Nat.leb andb negb Nat.eqb].
      rewrite !size_nd1, repeat_length, seq_length. change (dat (nd1 (repeat x n))) with (repeat x n). change (dat (nd1 (seq 0 n))) with (seq 0 n). unfold g. destruct (Nat.eqb_spec n 1) as [E1|E1].
      - rewrite E1. reflexivity.
      - cbn [orb]. assert (V : np_unique (repeat x n) = [x]) by (replace n with (S (pred n)) by lia; apply unique_repeat, Hx). rewrite V.
        assert (U : np_unique_nat (seq 0 n) = seq 0 n) by apply np_unique_nat_sorted_id, seq_sorted. rewrite U. rewrite ?seq_length. cbn [length].
        destruct (Nat.eqb_spec 1 n); [lia|]. rewrite Nat.eqb_refl. rewrite ?size_nd1, ?seq_length. cbn [length]. rewrite ?seq_length, ?Nat.mul_1_l, Nat.eqb_refl. cbn [negb bind].
        f_equal. destruct n as [|[|m]]; [lia|lia|]. unfold expand_last. cbn [dat nd1 map seq]. unfold per_row. cbn [flat_map map app]. do 2 f_equal.
        }
    rewrite E. cbn [bind]. f_equal.
    assert (W : match repeat [x] n with [] => 0%nat | l :: _ => length l end = 1%nat) by (destruct n; [lia|reflexivity]). rewrite W.
    rewrite repeat_length. apply chunk_ones.
  Qed.
End AnyNumbers.

(** ** Densities that are normalised on creation *)
(** what is needed of the values when the table is made *)
Definition ready (xs ys : list spec_float) : Prop :=
  length ys = length xs /\ (forall i, (i <= pred (length xs))%nat -> fin64 (nth i ys zero64) /\ 0 <= val64 (nth i ys zero64) <= bpow radix2 701) /\
  (val64 (nth 0 ys zero64) = 0 \/ / 2 ^ 1020 <= val64 (nth 0 ys zero64)) /\ / 2 ^ 500 <= all_cells xs ys.
Lemma rsum_ge_mul n f g c : 0 <= c -> (forall i, (i < n)%nat -> f i <= c * g i) -> rsum n f <= c * rsum n g.
Proof. intros Hc H. induction n; simpl; [lra|]. pose proof (H n ltac:(lia)). assert (rsum n f <= c * rsum n g) by (apply IHn; intros; apply H; lia). lra. Qed.
Lemma all_cells_cum xs ys : good_grid xs -> all_cells xs ys = cum (fun i => val64 (nth i ys zero64)) (fun i => val64 (nth i xs zero64)) (pred (length xs)).
Proof. intros Hg. pose proof (m_n xs Hg) as N1. unfold all_cells. destruct (pred (length xs)); [lia|reflexivity]. Qed.
Ltac grid_side xs Hg := first [exact (m_n xs Hg)|exact (m_N xs Hg)|exact (m_dX xs Hg)|exact (m_gap xs Hg)|exact (m_tot xs Hg)].
Ltac row_side xs ys Hg V F M := first [assumption|grid_side xs Hg|exact F|solve [apply (m_dY xs ys); assumption]|solve [apply (m_Y xs ys); assumption]|solve [apply (m_mass xs ys); assumption]|lia].
Section Given.
  Variables (xs ys : list spec_float).
  Hypothesis Hg : good_grid xs.
  Hypothesis Hv : good_values xs ys.
  Let n := pred (length xs).
  Let X i := val64 (nth i xs zero64).
  Let Y i := val64 (nth i ys zero64).
  Lemma g_len : length ys = S n. Proof. destruct Hv as (L & _). rewrite L. apply (m_len xs Hg). Qed.
  Lemma g_val i : (i <= n)%nat -> fin64 (nth i ys zero64) /\ 0 <= Y i <= bpow radix2 200.
  Proof.
    intros H. destruct Hv as (_ & A & _). destruct (A (nth i ys zero64)) as [D B]; [apply nth_In; rewrite g_len; lia|]. split; [apply double_moderate, D|]. change 200%Z with (Z.of_nat 200). rewrite <- pow_bpow. exact B.
  Qed.
  Lemma g_ready : ready xs ys.
  Proof.
    destruct Hv as (L & _ & F & M). split; [exact L|]. split; [|split; [|exact M]].
    - intros i Hi. destruct (g_val i Hi) as [A [B C]]. split; [exact A|]. split; [exact B|]. eapply Rle_trans; [exact C|]. apply bpow_le. lia.
    - destruct F as [F|F]; [left; exact F|right]. eapply Rle_trans; [|exact F]. apply Rinv_le_contravar; [apply pow_lt; lra|apply Rle_pow; [lra|lia]].
  Qed.
  Lemma g_mass_high : cum Y X n <= 2 ^ 402.
  Proof.
    change (cum Y X n) with (cum (fun i => val64 (nth i ys zero64)) (fun i => val64 (nth i xs zero64)) (pred (length xs))). rewrite <- all_cells_cum by exact Hg. unfold all_cells. fold n.
    apply Rle_trans with (2 ^ 200 * rsum n (width X)).
    - apply rsum_ge_mul; [apply pow_le; lra|]. intros i Hi. pose proof (g_val i ltac:(lia)) as [_ A]. pose proof (g_val (S i) ltac:(lia)) as [_ B]. assert (W : 0 < / 2 ^ 1000 <= width X i) by (apply (width_low n X); first [exact Hi|grid_side xs Hg]). change 200%Z with (Z.of_nat 200) in A, B. rewrite <- pow_bpow in A, B.
      change (cell xs ys i) with ((Y i + Y (S i)) / 2 * width X i). apply Rmult_le_compat_r; lra.
    - assert (R : 0 <= rsum n (width X) <= 2 ^ 202) by exact (reach n X (m_n xs Hg) (m_gap xs Hg) (m_tot xs Hg) n (le_n n)). apply Rle_trans with (2 ^ 200 * 2 ^ 202); [apply Rmult_le_compat_l; [apply pow_le; lra|apply R]|]. rewrite <- pow_add. right. reflexivity.
  Qed.
  Lemma g_small i : (i <= n)%nat -> Y i / cum64 Y X n <= bpow radix2 701.
  Proof.
    intros Hi. destruct g_ready as (L & V & F & M). pose proof (m_total_low xs ys Hg L V F M) as T. fold n X Y in T. destruct (g_val i Hi) as [_ [A B]].
    change 701%Z with (200 + 501)%Z. rewrite bpow_plus. apply Rmult_le_compat; [exact A| |exact B|].
    - apply Rlt_le, Rinv_0_lt_compat. eapply Rlt_le_trans; [|exact T]. apply Rinv_0_lt_compat, pow_lt; lra.
    - change 501%Z with (Z.of_nat 501). rewrite <- pow_bpow, <- (Rinv_inv (2 ^ 501)). apply Rinv_le_contravar; [apply Rinv_0_lt_compat, pow_lt; lra|exact T].
  Qed.
  Lemma again_ready : ready xs (norm_row xs ys).
  Proof.
    destruct g_ready as (L & V & F & M). assert (Q : forall i, (i <= n)%nat -> fin64 (nth i (norm_row xs ys) zero64) /\ val64 (nth i (norm_row xs ys) zero64) = stored64 n Y X i).
    { intros i Hi. apply (m_norm xs ys Hg L V F M i Hi). fold n X Y. eapply Rle_trans; [apply (g_small i Hi)|]. apply bpow_le. lia. }
        split; [unfold norm_row; rewrite map_length; exact L|]. split; [|split].
    - intros i Hi. destruct (Q i Hi) as [A B]. split; [exact A|]. rewrite B. split.
      + apply stored64_pos; row_side xs ys Hg V F M.
      + unfold stored64. rewrite <- (rd_id (bpow radix2 701)) by (apply dbl_bpow; lia). apply rd_mono, g_small, Hi.
    - rewrite (proj2 (Q 0%nat ltac:(lia))). destruct Hv as (_ & _ & F0 & _). apply stored_first; try exact F0; try apply g_mass_high; row_side xs ys Hg V F M.
    - unfold all_cells. fold n. rewrite (rsum_ext' n _ (trap (stored64 n Y X) X)).
      + assert (E : rsum n (trap (stored64 n Y X) X) = cum (stored64 n Y X) X n) by (pose proof (m_n xs Hg) as N1; fold n in N1; destruct n; [lia|reflexivity]). rewrite E.
        apply stored_mass; row_side xs ys Hg V F M.
      + intros i Hi. unfold cell, trap, width. fold (X i) (X (S i)). rewrite (proj2 (Q i ltac:(lia))), (proj2 (Q (S i) ltac:(lia))). reflexivity.
  Qed.
End Given.

Lemma cells_to_cum xs ys k : cells_to xs ys k = cum (fun i => val64 (nth i ys zero64)) (fun i => val64 (nth i xs zero64)) k.
Proof. destruct k; reflexivity. Qed.
Lemma cum_ext Y Y' X n k : (1 <= n)%nat -> (k <= n)%nat -> (forall i, (i <= n)%nat -> Y i = Y' i) -> cum Y X k = cum Y' X k.
Proof.
  intros H1 Hk H. destruct k; cbn [cum]; [rewrite (H 0%nat) by lia; reflexivity|]. change (rsum (S k) (trap Y X) = rsum (S k) (trap Y' X)). apply rsum_ext'. intros i Hi. unfold trap. rewrite (H i), (H (S i)) by lia. reflexivity.
Qed.
Section Row.
  Variables (xs ys : list spec_float).
  Hypothesis Hg : good_grid xs.
  Hypothesis Hr : ready xs ys.
  Let n := pred (length xs).
  Let X i := val64 (nth i xs zero64).
  Let Y i := val64 (nth i ys zero64).
  Lemma w_tab k : (k <= n)%nat -> fin64 (nth k (table_row xs ys) zero64) /\ val64 (nth k (table_row xs ys) zero64) = table64 n Y X k.
  Proof. destruct Hr as (L & V & F & M). apply (m_table xs ys Hg L V F M). Qed.
  Lemma w_inc k : (k < n)%nat -> 0 <= table64 n Y X k <= table64 n Y X (S k).
  Proof. destruct Hr as (L & V & F & M). intros Hk. apply table64_inc; row_side xs ys Hg V F M. Qed.
  Lemma w_high1 k : (k <= n)%nat -> 0 <= table64 n Y X k <= 1.
  Proof. destruct Hr as (L & V & F & M). intros Hk. apply table64_high; row_side xs ys Hg V F M. Qed.
  Lemma w_high3 k : (k <= n)%nat -> table64 n Y X k <= 3.
  Proof. intros Hk. pose proof (w_high1 k Hk). lra. Qed.
  Lemma w_err k : (k <= n)%nat -> Rabs (table64 n Y X k - cells_to xs ys k / all_cells xs ys) <= (501 / 500 * (INR n + 2) + 5) / 2 ^ 51.
  Proof.
    destruct Hr as (L & V & F & M). intros Hk. rewrite (all_cells_cum xs ys Hg), cells_to_cum. apply table64_err; row_side xs ys Hg V F M.
  Qed.
End Row.
Section Created.
  Variables (xs row : list spec_float) (chk : bool).
  Hypothesis Hg : good_grid xs.
  Hypothesis Hv : good_values xs row.
  Let n := pred (length xs).
  Let g := values_for xs chk row.
  Lemma v_ready : ready xs g. Proof. unfold g, values_for. destruct chk; [apply again_ready; assumption|apply g_ready; assumption]. Qed.
  Lemma norm_vals ys : ready xs ys -> (forall i, (i <= n)%nat -> val64 (nth i ys zero64) / cum64 (fun i => val64 (nth i ys zero64)) (fun i => val64 (nth i xs zero64)) n <= bpow radix2 1000) ->
    forall i, (i <= n)%nat -> fin64 (nth i (norm_row xs ys) zero64) /\ val64 (nth i (norm_row xs ys) zero64) = stored64 n (fun i => val64 (nth i ys zero64)) (fun i => val64 (nth i xs zero64)) i.
  Proof. intros (L & V & F & M) Q i Hi. apply (m_norm xs ys Hg L V F M i Hi). apply Q, Hi. Qed.
  Lemma v_same k : (k <= n)%nat -> Rabs (cells_to xs g k / all_cells xs g - cells_to xs row k / all_cells xs row) <= 5 / 2 ^ 51.
  Proof.
    intros Hk. unfold g, values_for. destruct chk; [|replace (_ - _) with 0 by ring; rewrite Rabs_R0; simpl; lra].
    rewrite !(all_cells_cum xs _ Hg), !cells_to_cum. fold n. destruct (g_ready xs row Hg Hv) as (L & V & F & M).
    assert (Q : forall i, (i <= n)%nat -> val64 (nth i (norm_row xs row) zero64) = stored64 n (fun i => val64 (nth i row zero64)) (fun i => val64 (nth i xs zero64)) i).
    { intros i Hi. apply (norm_vals row (g_ready xs row Hg Hv)); [|exact Hi]. intros j Hj. eapply Rle_trans; [apply (g_small xs row Hg Hv j Hj)|]. apply bpow_le. lia. }
    pose proof (m_n xs Hg) as N1. fold n in N1. rewrite (cum_ext _ _ _ n k N1 Hk Q), (cum_ext _ _ _ n n N1 (le_n n) Q). apply stored_shares; row_side xs row Hg V F M.
  Qed.
  Lemma v_small i : (i <= n)%nat -> val64 (nth i g zero64) / cum64 (fun i => val64 (nth i g zero64)) (fun i => val64 (nth i xs zero64)) n <= bpow radix2 1000.
  Proof.
    intros Hi. unfold g, values_for. destruct chk; [|eapply Rle_trans; [apply (g_small xs row Hg Hv i Hi)|apply bpow_le; lia]].
    destruct (again_ready xs row Hg Hv) as (L & V & F & M). destruct (V i Hi) as [_ [A B]]. destruct (g_ready xs row Hg Hv) as (L0 & V0 & F0 & M0).
    assert (Q : forall i, (i <= n)%nat -> val64 (nth i (norm_row xs row) zero64) = stored64 n (fun i => val64 (nth i row zero64)) (fun i => val64 (nth i xs zero64)) i).
    { intros j Hj. apply (norm_vals row (g_ready xs row Hg Hv)); [|exact Hj]. intros k Hk. eapply Rle_trans; [apply (g_small xs row Hg Hv k Hk)|]. apply bpow_le. lia. }
    destruct (m_total xs (norm_row xs row) Hg L V F M) as [P T]. fold n in P, T. pose proof (m_n xs Hg) as N1. fold n in N1. rewrite (cum_ext _ _ _ n n N1 (le_n n) Q) in T.
    assert (Ar : Rabs (cum (stored64 n (fun i => val64 (nth i row zero64)) (fun i => val64 (nth i xs zero64))) (fun i => val64 (nth i xs zero64)) n - 1) <= (INR n + 3) / 2 ^ 51) by (apply stored_area; row_side xs row Hg V0 F0 M0).
    assert (H2 : / 2 <= cum64 (fun i => val64 (nth i (norm_row xs row) zero64)) (fun i => val64 (nth i xs zero64)) n).
    { pose proof (m_N xs Hg) as NN. fold n in NN. apply Rabs_le_inv in Ar, T. simpl (2 ^ 40) in NN. simpl (2 ^ 51) in Ar. simpl (2 ^ 10) in T. lra. }
    apply Rle_trans with (bpow radix2 701 * 2); [|replace 2 with (bpow radix2 1) by (simpl; lra); rewrite <- bpow_plus; apply bpow_le; lia].
    apply Rmult_le_compat; [exact A|apply Rlt_le, Rinv_0_lt_compat; lra|exact B|]. replace 2 with (/ / 2) by lra. apply Rinv_le_contravar; lra.
  Qed.
  Lemma v_area : length (norm_row xs g) = length xs /\ (forall y, In y (norm_row xs g) -> fin64 y /\ 0 <= val64 y) /\ Rabs (all_cells xs (norm_row xs g) - 1) <= (INR n + 3) / 2 ^ 51.
  Proof.
    destruct v_ready as (L & V & F & M). pose proof (m_n xs Hg) as N1. fold n in N1. assert (Ln : length (norm_row xs g) = length xs) by (unfold norm_row; rewrite map_length; exact L).
    assert (Q : forall i, (i <= n)%nat -> fin64 (nth i (norm_row xs g) zero64) /\ val64 (nth i (norm_row xs g) zero64) = stored64 n (fun i => val64 (nth i g zero64)) (fun i => val64 (nth i xs zero64)) i) by (apply norm_vals; [exact v_ready|exact v_small]).
    split; [exact Ln|]. split.
    - intros y Hy. apply In_nth with (d := zero64) in Hy. destruct Hy as (i & Hi & <-). rewrite Ln, (m_len xs Hg) in Hi. fold n in Hi. destruct (Q i ltac:(lia)) as [A B]. split; [exact A|]. rewrite B. apply stored64_pos; row_side xs g Hg V F M.
    - rewrite (all_cells_cum xs _ Hg). fold n. rewrite (cum_ext _ _ _ n n N1 (le_n n) (fun i Hi => proj2 (Q i Hi))). apply stored_area; row_side xs g Hg V F M.
  Qed.
End Created.

(** ** The ensemble *)
Ltac read_side Hg Hr := first [exact (proj1 Hg)|assumption|exact (w_tab _ _ Hg Hr)|exact (w_inc _ _ Hg Hr)|exact (w_high3 _ _ Hg Hr)|intros; apply table64_dbl].
Section Ensemble.
  Variables (xs : list spec_float) (rows : list (list spec_float)) (chk : bool) (i : interp spec_float).
  Hypothesis Hg : good_grid xs.
  Hypothesis Hne : rows <> [].
  Hypothesis Hr : forall row, In row rows -> good_values xs row.
  Hypothesis Hi : interp_ctor (N := SFNum) xs (nd2 (length xs) rows) chk = Ok i.
  Lemma e_parts : i_xvals i = xs /\ i_yvals i = map (fun row => norm_row xs (values_for xs chk row)) rows /\ i_cumul i = map (fun row => table_row xs (values_for xs chk row)) rows.
  Proof. rewrite interp_build_64 in Hi; [|apply Hg|intros row H; apply (Hr row H)]. injection Hi as <-. repeat split. Qed.
  Lemma e_npdf : i_npdf i = length rows. Proof. unfold i_npdf. destruct e_parts as (_ & -> & _). apply map_length. Qed.
  Lemma e_ne : (0 < length rows)%nat. Proof. destruct rows; [congruence|simpl; lia]. Qed.
  Variable x : spec_float.
  Hypothesis Hx : double x.
  Lemma e_answers : answers (interp_ens_cdf (N := SFNum) i (PScalar x)) (length rows) (icdf_point (N := SFNum) x i).
  Proof.
    unfold answers. rewrite <- e_npdf. apply interp_cdf_scalar; [|rewrite e_npdf; apply e_ne]. cbn [nleb SFNum]. rewrite leb64 by (apply double_moderate, Hx). apply Rleb_true; lra.
  Qed.
  Variable r : nat.
  Hypothesis Hl : (r < length rows)%nat.
  Let row := nth r rows [].
  Let g := values_for xs chk row.
  Let n := pred (length xs).
  Let T := table64 n (fun i => val64 (nth i g zero64)) (fun i => val64 (nth i xs zero64)).
  Lemma e_row : good_values xs row. Proof. apply Hr, nth_In, Hl. Qed.
  Lemma e_ready : ready xs g. Proof. apply v_ready; [exact Hg|exact e_row]. Qed.
  Lemma e_tab : nth r (i_cumul i) [] = table_row xs g.
  Proof. destruct e_parts as (_ & _ & ->). rewrite nth_map_in with (d' := []) by exact Hl. reflexivity. Qed.
  Lemma e_low : val64 x < first_edge xs -> icdf_point (N := SFNum) x i r = zero64.
  Proof. intros H. unfold icdf_point. destruct e_parts as (-> & _ & _). rewrite e_tab. assert (E : interp1d_nd (N := SFNum) xs (table_row xs g) (n0 (Num := SFNum)) (n1 (Num := SFNum)) x = zero64 /\ interp1d (N := SFNum) xs (table_row xs g) (n0 (Num := SFNum)) (n1 (Num := SFNum)) x = zero64) by (apply (r_below xs (table_row xs g) T); read_side Hg e_ready). destruct E as [A B]. rewrite A, B. destruct (Nat.eqb _ _); reflexivity. Qed.
  Lemma e_up : last_edge xs < val64 x -> icdf_point (N := SFNum) x i r = one64.
  Proof. intros H. unfold icdf_point. destruct e_parts as (-> & _ & _). rewrite e_tab. assert (E : interp1d_nd (N := SFNum) xs (table_row xs g) (n0 (Num := SFNum)) (n1 (Num := SFNum)) x = one64 /\ interp1d (N := SFNum) xs (table_row xs g) (n0 (Num := SFNum)) (n1 (Num := SFNum)) x = one64) by (apply (r_above xs (table_row xs g) T); read_side Hg e_ready). destruct E as [A B]. rewrite A, B. destruct (Nat.eqb _ _); reflexivity. Qed.
  Lemma e_read : first_edge xs <= val64 x <= last_edge xs -> read_at xs T x (icdf_point (N := SFNum) x i r).
  Proof.
    intros H. unfold icdf_point. destruct e_parts as (-> & _ & _). rewrite e_tab. destruct (Nat.eqb _ _).
    - apply (r_one xs (table_row xs g) T); read_side Hg e_ready.
    - apply (r_nd xs (table_row xs g) T); read_side Hg e_ready.
  Qed.
End Ensemble.

(** The stored density has area 1 up to rounding. *)
Lemma c141_area : forall xs rows chk i, good_grid xs -> (forall row, In row rows -> good_values xs row) ->
  interp_ctor (N := SFNum) xs (nd2 (length xs) rows) chk = Ok i ->
  length (i_yvals i) = length rows /\ forall row, In row (i_yvals i) -> length row = length xs /\ (forall y, In y row -> fin64 y /\ 0 <= val64 y) /\ Rabs (all_cells xs row - 1) <= INR (length xs + 2) / 2 ^ 51.
Proof.
  intros xs rows chk i Hg Hr Hi. destruct (e_parts xs rows chk i Hg Hr Hi) as (_ & -> & _). split; [apply map_length|]. intros row H. apply in_map_iff in H. destruct H as (g & <- & H).
  destruct (v_area xs g chk Hg (Hr g H)) as (L & F & A). split; [exact L|]. split; [exact F|].
  replace (INR (length xs + 2)) with (INR (pred (length xs)) + 3); [exact A|]. rewrite (m_len xs Hg) at 2. rewrite plus_INR, S_INR. simpl. lra.
Qed.

(** At a grid point both neighbouring cells give the same share. *)
Lemma share_agree : forall xs ys k k' x, good_grid xs -> (S k < length xs)%nat -> (S k' < length xs)%nat ->
  val64 (nth k xs zero64) <= x <= val64 (nth (S k) xs zero64) -> val64 (nth k' xs zero64) <= x <= val64 (nth (S k') xs zero64) -> share_in xs ys k x = share_in xs ys k' x.
Proof.
  intros xs ys. assert (A : forall k k' x, good_grid xs -> (S k < length xs)%nat -> (S k' < length xs)%nat -> (k < k')%nat ->
    val64 (nth k xs zero64) <= x <= val64 (nth (S k) xs zero64) -> val64 (nth k' xs zero64) <= x <= val64 (nth (S k') xs zero64) -> share_in xs ys k x = share_in xs ys k' x).
  { intros k k' x Hg Hk Hk' G K K'. pose proof (m_len xs Hg) as Le. set (n := pred (length xs)) in *. pose proof (W_low xs (proj1 Hg) k ltac:(fold n; lia)) as Wl. pose proof inv1000.
    assert (E : k' = S k \/ (S k < k')%nat) by lia. destruct E as [-> |E]; [|pose proof (e_lt xs (proj1 Hg) (S k) k' ltac:(fold n; lia)) as I; cbv beta in I; lra].
    assert (Ex : x = val64 (nth (S k) xs zero64)) by lra. subst x. unfold share_in. f_equal.
    replace ((val64 (nth (S k) xs zero64) - val64 (nth k xs zero64)) / (val64 (nth (S k) xs zero64) - val64 (nth k xs zero64))) with 1 by (field; lra).
    replace (val64 (nth (S k) xs zero64) - val64 (nth (S k) xs zero64)) with 0 by ring. unfold Rdiv. rewrite Rmult_0_l, Rmult_0_r. ring. }
  intros k k' x Hg Hk Hk' K K'. destruct (Nat.lt_trichotomy k k') as [G|[-> |G]]; [apply A; assumption|reflexivity|symmetry; apply A; assumption].
Qed.

(** The values of the cdf. *)
Lemma c141_cdf : forall xs rows chk i x, good_grid xs -> rows <> [] -> (forall row, In row rows -> good_values xs row) ->
  interp_ctor (N := SFNum) xs (nd2 (length xs) rows) chk = Ok i -> double x ->
  exists v, answers (interp_ens_cdf (N := SFNum) i (PScalar x)) (length rows) v /\
    forall r, (r < length rows)%nat ->
      fin64 (v r) /\ 0 <= val64 (v r) <= 1 + / 2 ^ 49 /\
      (val64 x < first_edge xs -> v r = zero64) /\
      (last_edge xs < val64 x -> v r = one64) /\
      (forall k, (S k < length xs)%nat -> val64 (nth k xs zero64) <= val64 x <= val64 (nth (S k) xs zero64) ->
        Rabs (val64 (v r) - share_in xs (nth r rows []) k (val64 x)) <= INR (2 * length xs + 12) / 2 ^ 51).
Proof.
  intros xs rows chk i x Hg Hne Hr Hi Hx. exists (icdf_point (N := SFNum) x i). split; [apply (e_answers xs rows chk i Hg Hne Hr Hi x Hx)|]. intros r Hl.
  pose proof (e_row xs rows Hr r Hl) as Gr. pose proof (e_ready xs rows chk Hg Hr r Hl) as Rd. set (g := values_for xs chk (nth r rows [])) in *.
  assert (R : first_edge xs <= val64 x <= last_edge xs -> read_at xs (table64 (pred (length xs)) (fun i => val64 (nth i g zero64)) (fun i => val64 (nth i xs zero64))) x (icdf_point (N := SFNum) x i r)) by (apply (e_read xs rows chk i); assumption).
  set (T := table64 _ _ _) in *. set (n := pred (length xs)) in *.
  assert (A : first_edge xs <= val64 x <= last_edge xs -> exists k, (k < n)%nat /\ val64 (nth k xs zero64) <= val64 x <= val64 (nth (S k) xs zero64) /\
    Rabs (val64 (icdf_point (N := SFNum) x i r) - (T k + (T (S k) - T k) * ((val64 x - val64 (nth k xs zero64)) / (val64 (nth (S k) xs zero64) - val64 (nth k xs zero64))))) <= / 2 ^ 50 * T (S k) + 3 / 2 ^ 600).
  { intros H. apply (r_err xs T) with (x := x); try exact (R H); read_side Hg Rd. }
  assert (H1 : forall k, (k <= n)%nat -> 0 <= T k <= 1) by exact (w_high1 xs g Hg Rd). assert (H2 : forall k, (k < n)%nat -> 0 <= T k <= T (S k)) by exact (w_inc xs g Hg Rd).
  assert (Q : forall k, (k < n)%nat -> val64 (nth k xs zero64) <= val64 x <= val64 (nth (S k) xs zero64) -> 0 <= (val64 x - val64 (nth k xs zero64)) / (val64 (nth (S k) xs zero64) - val64 (nth k xs zero64)) <= 1).
  { intros k Hk K. apply (lam _ _ (dW xs (proj1 Hg) k Hk) (val64 x) K). }
  pose proof p600 as P6. simpl (2 ^ 100) in P6. replace (3 / 2 ^ 600) with (3 * / 2 ^ 600) in A by reflexivity. set (t6 := / 2 ^ 600) in *.
  assert (Lo : val64 x < first_edge xs -> icdf_point (N := SFNum) x i r = zero64) by (apply (e_low xs rows chk i); assumption).
  assert (Up : last_edge xs < val64 x -> icdf_point (N := SFNum) x i r = one64) by (apply (e_up xs rows chk i); assumption).
  split; [|split; [|split; [exact Lo|split; [exact Up|]]]].
  - destruct (Rlt_le_dec (val64 x) (first_edge xs)) as [C|C]; [rewrite (Lo C); apply fin64_0|]. destruct (Rlt_le_dec (last_edge xs) (val64 x)) as [D|D]; [rewrite (Up D); split; reflexivity|]. apply (R (conj C D)).
  - destruct (Rlt_le_dec (val64 x) (first_edge xs)) as [C|C]; [rewrite (Lo C); change (val64 zero64) with 0; simpl; lra|]. destruct (Rlt_le_dec (last_edge xs) (val64 x)) as [D|D]; [rewrite (Up D), val_one; simpl; lra|].
    split; [apply (r_pos xs T) with (x := x); try exact (R (conj C D)); read_side Hg Rd|].
    destruct (A (conj C D)) as (k & Hk & K & E). pose proof (H1 (S k) Hk) as T1. pose proof (H2 k Hk) as T2. pose proof (Q k Hk K) as q01. set (q := _ / _) in *. assert ((T (S k) - T k) * q <= (T (S k) - T k) * 1) by (apply Rmult_le_compat_l; lra).
    apply Rabs_le_inv in E. simpl (2 ^ 50) in E. simpl (2 ^ 49). lra.
  - intros k0 Hk0 K0. pose proof (m_len xs Hg) as Le0. fold n in Le0.
    assert (I0 : first_edge xs <= val64 (nth k0 xs zero64)) by (apply (e_inc xs (proj1 Hg) 0 k0); fold n; lia). assert (I1 : val64 (nth (S k0) xs zero64) <= last_edge xs) by (apply (e_inc xs (proj1 Hg) (S k0) n); fold n; lia).
    destruct (A (conj (Rle_trans _ _ _ I0 (proj1 K0)) (Rle_trans _ _ _ (proj2 K0) I1))) as (k & Hk & K & E). clear I0 I1. rewrite (share_agree xs (nth r rows []) k0 k (val64 x) Hg Hk0 ltac:(rewrite Le0; lia) K0 K). clear K0. pose proof (H1 (S k) Hk) as T1. pose proof (Q k Hk K) as q01. unfold share_in. set (q := (val64 x - _) / _) in *.
    set (row := nth r rows []) in *. assert (M : forall j, (j <= n)%nat -> Rabs (T j - cells_to xs row j / all_cells xs row) <= (501 / 500 * (INR n + 2) + 10) / 2 ^ 51).
    { intros j Hj. pose proof (w_err xs g Hg Rd j Hj) as E1. fold n T in E1. pose proof (v_same xs row chk Hg Gr j Hj) as E2. fold g in E2. apply Rabs_le_inv in E1, E2. apply Rabs_le. simpl (2 ^ 51) in *. lra. }
    pose proof (M k ltac:(lia)) as M0. pose proof (M (S k) Hk) as M1. set (a := cells_to xs row k / all_cells xs row) in *. set (b := cells_to xs row (S k) / all_cells xs row) in *.
    replace ((cells_to xs row k + (cells_to xs row (S k) - cells_to xs row k) * q) / all_cells xs row) with (a + (b - a) * q) by (unfold a, b, Rdiv; ring).
    assert (F : Rabs (T k + (T (S k) - T k) * q - (a + (b - a) * q)) <= (501 / 500 * (INR n + 2) + 10) / 2 ^ 51).
    { replace (T k + (T (S k) - T k) * q - (a + (b - a) * q)) with ((1 - q) * (T k - a) + q * (T (S k) - b)) by ring. eapply Rle_trans; [apply Rabs_triang|]. rewrite !Rabs_mult, (Rabs_pos_eq (1 - q)), (Rabs_pos_eq q) by lra.
      set (d := (501 / 500 * (INR n + 2) + 10) / 2 ^ 51) in *. assert ((1 - q) * Rabs (T k - a) <= (1 - q) * d) by (apply Rmult_le_compat_l; lra). assert (q * Rabs (T (S k) - b) <= q * d) by (apply Rmult_le_compat_l; lra). lra. }
    replace (INR (2 * length xs + 12)) with (2 * INR n + 14) by (replace (2 * length xs + 12)%nat with (2 * n + 14)%nat by (pose proof (m_len xs Hg) as Le; fold n in Le; rewrite Le; ring); rewrite plus_INR, mult_INR; simpl; lra).
    pose proof (pos_INR n) as N0. apply Rabs_le_inv in E, F. apply Rabs_le. simpl (2 ^ 50) in *. simpl (2 ^ 51) in *. pose proof (le_INR 1 n (m_n xs Hg)) as N1. simpl (INR 1) in N1. lra.
Qed.

(** Inside one cell the values never decrease. *)
Lemma c141_in_cell : forall xs rows chk i x x' v v' k r, good_grid xs -> rows <> [] -> (forall row, In row rows -> good_values xs row) ->
  interp_ctor (N := SFNum) xs (nd2 (length xs) rows) chk = Ok i -> double x -> double x' ->
  answers (interp_ens_cdf (N := SFNum) i (PScalar x)) (length rows) v -> answers (interp_ens_cdf (N := SFNum) i (PScalar x')) (length rows) v' ->
  (S k < length xs)%nat -> val64 (nth k xs zero64) < val64 x -> val64 x <= val64 x' -> val64 x' < val64 (nth (S k) xs zero64) -> (r < length rows)%nat ->
  val64 (v r) <= val64 (v' r).
Proof.
  intros xs rows chk i x x' v v' k r Hg Hne Hr Hi Hx Hx' A A' Hk H1 H2 H3 Hl. rewrite (answers_inj _ _ _ _ A (e_answers xs rows chk i Hg Hne Hr Hi x Hx) r Hl), (answers_inj _ _ _ _ A' (e_answers xs rows chk i Hg Hne Hr Hi x' Hx') r Hl).
  pose proof (e_ready xs rows chk Hg Hr r Hl) as Rd. pose proof (m_len xs Hg) as Le. set (n := pred (length xs)) in *.
  assert (I0 : first_edge xs <= val64 (nth k xs zero64)) by (apply (e_inc xs (proj1 Hg) 0 k); fold n; lia). assert (I1 : val64 (nth (S k) xs zero64) <= last_edge xs) by (apply (e_inc xs (proj1 Hg) (S k) n); fold n; lia).
  assert (R : forall z, double z -> first_edge xs <= val64 z <= last_edge xs -> read_at xs (table64 n (fun i => val64 (nth i (values_for xs chk (nth r rows [])) zero64)) (fun i => val64 (nth i xs zero64))) z (icdf_point (N := SFNum) z i r)) by (intros z Hz Iz; apply (e_read xs rows chk i); assumption).
  set (g := values_for xs chk (nth r rows [])) in *. set (T := table64 _ _ _) in *.
  assert (U : forall z, double z -> val64 (nth k xs zero64) < val64 z < val64 (nth (S k) xs zero64) -> val64 (icdf_point (N := SFNum) z i r) = seg (val64 (nth k xs zero64)) (val64 (nth (S k) xs zero64)) (T k) (T (S k)) (val64 z)).
  { intros z Hz Iz. apply (r_unique xs T (proj1 Hg) z); try assumption; [apply R; [exact Hz|lra]|fold n; lia]. }
  rewrite (U x Hx ltac:(lra)), (U x' Hx' ltac:(lra)). pose proof (w_inc xs g Hg Rd k ltac:(fold n; lia)) as Y. fold n T in Y. pose proof (w_high3 xs g Hg Rd (S k) ltac:(fold n; lia)) as Yh. fold n T in Yh.
  apply seg_mono; try apply table64_dbl; [apply (dW xs (proj1 Hg) k ltac:(fold n; lia))|exact Y|exact Yh|exact H2].
Qed.

(** Across cells they decrease by no more than the rounding of one interpolation, whatever the number of grid points. *)
Lemma c141_order : forall xs rows chk i x x' v v' r, good_grid xs -> rows <> [] -> (forall row, In row rows -> good_values xs row) ->
  interp_ctor (N := SFNum) xs (nd2 (length xs) rows) chk = Ok i -> double x -> double x' ->
  answers (interp_ens_cdf (N := SFNum) i (PScalar x)) (length rows) v -> answers (interp_ens_cdf (N := SFNum) i (PScalar x')) (length rows) v' -> (r < length rows)%nat -> val64 x <= val64 x' ->
  val64 (v r) <= val64 (v' r) + / 2 ^ 48.
Proof.
  intros xs rows chk i x x' v v' r Hg Hne Hr Hi Hx Hx' A A' Hl Hle.
  pose proof (e_ready xs rows chk Hg Hr r Hl) as Rd. pose proof (m_len xs Hg) as Le.
  destruct (c141_cdf xs rows chk i x Hg Hne Hr Hi Hx) as (u & B & V). destruct (V r Hl) as (_ & [V0 V1] & Vl & Vu & _). pose proof (answers_inj _ _ _ _ A B r Hl) as Eu. clear V.
  destruct (c141_cdf xs rows chk i x' Hg Hne Hr Hi Hx') as (u' & B' & V'). destruct (V' r Hl) as (_ & [V0' V1'] & Vl' & Vu' & _). pose proof (answers_inj _ _ _ _ A' B' r Hl) as Eu'. clear V'.
  rewrite Eu, Eu'. simpl (2 ^ 48). simpl (2 ^ 49) in *.
  destruct (Rlt_le_dec (val64 x) (first_edge xs)) as [C|C]; [rewrite (Vl C); change (val64 zero64) with 0; lra|].
  destruct (Rlt_le_dec (last_edge xs) (val64 x')) as [D|D]; [rewrite (Vu' D), val_one; lra|].
  rewrite <- Eu, <- Eu'. rewrite (answers_inj _ _ _ _ A (e_answers xs rows chk i Hg Hne Hr Hi x Hx) r Hl), (answers_inj _ _ _ _ A' (e_answers xs rows chk i Hg Hne Hr Hi x' Hx') r Hl).
  set (n := pred (length xs)) in *.
  assert (R : forall z, double z -> first_edge xs <= val64 z <= last_edge xs -> read_at xs (table64 n (fun i => val64 (nth i (values_for xs chk (nth r rows [])) zero64)) (fun i => val64 (nth i xs zero64))) z (icdf_point (N := SFNum) z i r)) by (intros z Hz Iz; apply (e_read xs rows chk i); assumption).
  set (g := values_for xs chk (nth r rows [])) in *. set (T := table64 _ _ _) in *.
  assert (F : forall z, double z -> first_edge xs <= val64 z <= last_edge xs -> exists k, (k < n)%nat /\ val64 (nth k xs zero64) <= val64 z <= val64 (nth (S k) xs zero64) /\
    Rabs (val64 (icdf_point (N := SFNum) z i r) - (T k + (T (S k) - T k) * ((val64 z - val64 (nth k xs zero64)) / (val64 (nth (S k) xs zero64) - val64 (nth k xs zero64))))) <= / 2 ^ 50 * T (S k) + 3 / 2 ^ 600).
  { intros z Hz H. apply (r_err xs T) with (x := z); try exact (R z Hz H); read_side Hg Rd. }
  assert (H1 : forall k, (k <= n)%nat -> 0 <= T k <= 1) by exact (w_high1 xs g Hg Rd). assert (H2 : forall k, (k < n)%nat -> 0 <= T k <= T (S k)) by exact (w_inc xs g Hg Rd).
  assert (Tm : forall j k, (j <= k <= n)%nat -> T j <= T k) by (intros j k [J1 J2]; induction J1; [lra|]; pose proof (H2 m ltac:(lia)); specialize (IHJ1 ltac:(lia)); lra).
  assert (Q : forall k z, (k < n)%nat -> val64 (nth k xs zero64) <= val64 z <= val64 (nth (S k) xs zero64) -> 0 <= (val64 z - val64 (nth k xs zero64)) / (val64 (nth (S k) xs zero64) - val64 (nth k xs zero64)) <= 1).
  { intros k z Hk K. apply (lam _ _ (dW xs (proj1 Hg) k Hk) (val64 z) K). }
  pose proof p600 as P6. simpl (2 ^ 100) in P6. replace (3 / 2 ^ 600) with (3 * / 2 ^ 600) in F by reflexivity. set (t6 := / 2 ^ 600) in *.
  destruct (F x Hx ltac:(lra)) as (k & Hk & K & E). destruct (F x' Hx' ltac:(lra)) as (k' & Hk' & K' & E').
  pose proof (H1 (S k) Hk) as T1. pose proof (H1 (S k') Hk') as T1'. pose proof (H2 k Hk) as T2. pose proof (H2 k' Hk') as T2'. pose proof (Q k x Hk K) as q1. pose proof (Q k' x' Hk' K') as q1'.
  assert (Main : T k + (T (S k) - T k) * ((val64 x - val64 (nth k xs zero64)) / (val64 (nth (S k) xs zero64) - val64 (nth k xs zero64))) <= T k' + (T (S k') - T k') * ((val64 x' - val64 (nth k' xs zero64)) / (val64 (nth (S k') xs zero64) - val64 (nth k' xs zero64)))).
  { destruct (Nat.lt_trichotomy k k') as [G|[G|G]].
    - set (q := _ / (val64 (nth (S k) xs zero64) - _)) in *. set (q' := (val64 x' - _) / _) in *. pose proof (Tm (S k) k' ltac:(lia)). assert ((T (S k) - T k) * q <= (T (S k) - T k) * 1) by (apply Rmult_le_compat_l; lra). assert (0 <= (T (S k') - T k') * q') by (apply Rmult_le_pos; lra). lra.
    - subst k'. apply Rplus_le_compat_l, Rmult_le_compat_l; [lra|]. apply Rmult_le_compat_r; [|lra]. apply Rlt_le, Rinv_0_lt_compat. pose proof (W_low xs (proj1 Hg) k Hk) as Wl. pose proof inv1000. lra.
    - pose proof (e_inc xs (proj1 Hg) (S k') k ltac:(fold n; lia)) as I. cbv beta in I. assert (Ex : val64 x = val64 (nth k xs zero64) /\ val64 x' = val64 (nth (S k') xs zero64)) by lra. destruct Ex as [-> ->].
      pose proof (W_low xs (proj1 Hg) k' Hk') as Wl. pose proof inv1000. replace (val64 (nth k xs zero64) - val64 (nth k xs zero64)) with 0 by ring.
      assert (Kk : k = S k' \/ (S k' < k)%nat) by lia. destruct Kk as [-> |Kk].
      + replace ((val64 (nth (S k') xs zero64) - val64 (nth k' xs zero64)) / (val64 (nth (S k') xs zero64) - val64 (nth k' xs zero64))) with 1 by (field; lra). unfold Rdiv. rewrite !Rmult_0_l, Rmult_0_r. lra.
      + pose proof (e_lt xs (proj1 Hg) (S k') k ltac:(fold n; lia)) as I2. cbv beta in I2. lra. }
  apply Rabs_le_inv in E, E'. simpl (2 ^ 50) in E, E'. set (a := _ + _ * (_ / _)) in E. set (b := _ + _ * (_ / _)) in E'. fold a b in Main. lra.
Qed.

(** The constructor accepts every such table. *)
Lemma c141_builds : forall xs rows chk, good_grid xs -> (forall row, In row rows -> good_values xs row) -> exists i, interp_ctor (N := SFNum) xs (nd2 (length xs) rows) chk = Ok i.
Proof. intros xs rows chk Hg Hr. eexists. apply interp_build_64; [apply Hg|]. intros row H. apply (Hr row H). Qed.

(** The values can exceed 1 and can decrease, and the value of a PDF can depend on the presence of another one:
    grid 0, 1, 7 and values 0, 7, 3; two such PDFs give cdf(7) = 1 + 2^-52 and cdf(8) = 1, one alone gives cdf(7) = 1. *)
Definition g_grid : list spec_float := map (fun z => SpecFloat.binary_normalize 53 1024 z 0 false) [0; 1; 7]%Z.
Definition g_row : list spec_float := map (fun z => SpecFloat.binary_normalize 53 1024 z 0 false) [0; 7; 3]%Z.
Lemma c141_above_one : exists i j x x' v v' w,
  interp_ctor (N := SFNum) g_grid (nd2 3 [g_row; g_row]) true = Ok i /\ interp_ctor (N := SFNum) g_grid (nd2 3 [g_row]) true = Ok j /\
  answers (interp_ens_cdf (N := SFNum) i (PScalar x)) 2 v /\ answers (interp_ens_cdf (N := SFNum) i (PScalar x')) 2 v' /\ answers (interp_ens_cdf (N := SFNum) j (PScalar x)) 1 w /\
  val64 x = last_edge g_grid /\ val64 x < val64 x' /\ 1 < val64 (v 0%nat) /\ val64 (v' 0%nat) < val64 (v 0%nat) /\ val64 (w 0%nat) = 1.
Proof.
  eexists. eexists. exists (SpecFloat.binary_normalize 53 1024 7 0 false), (SpecFloat.binary_normalize 53 1024 8 0 false), (fun _ => f64 4503599627370497 (-52)), (fun _ => one64), (fun _ => one64).
  split; [vm_compute; reflexivity|]. split; [vm_compute; reflexivity|]. split; [vm_compute; reflexivity|]. split; [vm_compute; reflexivity|]. split; [vm_compute; reflexivity|].
  rewrite val_one. split; [reflexivity|]. split; [|split; [|split; [|reflexivity]]].
  - replace (SpecFloat.binary_normalize 53 1024 7 0 false) with (f64 7881299347898368 (-50)) by (vm_compute; reflexivity). replace (SpecFloat.binary_normalize 53 1024 8 0 false) with (f64 4503599627370496 (-49)) by (vm_compute; reflexivity). rewrite !val_f64. simpl bpow. lra.
  - rewrite val_f64. simpl bpow. lra.
  - rewrite val_f64. simpl bpow. lra.
Qed.
Lemma g_grid_is : g_grid = [S754_zero false; f64 4503599627370496 (-52); f64 7881299347898368 (-50)]. Proof. vm_compute. reflexivity. Qed.
Lemma g_row_is : g_row = [S754_zero false; f64 7881299347898368 (-50); f64 6755399441055744 (-51)]. Proof. vm_compute. reflexivity. Qed.
Example c141_example : good_grid g_grid /\ good_values g_grid g_row /\ first_edge g_grid = 0 /\ last_edge g_grid = 7 /\ all_cells g_grid g_row = 67 / 2 /\ share_in g_grid g_row 1 4 = 37 / 67.
Proof.
  rewrite g_grid_is, g_row_is.
  assert (V1 : val64 (f64 4503599627370496 (-52)) = 1) by (rewrite val_f64; simpl bpow; lra). assert (V3 : val64 (f64 6755399441055744 (-51)) = 3) by (rewrite val_f64; simpl bpow; lra).
  assert (V7 : val64 (f64 7881299347898368 (-50)) = 7) by (rewrite val_f64; simpl bpow; lra). assert (V0 : val64 (S754_zero false) = 0) by reflexivity.
  assert (P : forall k, (3 <= k)%nat -> 8 <= 2 ^ k) by (intros k Hk; replace k with (3 + (k - 3))%nat by lia; rewrite pow_add; pose proof (pow_R1_Rle 2 (k - 3) ltac:(lra)); simpl (2 ^ 3); lra).
  pose proof (P 200%nat ltac:(lia)) as P2. pose proof (half_le 500 ltac:(lia)) as P5. pose proof (half_le 1000 ltac:(lia)) as P10. set (c2 := 2 ^ 200) in *. set (c5 := / 2 ^ 500) in *. set (c10 := / 2 ^ 1000) in *.
  assert (A : all_cells [S754_zero false; f64 4503599627370496 (-52); f64 7881299347898368 (-50)] [S754_zero false; f64 7881299347898368 (-50); f64 6755399441055744 (-51)] = 67 / 2).
  { unfold all_cells, cell, zero64. cbn [length pred rsum nth]. rewrite V1, V3, V7, V0. lra. }
  split; [|split; [|split; [|split; [|split]]]].
  - split; [split; [simpl; lia|]; split; [simpl; lra|]; split|].
    + intros b H. cbn [In] in H. destruct H as [<-|[<-|[<-|[]]]]; try (apply modest_0); apply modest_f64_8; try reflexivity; simpl bpow; lra.
    + intros i Hi. cbn [length] in Hi. fold c10. destruct i as [|[|i]]; [| |lia]; cbn [nth]; rewrite ?V1, ?V7, ?V0; lra.
    + intros b H. fold c2. cbn [In] in H. destruct H as [<-|[<-|[<-|[]]]]; rewrite ?V1, ?V7, ?V0, Rabs_pos_eq by lra; lra.
  - split; [reflexivity|]. split; [|split; [left; reflexivity|fold c5; rewrite A; lra]].
    intros y H. fold c2. assert (D : modest y /\ 0 <= val64 y) by (cbn [In] in H; destruct H as [<-|[<-|[<-|[]]]]; try (apply modest_0); apply modest_f64_8; try reflexivity; simpl bpow; lra).
    split; [apply D|]. cbn [In] in H. destruct H as [<-|[<-|[<-|[]]]]; rewrite ?V3, ?V7, ?V0; lra.
  - reflexivity.
  - unfold last_edge. cbn [length pred nth]. exact V7.
  - exact A.
  - unfold share_in. rewrite A. unfold cells_to, cell, zero64. cbn [rsum nth]. rewrite V1, V3, V7, V0. lra.
Qed.
