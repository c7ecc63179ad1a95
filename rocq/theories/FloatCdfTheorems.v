(** The cumulative distribution of histograms in double precision. *)
From Coq Require Import List Arith ZArith Bool Sorted Permutation Lia Reals Lra Psatz Floats.SpecFloat.
From Flocq Require Import Core.Zaux Core.Raux.
From Verif Require Import Num NumProofs Py NdArray NumpyLib Utils ScipyWrap SortProofs EvalProofs HistPdf Spec InterpProofs BinProofs Float FloatProofs FloatHist FloatMachine FloatTheorems FloatExamples FloatNorm FloatCdf.
Import ListNotations.
Local Open Scope R_scope.

(** ** Specification *)
(** Area under a histogram to the left of [x]. *)
Definition area_below (edges row : list spec_float) (x : R) : R :=
  rsum (pred (length edges)) (fun i => val64 (nth i row zero64) * Rmax 0 (Rmin x (val64 (nth (S i) edges zero64)) - val64 (nth i edges zero64))).
Definition one64 : spec_float := S754_finite false (2 ^ 52) (-52).
(** Bin edges: increasing, of magnitude at most 2^400, at least 2^-1000 apart, at most 2^40 of them. *)
Definition good_edges (edges : list spec_float) : Prop :=
  (2 <= length edges)%nat /\ INR (length edges) <= 2 ^ 40 /\ (forall b, In b edges -> modest b) /\
  (forall i, (S i < length edges)%nat -> / 2 ^ 1000 <= val64 (nth (S i) edges zero64) - val64 (nth i edges zero64)).
(** A row of stored values: finite, non-negative, of total area at most 2. *)
Definition good_row (edges row : list spec_float) : Prop :=
  length row = pred (length edges) /\ (forall x, In x row -> fin64 x /\ 0 <= val64 x) /\ area edges row <= 2.
Definition off (edges : list spec_float) : R := INR (length edges + 7) / 2 ^ 51.

(** ** Evaluation at one point, for any kind of numbers *)
Section AnyNumbers.
  Context {T : Type} {N : Num T}.
  Variable x : T.
  Hypothesis Hx : nleb x x = true.
  Definition cdf_point (h : hist T) (r : nat) : T :=
    (if Nat.eqb (h_npdf h) 1 then interp1d (h_bins h) (nth r (h_cdfs h) []) n0 n1 x else interp1d_nd (h_bins h) (nth r (h_cdfs h) []) n0 n1 x).
  Lemma hist_cdf_scalar (h : hist T) : (0 < h_npdf h)%nat ->
    hist_ens_cdf h (PScalar x) = Ok (map (fun r => [Fin (cdf_point h r)]) (seq 0 (h_npdf h))).
  Proof.
    intros Hk. unfold hist_ens_cdf, rv_cdf, rv_eval. cbn [broadcast_points bind]. rewrite concat_single.
    replace (flat_rows (repeat [x] (h_npdf h)) (seq 0 (h_npdf h))) with (seq 0 (h_npdf h)) by (rewrite <- (seq_length (h_npdf h) 0) at 2; symmetry; apply flat_rows_one).
    unfold cdf_point. set (n := h_npdf h) in *. set (g := fun r => if Nat.eqb n 1 then interp1d (h_bins h) (nth r (h_cdfs h) []) n0 n1 x else interp1d_nd (h_bins h) (nth r (h_cdfs h) []) n0 n1 x).
    assert (C : forallb (fun _ : T => true) (repeat x n) = true) by (apply forallb_forall; auto). rewrite C, repeat_length.
    destruct (Nat.eqb_spec n 0); [lia|].
    assert (E : hist_cdf h (nd1 (repeat x n)) (nd1 (seq 0 n)) = Ok (map g (seq 0 n))).
    { unfold hist_cdf, interpolate_x_multi_y, dispatch, get_eval_case. change (np_ndim (nd1 (repeat x n))) with 1%nat. change (np_ndim (nd1 (seq 0 n))) with 1%nat. cbn [Nat.leb andb negb Nat.eqb].
      rewrite !size_nd1, repeat_length, seq_length. change (dat (nd1 (repeat x n))) with (repeat x n). change (dat (nd1 (seq 0 n))) with (seq 0 n). unfold g. destruct (Nat.eqb_spec n 1) as [E1|E1].
      - rewrite E1. reflexivity.
      - cbn [orb]. assert (V : np_unique (repeat x n) = [x]) by (replace n with (S (pred n)) by lia; apply unique_repeat, Hx). rewrite V.
        assert (U : np_unique_nat (seq 0 n) = seq 0 n) by apply np_unique_nat_sorted_id, seq_sorted. rewrite U. rewrite ?seq_length. cbn [length]. 
        destruct (Nat.eqb_spec 1 n); [lia|]. rewrite Nat.eqb_refl. rewrite ?size_nd1, ?seq_length. cbn [length]. rewrite ?seq_length, ?Nat.mul_1_l, Nat.eqb_refl. cbn [negb bind].
        f_equal. destruct n as [|[|m]]; [lia|lia|]. unfold expand_last. cbn [dat nd1 map seq]. unfold per_row. cbn [flat_map map app]. do 2 f_equal.
        }
    rewrite E. cbn [bind]. f_equal.
    assert (W : match repeat [x] n with [] => 0%nat | l :: _ => length l end = 1%nat) by (destruct n; [lia|reflexivity]). rewrite W.
    rewrite repeat_length. apply chunk_ones.
  Qed.
End AnyNumbers.

(** ** Searches *)
Lemma nltb_R_true (b c : R) : nltb (N := RNum) b c = true <-> b < c.
Proof. destruct (nltb_reflect b c); split; intros; try congruence; try assumption; contradiction. Qed.
Lemma search_r64 l x : (forall b, In b l -> fin64 b) -> fin64 x -> searchsorted_right (N := SFNum) l x = searchsorted_right (N := RNum) (map val64 l) (val64 x).
Proof.
  intros H Hx. induction l as [|a l IH]; [reflexivity|]. cbn [searchsorted_right map]. cbn [nleb SFNum RNum]. rewrite leb64 by (auto; apply H; left; reflexivity).
  rewrite IH by (intros; apply H; right; assumption). reflexivity.
Qed.
Lemma last_nth' {A} (l : list A) d : last l d = nth (pred (length l)) l d.
Proof. induction l as [|a [|b l] IH]; [reflexivity|reflexivity|]. change (last (b :: l) d = nth (pred (length (b :: l))) (b :: l) d). exact IH. Qed.

(** ** The table *)
Fixpoint sums64 (l : list spec_float) (k : nat) : spec_float := match k with O => zero64 | S k => SFadd 53 1024 (sums64 l k) (nth k l zero64) end.
Lemma ncumsum_nth l : forall m j k, skipn j l = m -> (k < length m)%nat -> nth k (ncumsum_from (N := SFNum) (sums64 l j) m) zero64 = sums64 l (S (j + k)).
Proof.
  assert (G : forall m j a t, skipn j l = m -> m = a :: t -> nth j l zero64 = a /\ skipn (S j) l = t).
  { intros m j a t H ->. revert l H. induction j; intros l H; destruct l; try discriminate; [simpl in *; injection H as -> ->; auto|]. destruct (IHj l H). split; assumption. }
  induction m as [|a t IH]; intros j k H Hk; [simpl in Hk; lia|]. destruct (G _ _ a t H eq_refl) as [Na Sk]. cbn [ncumsum_from]. change (nadd (Num := SFNum) (sums64 l j) a) with (SFadd 53 1024 (sums64 l j) a).
  destruct k as [|k]; [cbn [nth sums64]; rewrite Nat.add_0_r, Na; reflexivity|]. cbn [nth].
  replace (SFadd 53 1024 (sums64 l j) a) with (sums64 l (S j)) by (cbn [sums64]; rewrite Na; reflexivity). rewrite IH; [f_equal; lia|exact Sk|simpl in Hk; lia].
Qed.
Lemma ncumsum_len (l : list spec_float) acc : length (ncumsum_from (N := SFNum) acc l) = length l.
Proof. revert acc. induction l; intros; [reflexivity|]. cbn [ncumsum_from length]. f_equal. apply IHl. Qed.
Lemma table_nth l k : (k <= length l)%nat -> nth k (n0 (Num := SFNum) :: ncumsum (N := SFNum) l) zero64 = sums64 l k.
Proof. intros H. destruct k; [reflexivity|]. cbn [nth]. unfold ncumsum. change (n0 (Num := SFNum)) with (sums64 l 0). rewrite (ncumsum_nth l l 0 k eq_refl) by lia. reflexivity. Qed.

Section Row.
  Variables edges row : list spec_float.
  Hypothesis He : good_edges edges.
  Hypothesis Hr : good_row edges row.
  Let n := pred (length edges).
  Let e i := val64 (nth i edges zero64).
  Let p i := val64 (nth i row zero64).
  Let W i := e (S i) - e i.
  Let w i := rd (W i).
  Let a i := rd (p i * w i).
  Let y k := sums a k.
  Let tab := hist_cdf_row (N := SFNum) (bin_widths (N := SFNum) edges) row.

  Lemma len_e : length edges = S n. Proof. destruct He as (H & _). unfold n. lia. Qed.
  Lemma n_pos : (1 <= n)%nat. Proof. destruct He as (H & _). unfold n. lia. Qed.
  Lemma n_small : INR n <= 2 ^ 40.
  Proof. destruct He as (_ & H & _). eapply Rle_trans; [|exact H]. apply le_INR. unfold n. lia. Qed.
  Lemma e_mod i : (i <= n)%nat -> moderate 400 (nth i edges zero64).
  Proof. intros H. apply modest_mod. destruct He as (_ & _ & M & _). apply M, nth_In. rewrite len_e. lia. Qed.
  Lemma e_dbl i : (i <= n)%nat -> dbl (e i). Proof. intros H. apply dbl64, e_mod, H. Qed.
  Lemma W_low i : (i < n)%nat -> / 2 ^ 1000 <= W i. Proof. intros H. destruct He as (_ & _ & _ & D). apply (D i). rewrite len_e. lia. Qed.
  Lemma inv1000 : 0 < / 2 ^ 1000. Proof. apply Rinv_0_lt_compat, pow_lt. lra. Qed.
  Lemma W_high i : (i < n)%nat -> W i <= 2 ^ 401.
  Proof.
    intros H. pose proof (e_mod i ltac:(lia)) as [_ A]. pose proof (e_mod (S i) ltac:(lia)) as [_ B]. apply Rabs_le_inv in A, B. unfold W, e. rewrite pow_bpow. change (Z.of_nat 401) with (400 + 1)%Z. rewrite <- bpow_add1. lra.
  Qed.
  Lemma e_inc i j : (i <= j <= n)%nat -> e i <= e j.
  Proof. intros [H1 H2]. induction H1; [lra|]. pose proof (W_low m ltac:(lia)) as D. pose proof inv1000. unfold W in D. specialize (IHle ltac:(lia)). lra. Qed.
  Lemma e_lt i j : (i < j <= n)%nat -> e i < e j.
  Proof. intros [H1 H2]. pose proof (e_inc (S i) j ltac:(lia)). pose proof (W_low i ltac:(lia)) as D. pose proof inv1000. unfold W in D. lra. Qed.
  Lemma p_fin i : (i < n)%nat -> fin64 (nth i row zero64) /\ 0 <= p i.
  Proof. intros H. destruct Hr as (L & F & _). apply F, nth_In. unfold n in H. lia. Qed.
  Lemma w_near' i : (i < n)%nat -> Rabs (w i - W i) <= u53 * W i.
  Proof. intros H. pose proof (W_low i H). pose proof inv1000. unfold w. rewrite <- (Rabs_pos_eq (W i)) at 3 by lra. apply rd_sub_err; apply e_dbl; lia. Qed.
  Lemma tot2 : rsum n (fun i => p i * W i) <= 2. Proof. apply Hr. Qed.
  Lemma W_nn i : (i < n)%nat -> 0 <= W i. Proof. intros H. pose proof (W_low i H). pose proof inv1000. lra. Qed.
  Definition tab_near := sums_near n p W w n_small (fun i H => proj2 (p_fin i H)) W_nn w_near' tot2.
  Definition tab_high := sums_high n p W w n_small (fun i H => proj2 (p_fin i H)) W_nn w_near' tot2.
  Lemma a_nn i : (i < n)%nat -> 0 <= a i. Proof. apply (a_pos n p W w (fun i H => proj2 (p_fin i H)) W_nn w_near'). Qed.
  Lemma y_inc k : (k < n)%nat -> 0 <= y k <= y (S k).
  Proof. intros H. split; [apply tab_high; lia|]. apply sums_inc, a_nn, H. Qed.

  Lemma w64 i : (i < n)%nat -> moderate 401 (nth i (ndiff (N := SFNum) edges) zero64) /\ val64 (nth i (ndiff (N := SFNum) edges) zero64) = w i.
  Proof.
    intros Hi. unfold zero64. rewrite ndiff_nth_64 by (rewrite len_e; lia). destruct (mod_sub 400 (nth (S i) edges (S754_zero false)) (nth i edges (S754_zero false)) ltac:(lia)) as [A B]; [apply e_mod; lia|apply e_mod; lia|]. split; [exact A|exact B].
  Qed.
  Lemma rd4 z : 0 <= z <= 8 -> small (rd z).
  Proof. intros H. apply (small_le 3); [lia|]. apply rd_le_bpow; [lia|]. rewrite Rabs_pos_eq by lra. simpl. lra. Qed.
  Lemma prod64 i : (i < n)%nat -> fin64 (SFmul 53 1024 (nth i row zero64) (nth i (ndiff (N := SFNum) edges) zero64)) /\ val64 (SFmul 53 1024 (nth i row zero64) (nth i (ndiff (N := SFNum) edges) zero64)) = a i.
  Proof.
    intros Hi. destruct (w64 i Hi) as [[Fw _] Vw]. destruct (p_fin i Hi) as [Fp Pp]. destruct (mul64 _ _ Fp Fw) as [A B]; [|split; [exact A|rewrite B, Vw; reflexivity]].
    rewrite Vw. apply rd4. fold (p i). pose proof (w_near' i Hi) as E. rewrite u53v in E. pose proof (W_nn i Hi) as Wn. apply Rabs_le_inv in E.
    assert (0 <= w i <= 2 * W i) by (simpl in E; lra). assert (T : p i * W i <= 2).
    { eapply Rle_trans; [|apply tot2]. pose proof (rsum_mono_n (S i) n (fun i => p i * W i) ltac:(lia) ltac:(intros j Hj; apply Rmult_le_pos; [apply p_fin, Hj|apply W_nn, Hj])) as M. simpl in M.
      assert (0 <= rsum i (fun i => p i * W i)) by (apply (rsum_mono_n 0 i (fun i => p i * W i)); [lia|intros j Hj; apply Rmult_le_pos; [apply p_fin; lia|apply W_nn; lia]]). lra. }
    split; [apply Rmult_le_pos; lra|]. apply Rle_trans with (p i * (2 * W i)); [apply Rmult_le_compat_l; lra|]. lra.
  Qed.
  Lemma tab_len : length tab = S n.
  Proof. unfold tab, hist_cdf_row, ncumsum. cbn [length]. f_equal. rewrite ncumsum_len. destruct Hr as (L & _). rewrite (map2_seq _ _ _ n zero64 zero64); [rewrite map_length; apply seq_length|exact L|apply ndiff_length_64]. Qed.
  Lemma tab64 k : (k <= n)%nat -> fin64 (nth k tab zero64) /\ val64 (nth k tab zero64) = y k.
  Proof.
    unfold tab, hist_cdf_row. rewrite (map2_seq _ _ _ n zero64 zero64); [|apply Hr|apply ndiff_length_64].
    set (l := map _ (seq 0 n)). assert (Ll : length l = n) by (unfold l; rewrite map_length; apply seq_length). intros Hk. rewrite table_nth by lia.
    induction k as [|k IH]; [split; [apply fin64_0|reflexivity]|]. destruct (IH ltac:(lia)) as [F V]. cbn [sums64].
    assert (Nl : nth k l zero64 = SFmul 53 1024 (nth k row zero64) (nth k (ndiff (N := SFNum) edges) zero64)).
    { unfold l. set (f := fun i : nat => _). rewrite nth_indep with (d' := f 0%nat) by (rewrite map_length, seq_length; lia). rewrite (map_nth f), seq_nth by lia. reflexivity. }
    rewrite Nl. destruct (prod64 k ltac:(lia)) as [Fp Vp]. destruct (add64 _ _ F Fp) as [A B]; [|split; [exact A|rewrite B, V, Vp; reflexivity]].
    rewrite V, Vp. change (rd (y k + a k)) with (y (S k)). pose proof (tab_high (S k) Hk) as T. rewrite <- (rd_id (y (S k))) by apply sums_dbl. apply rd4. unfold y. split; [apply T|]. apply Rle_trans with (5 / 2); [apply T|lra].
  Qed.

  (** *** One segment on the machine *)
  Lemma y_high k : (k <= n)%nat -> y k <= 3. Proof. intros H. pose proof (tab_high k H) as T. unfold y. apply Rle_trans with (5 / 2); [apply T|lra]. Qed.
  Variable x : spec_float.
  Hypothesis Fx : double x.
  Let v := val64 x.
  Lemma x_fin : fin64 x. Proof. apply double_moderate, Fx. Qed.
  Lemma x_dbl : dbl v. Proof. apply dbl64, x_fin. Qed.
  Lemma dW k : (k < n)%nat -> / 2 ^ 1000 <= e (S k) - e k <= 2 ^ 401. Proof. intros H. split; [apply (W_low k H)|apply (W_high k H)]. Qed.
  Lemma seg64 k : (k < n)%nat -> e k <= v <= e (S k) ->
    let z := SFadd 53 1024 (SFmul 53 1024 (SFdiv 53 1024 (SFsub 53 1024 (nth (S k) tab zero64) (nth k tab zero64)) (SFsub 53 1024 (nth (S k) edges zero64) (nth k edges zero64)))
                                          (SFsub 53 1024 x (nth k edges zero64))) (nth k tab zero64) in
    fin64 z /\ val64 z = seg (e k) (e (S k)) (y k) (y (S k)) v.
  Proof.
    intros Hk Hx z. destruct (tab64 k ltac:(lia)) as [F0 V0]. destruct (tab64 (S k) ltac:(lia)) as [F1 V1]. pose proof (y_inc k Hk) as Yi. pose proof (y_high (S k) ltac:(lia)) as Yh. pose proof (dW k Hk) as HW.
    pose proof (sums_dbl a k) as Dk. pose proof (sums_dbl a (S k)) as Dk1. fold (y k) in Dk. fold (y (S k)) in Dk1.
    pose proof (e_dbl k ltac:(lia)) as De. pose proof (e_dbl (S k) ltac:(lia)) as De1.
    pose proof (e_mod k ltac:(lia)) as M0. pose proof (e_mod (S k) ltac:(lia)) as M1.
    destruct (sub64 _ _ F1 F0) as [Fd Vd]; [rewrite V1, V0; apply rd4; lra|]. rewrite V1, V0 in Vd.
    destruct (mod_sub 400 _ _ ltac:(lia) M1 M0) as [[Fw _] Vw]. fold (e (S k)) (e k) in Vw.
    assert (Mx : moderate 400 x). { split; [apply x_fin|]. destruct M0 as [_ A]. destruct M1 as [_ B]. fold (e k) in A. fold (e (S k)) in B. fold v. apply Rabs_le_inv in A, B. apply Rabs_le. lra. }
    destruct (mod_sub 400 _ _ ltac:(lia) Mx M0) as [[Fv _] Vv]. fold v in Vv. fold (e k) in Vv.
    pose proof (w_low (e k) (e (S k)) HW) as Wl. pose proof inv1000 as I.
    pose proof (d_pos (y k) (y (S k)) Dk Dk1 Yi Yh) as D4.
    destruct (div64 _ _ Fd Fw) as [Fq Vq].
    { rewrite Vw. lra. }
    { rewrite Vd, Vw. apply (small_le 1002); [lia|]. apply rd_le_bpow; [lia|]. rewrite Rabs_pos_eq by (apply Rmult_le_pos; [lra|apply Rlt_le, Rinv_0_lt_compat; lra]).
      change 1002%Z with (2 + Z.of_nat 1000)%Z. rewrite bpow_plus, <- pow_bpow. unfold Rdiv. apply Rmult_le_compat; [lra|apply Rlt_le, Rinv_0_lt_compat; lra|simpl; lra|].
      rewrite <- (Rinv_inv (2 ^ 1000)). apply Rinv_le_contravar; [exact I|exact Wl]. }
    rewrite Vd, Vw in Vq.
    pose proof (sv_small _ _ _ _ De De1 Dk Dk1 HW Yi Yh v x_dbl Hx) as S4. pose proof (t_small _ _ _ _ De De1 Dk Dk1 HW Yi Yh v x_dbl Hx) as T4.
    destruct (mul64 _ _ Fq Fv) as [Fm Vm]; [rewrite Vq, Vv; apply rd4; lra|]. rewrite Vq, Vv in Vm.
    destruct (add64 _ _ Fm F0) as [Fz Vz]; [rewrite Vm, V0; apply rd4; lra|]. rewrite Vm, V0 in Vz. split; [exact Fz|exact Vz].
  Qed.

  Definition reads (z : spec_float) : Prop :=
    fin64 z /\ exists k, (k < n)%nat /\ e k <= v <= e (S k) /\ (val64 z = seg (e k) (e (S k)) (y k) (y (S k)) v \/ (v = e (S k) /\ val64 z = y (S k))).
  Lemma nth0_map i : nth0 (N := RNum) i (map val64 edges) = e i.
  Proof. unfold nth0, e. symmetry. apply nth64. Qed.
  Lemma head_e : nhead (N := SFNum) edges = nth 0 edges zero64. Proof. destruct edges; reflexivity. Qed.
  Lemma last_e : nlast (N := SFNum) edges = nth n edges zero64. Proof. unfold nlast. apply last_nth'. Qed.
  Lemma ltb64 b c : fin64 b -> fin64 c -> nltb (N := SFNum) b c = nltb (N := RNum) (val64 b) (val64 c).
  Proof. intros Hb Hc. unfold nltb. cbn [nleb SFNum]. rewrite leb64 by assumption. reflexivity. Qed.
  Lemma fin_e i : (i <= n)%nat -> fin64 (nth i edges zero64). Proof. intros H. apply e_mod, H. Qed.
  Lemma fins b : In b edges -> fin64 b. Proof. intros H. destruct He as (_ & _ & M & _). apply modest_mod, M, H. Qed.

  Lemma nd_below : v < e 0%nat -> interp1d_nd (N := SFNum) edges tab (n0 (Num := SFNum)) (n1 (Num := SFNum)) x = zero64 /\ interp1d (N := SFNum) edges tab (n0 (Num := SFNum)) (n1 (Num := SFNum)) x = zero64.
  Proof.
    intros H. unfold interp1d_nd, interp1d. rewrite head_e, ltb64 by (try apply x_fin; apply fin_e; lia). fold v. fold (e 0%nat). rewrite (proj2 (nltb_R_true v (e 0%nat))) by exact H. split; reflexivity.
  Qed.
  Lemma nd_above : e n < v -> interp1d_nd (N := SFNum) edges tab (n0 (Num := SFNum)) (n1 (Num := SFNum)) x = one64 /\ interp1d (N := SFNum) edges tab (n0 (Num := SFNum)) (n1 (Num := SFNum)) x = one64.
  Proof.
    intros H. unfold interp1d_nd, interp1d. rewrite head_e, last_e, !ltb64 by (try apply x_fin; apply fin_e; lia). fold v. fold (e 0%nat) (e n). rewrite (proj2 (nltb_R_true (e n) v)) by exact H.
    pose proof (e_inc 0 n ltac:(lia)) as I. destruct (nltb (N := RNum) v (e 0%nat)) eqn:E; [apply nltb_R_true in E; lra|]. split; reflexivity.
  Qed.
  Lemma nd_in : e 0%nat <= v <= e n -> reads (interp1d_nd (N := SFNum) edges tab (n0 (Num := SFNum)) (n1 (Num := SFNum)) x).
  Proof.
    intros H. unfold interp1d_nd. rewrite head_e, last_e, !ltb64 by (try apply x_fin; apply fin_e; lia). fold v. fold (e 0%nat) (e n).
    destruct (nltb (N := RNum) v (e 0%nat)) eqn:E; [apply nltb_R_true in E; lra|]. destruct (nltb (N := RNum) (e n) v) eqn:E'; [apply nltb_R_true in E'; lra|]. clear E E'.
    rewrite search64 by (try apply x_fin; apply fins). change (searchsorted_left (N := DNum)) with (searchsorted_left (N := RNum)). fold v. set (j := searchsorted_left (N := RNum) (map val64 edges) v).
    pose proof (ssl_le (map val64 edges) v) as L. rewrite map_length, len_e in L. fold j in L. pose proof n_pos as Np. rewrite len_e. cbn [pred].
    set (hh := Nat.min (Nat.max j 1) n). assert (Hh : (1 <= hh <= n)%nat) by (unfold hh; lia).
    assert (K : e (pred hh) <= v <= e hh).
    { split.
      - destruct (Nat.eq_dec hh 1) as [->|]; [apply H|]. assert (pred hh < j)%nat by (unfold hh in *; lia). pose proof (ssl_below (map val64 edges) v (pred hh) H0) as B. rewrite nth0_map in B. lra.
      - destruct (Nat.le_gt_cases j n) as [Hj|Hj]; [|replace hh with n by (unfold hh; lia); lra].
        pose proof (ssl_at (map val64 edges) v) as B. rewrite map_length, len_e in B. specialize (B ltac:(fold j; lia)). fold j in B. rewrite nth0_map in B. pose proof (e_inc j hh ltac:(unfold hh; lia)). lra. }
    set (k := pred hh) in *. assert (Eh : hh = S k) by (unfold k; lia). rewrite Eh in *. cbn [pred].
    destruct (seg64 k ltac:(lia) K) as [Fz Vz]. split; [exact Fz|]. exists k. split; [lia|]. split; [exact K|]. left. exact Vz.
  Qed.
  Lemma one_in : e 0%nat <= v <= e n -> reads (interp1d (N := SFNum) edges tab (n0 (Num := SFNum)) (n1 (Num := SFNum)) x).
  Proof.
    intros H. unfold interp1d. rewrite head_e, last_e, !ltb64 by (try apply x_fin; apply fin_e; lia). fold v. fold (e 0%nat) (e n).
    destruct (nltb (N := RNum) v (e 0%nat)) eqn:E; [apply nltb_R_true in E; lra|]. destruct (nltb (N := RNum) (e n) v) eqn:E'; [apply nltb_R_true in E'; lra|]. clear E E'.
    rewrite search_r64 by (try apply x_fin; apply fins). fold v. set (j := searchsorted_right (N := RNum) (map val64 edges) v).
    pose proof (ssr_le (map val64 edges) v) as L. rewrite map_length, len_e in L. fold j in L. pose proof n_pos as Np. rewrite len_e. cbn [pred].
    assert (J1 : (1 <= j)%nat). { destruct j eqn:Ej; [|lia]. pose proof (ssr_at (map val64 edges) v) as B. fold j in B. rewrite map_length, len_e, Ej in B. specialize (B ltac:(lia)). rewrite nth0_map in B. lra. }
    pose proof (ssr_below (map val64 edges) v (pred j) ltac:(fold j; lia)) as B. rewrite nth0_map in B.
    destruct (Nat.eqb_spec (pred j) n) as [En|En].
    - rewrite En in *. destruct (tab64 n ltac:(lia)) as [Ft Vt]. split; [exact Ft|]. exists (pred n). replace (S (pred n)) with n by lia. split; [lia|]. pose proof (e_inc (pred n) n ltac:(lia)). split; [lra|]. right. split; [lra|exact Vt].
    - set (k := pred j) in *. assert (Ej : j = S k) by (unfold k; lia). assert (Hk : (k < n)%nat) by lia.
      pose proof (ssr_at (map val64 edges) v) as C. fold j in C. rewrite map_length, len_e in C. specialize (C ltac:(lia)). rewrite Ej, nth0_map in C.
      change (nth0 (N := SFNum) k edges) with (nth k edges zero64). change (nth0 (N := SFNum) (S k) edges) with (nth (S k) edges zero64). change (nth0 (N := SFNum) k tab) with (nth k tab zero64). change (nth0 (N := SFNum) (S k) tab) with (nth (S k) tab zero64).
      destruct (tab64 k ltac:(lia)) as [F0 V0]. destruct (neqb (N := SFNum) (nth k edges zero64) x) eqn:Q.
      + split; [exact F0|]. exists k. split; [exact Hk|]. split; [lra|]. left. rewrite V0. unfold neqb in Q. cbn [nleb SFNum] in Q. rewrite !leb64 in Q by (try apply x_fin; apply fin_e; lia). apply andb_true_iff in Q. destruct Q as [Q1 Q2]. apply Rleb_true in Q1, Q2. fold v in Q1, Q2. fold (e k) in Q1, Q2.
        assert (Ev : v = e k) by lra. rewrite Ev. symmetry. apply seg_at. apply sums_dbl.
      + destruct (seg64 k Hk ltac:(lra)) as [Fz Vz]. split; [exact Fz|]. exists k. split; [exact Hk|]. split; [lra|]. left. exact Vz.
  Qed.

  (** *** Error *)
  Lemma below_at k : (k < n)%nat -> e k <= v <= e (S k) -> area_below edges row v = rsum k (fun i => p i * W i) + p k * (v - e k).
  Proof.
    intros Hk Hx. unfold area_below. fold n. change (rsum n (fun i => p i * Rmax 0 (Rmin v (e (S i)) - e i)) = rsum k (fun i => p i * W i) + p k * (v - e k)).
    assert (G : forall m, (S k <= m <= n)%nat -> rsum m (fun i => p i * Rmax 0 (Rmin v (e (S i)) - e i)) = rsum k (fun i => p i * W i) + p k * (v - e k)).
    { intros m [H1 H2]. induction H1.
      - cbn [rsum]. f_equal.
        + apply rsum_ext'. intros i Hi. unfold W. pose proof (e_inc (S i) k ltac:(lia)). pose proof (e_inc i (S i) ltac:(lia)). rewrite Rmin_right, Rmax_right by lra. reflexivity.
        + rewrite Rmin_left, Rmax_right by lra. reflexivity.
      - cbn [rsum]. rewrite (IHle ltac:(lia)). pose proof (e_inc (S k) m ltac:(lia)). pose proof (e_inc m (S m) ltac:(lia)). rewrite Rmin_left, Rmax_left by lra. lra. }
    apply G. lia.
  Qed.
  Lemma reads_err z : reads z -> Rabs (val64 z - area_below edges row v) <= off edges.
  Proof.
    intros (_ & k & Hk & Hx & Hz). rewrite (below_at k Hk Hx). pose proof (tab_near k ltac:(lia)) as E0. pose proof (tab_near (S k) ltac:(lia)) as E1.
    fold a in E0, E1. change (sums (fun i => rd (p i * w i))) with (sums a) in E0, E1. fold (y k) in E0. fold (y (S k)) in E1. cbn [rsum] in E1.
    set (Y := rsum k (fun i => p i * W i)) in *. pose proof (W_low k Hk) as Wl. pose proof inv1000 as I. fold (W k) in *.
    unfold off. replace (INR (length edges + 7)) with (INR n + 8) by (rewrite len_e; replace (S n + 7)%nat with (n + 8)%nat by lia; rewrite plus_INR; simpl; lra).
    pose proof p600 as P6. pose proof (y_inc k Hk) as Yi. pose proof (tab_high (S k) ltac:(lia)) as Yh. change (sums (fun i => rd (p i * w i)) (S k)) with (y (S k)) in Yh.
    assert (P : p k * (v - e k) = p k * W k * ((v - e k) / W k)) by (field; lra). rewrite P. set (q := (v - e k) / W k) in *.
    assert (Q : 0 <= q <= 1) by (apply (lam (e k) (e (S k)) (dW k Hk) v Hx)).
    assert (M : Rabs (y k + (y (S k) - y k) * q - (Y + p k * W k * q)) <= (INR n + 2) / 2 ^ 51 + / 2 ^ 600).
    { replace (y k + (y (S k) - y k) * q - (Y + p k * W k * q)) with ((1 - q) * (y k - Y) + q * (y (S k) - (Y + p k * W k))) by ring.
      eapply Rle_trans; [apply Rabs_triang|]. rewrite !Rabs_mult, (Rabs_pos_eq (1 - q)), (Rabs_pos_eq q) by lra. set (b := (INR n + 2) / 2 ^ 51 + / 2 ^ 600) in *.
      assert ((1 - q) * Rabs (y k - Y) <= (1 - q) * b) by (apply Rmult_le_compat_l; lra). assert (q * Rabs (y (S k) - (Y + p k * W k)) <= q * b) by (apply Rmult_le_compat_l; lra). lra. }
    assert (Fin : Rabs (val64 z - (y k + (y (S k) - y k) * q)) <= / 2 ^ 50 * y (S k) + 3 / 2 ^ 600).
    { destruct Hz as [->|[Ev ->]].
      - apply seg_err; try apply sums_dbl; try (apply e_dbl; lia); [apply dW, Hk|lra|lra|apply x_dbl|exact Hx].
      - assert (q1 : q = 1) by (unfold q, W; rewrite Ev; field; unfold W in Wl; lra). rewrite q1. replace (y (S k) - (y k + (y (S k) - y k) * 1)) with 0 by ring. rewrite Rabs_R0.
        assert (0 <= / 2 ^ 50 * y (S k)) by (apply Rmult_le_pos; [apply Rlt_le, Rinv_0_lt_compat, pow_lt; lra|lra]). unfold Rdiv. lra. }
    replace (val64 z - (Y + p k * W k * q)) with ((val64 z - (y k + (y (S k) - y k) * q)) + (y k + (y (S k) - y k) * q - (Y + p k * W k * q))) by ring.
    eapply Rle_trans; [apply Rabs_triang|]. replace (3 / 2 ^ 600) with (3 * / 2 ^ 600) in * by reflexivity. set (zz := / 2 ^ 600) in *. pose proof (pos_INR n). simpl (2 ^ 50) in *. simpl (2 ^ 51) in *. simpl (2 ^ 100) in *. lra.
  Qed.
  Lemma reads_seg z k : reads z -> (k < n)%nat -> e k < v < e (S k) -> val64 z = seg (e k) (e (S k)) (y k) (y (S k)) v.
  Proof.
    intros (_ & j & Hj & Hx & Hz) Hk Hv. assert (j = k).
    { destruct (Nat.lt_trichotomy j k) as [C|[C|C]]; [|exact C|]; [pose proof (e_inc (S j) k ltac:(lia)); lra|pose proof (e_inc (S k) j ltac:(lia)); lra]. }
    subst j. destruct Hz as [Hz|[Hz _]]; [exact Hz|lra].
  Qed.
End Row.

(** ** The ensemble *)
Lemma val_one : val64 one64 = 1. Proof. change one64 with (f64 4503599627370496 (-52)). rewrite val_f64. simpl bpow. lra. Qed.
Definition share (edges row : list spec_float) (x : R) : R := area_below edges row x / area edges row.
Definition first_edge (edges : list spec_float) : R := val64 (nth 0 edges zero64).
Definition last_edge (edges : list spec_float) : R := val64 (nth (pred (length edges)) edges zero64).

Lemma cdfs_nth (h : hist spec_float) r : (r < h_npdf h)%nat -> nth r (h_cdfs (N := SFNum) h) [] = hist_cdf_row (N := SFNum) (bin_widths (N := SFNum) (h_bins h)) (nth r (h_pdfs h) []).
Proof. intros H. unfold h_cdfs. rewrite nth_map_in with (d' := []) by exact H. reflexivity. Qed.
Lemma reads_pos edges row x z : good_edges edges -> good_row edges row -> reads edges row x z -> 0 <= val64 z.
Proof.
  intros He Hr (_ & k & Hk & Hx & Hz). pose proof (y_inc edges row He Hr k Hk) as Y. destruct Hz as [->|[_ ->]]; [|lra].
  unfold seg. apply rd_pos. apply Rplus_le_le_0_compat; [|apply Y]. apply rd_pos, Rmult_le_pos; [|apply rd_pos; lra].
  apply rd_pos. apply Rmult_le_pos; [apply rd_pos; lra|]. apply Rlt_le, Rinv_0_lt_compat. apply w_pos. apply (dW edges He k Hk).
Qed.
Section Ensemble.
  Variable h : hist spec_float.
  Hypothesis He : good_edges (h_bins h).
  Hypothesis Hne : (0 < length (h_pdfs h))%nat.
  Hypothesis Hr : forall row, In row (h_pdfs h) -> good_row (h_bins h) row.
  Lemma ens_answers x : double x -> answers (hist_ens_cdf (N := SFNum) h (PScalar x)) (length (h_pdfs h)) (cdf_point (N := SFNum) x h).
  Proof.
    intros Hx. unfold answers. change (length (h_pdfs h)) with (h_npdf h). apply hist_cdf_scalar; [|exact Hne].
    cbn [nleb SFNum]. rewrite leb64 by (apply double_moderate, Hx). apply Rleb_true; lra.
  Qed.
  Lemma ens_below x r : double x -> (r < length (h_pdfs h))%nat -> val64 x < first_edge (h_bins h) -> cdf_point (N := SFNum) x h r = zero64.
  Proof. intros Hx Hl H. unfold cdf_point. rewrite cdfs_nth by exact Hl. destruct (nd_below (h_bins h) (nth r (h_pdfs h) []) He (Hr _ (nth_In (h_pdfs h) [] Hl)) x Hx H) as [A B]. rewrite A, B. destruct (Nat.eqb _ _); reflexivity. Qed.
  Lemma ens_above x r : double x -> (r < length (h_pdfs h))%nat -> last_edge (h_bins h) < val64 x -> cdf_point (N := SFNum) x h r = one64.
  Proof. intros Hx Hl H. unfold cdf_point. rewrite cdfs_nth by exact Hl. destruct (nd_above (h_bins h) (nth r (h_pdfs h) []) He (Hr _ (nth_In (h_pdfs h) [] Hl)) x Hx H) as [A B]. rewrite A, B. destruct (Nat.eqb _ _); reflexivity. Qed.
  Lemma ens_in x r : double x -> (r < length (h_pdfs h))%nat -> first_edge (h_bins h) <= val64 x <= last_edge (h_bins h) -> reads (h_bins h) (nth r (h_pdfs h) []) x (cdf_point (N := SFNum) x h r).
  Proof.
    intros Hx Hl H. unfold cdf_point. rewrite cdfs_nth by exact Hl. pose proof (Hr _ (nth_In (h_pdfs h) [] Hl)) as G.
    destruct (Nat.eqb _ _); [apply one_in|apply nd_in]; assumption.
  Qed.
  Lemma ens_fin x r : double x -> (r < length (h_pdfs h))%nat -> fin64 (cdf_point (N := SFNum) x h r) /\ 0 <= val64 (cdf_point (N := SFNum) x h r).
  Proof.
    intros Hx Hl. destruct (Rlt_le_dec (val64 x) (first_edge (h_bins h))) as [A|A]; [rewrite ens_below by assumption; split; [apply fin64_0|cbn; lra]|].
    destruct (Rlt_le_dec (last_edge (h_bins h)) (val64 x)) as [B|B]; [rewrite ens_above by assumption; split; [split; reflexivity|rewrite val_one; lra]|].
    pose proof (ens_in x r Hx Hl (conj A B)) as R. split; [apply R|]. apply (reads_pos (h_bins h) (nth r (h_pdfs h) []) x _ He (Hr _ (nth_In (h_pdfs h) [] Hl)) R).
  Qed.
End Ensemble.

(** For stored rows of area at most 2. *)
Lemma c136_value : forall h x, good_edges (h_bins h) -> (0 < length (h_pdfs h))%nat -> (forall row, In row (h_pdfs h) -> good_row (h_bins h) row) -> double x ->
  exists v, answers (hist_ens_cdf (N := SFNum) h (PScalar x)) (length (h_pdfs h)) v /\
    forall r, (r < length (h_pdfs h))%nat ->
      fin64 (v r) /\ 0 <= val64 (v r) /\
      (val64 x < first_edge (h_bins h) -> v r = zero64) /\
      (last_edge (h_bins h) < val64 x -> v r = one64) /\
      (first_edge (h_bins h) <= val64 x <= last_edge (h_bins h) ->
         Rabs (val64 (v r) - area_below (h_bins h) (nth r (h_pdfs h) []) (val64 x)) <= INR (length (h_bins h) + 7) / 2 ^ 51).
Proof.
  intros h x He Hne Hr Hx. exists (cdf_point (N := SFNum) x h). split; [apply ens_answers; assumption|]. intros r Hl. destruct (ens_fin h He Hr x r Hx Hl) as [F P].
  split; [exact F|]. split; [exact P|]. split; [apply ens_below; assumption|]. split; [apply ens_above; assumption|]. intros H.
  apply (reads_err (h_bins h) (nth r (h_pdfs h) []) He (Hr _ (nth_In (h_pdfs h) [] Hl)) x Hx). apply ens_in; assumption.
Qed.

Lemma answers_inj a n v v' : answers a n v -> answers a n v' -> forall r, (r < n)%nat -> v r = v' r.
Proof.
  unfold answers. intros -> E r Hr. injection E as E. apply (f_equal (fun l => nth r l [])) in E.
  rewrite !nth_map_in with (d' := 0%nat) in E by (rewrite seq_length; exact Hr). rewrite seq_nth in E by exact Hr. simpl in E. congruence.
Qed.
(** Inside one bin the values never decrease. *)
Lemma c136_in_bin : forall h x x' v v' i r, good_edges (h_bins h) -> (0 < length (h_pdfs h))%nat -> (forall row, In row (h_pdfs h) -> good_row (h_bins h) row) -> double x -> double x' ->
  answers (hist_ens_cdf (N := SFNum) h (PScalar x)) (length (h_pdfs h)) v -> answers (hist_ens_cdf (N := SFNum) h (PScalar x')) (length (h_pdfs h)) v' ->
  (S i < length (h_bins h))%nat -> val64 (nth i (h_bins h) zero64) < val64 x -> val64 x <= val64 x' -> val64 x' < val64 (nth (S i) (h_bins h) zero64) -> (r < length (h_pdfs h))%nat ->
  val64 (v r) <= val64 (v' r).
Proof.
  intros h x x' v v' i r He Hne Hr Hx Hx' A A' Hi H1 H2 H3 Hl. rewrite (answers_inj _ _ _ _ A (ens_answers h Hne x Hx) r Hl), (answers_inj _ _ _ _ A' (ens_answers h Hne x' Hx') r Hl).
  set (row := nth r (h_pdfs h) []). pose proof (Hr _ (nth_In (h_pdfs h) [] Hl)) as G. fold row in G. pose proof (len_e (h_bins h) He) as Le. set (n := pred (length (h_bins h))) in *.
  assert (I0 : first_edge (h_bins h) <= val64 (nth i (h_bins h) zero64)) by (apply (e_inc (h_bins h) He 0 i); fold n; lia).
  assert (I1 : val64 (nth (S i) (h_bins h) zero64) <= last_edge (h_bins h)) by (apply (e_inc (h_bins h) He (S i) n); fold n; lia).
  rewrite (reads_seg (h_bins h) row He x _ i (ens_in h He Hr x r Hx Hl ltac:(lra)) ltac:(fold n; lia) ltac:(lra)).
  rewrite (reads_seg (h_bins h) row He x' _ i (ens_in h He Hr x' r Hx' Hl ltac:(lra)) ltac:(fold n; lia) ltac:(lra)).
  pose proof (y_inc (h_bins h) row He G i ltac:(fold n; lia)) as Y. apply seg_mono; try apply sums_dbl; [apply (dW (h_bins h) He i ltac:(fold n; lia))|exact Y|exact (y_high (h_bins h) row He G (S i) ltac:(fold n; lia))|exact H2].
Qed.

Lemma area_below_mono edges row x x' : good_edges edges -> (forall i, 0 <= val64 (nth i row zero64)) -> x <= x' -> area_below edges row x <= area_below edges row x'.
Proof. intros He Hp H. apply rsum_le'. intros i Hi. apply Rmult_le_compat_l; [apply Hp|]. apply Rle_max_compat_l. apply Rplus_le_compat_r. apply Rle_min_compat_r. exact H. Qed.
Lemma share_bounds0 edges row : good_edges edges -> 0 < area edges row -> (forall i, (i < pred (length edges))%nat -> 0 <= val64 (nth i row zero64)) -> length row = pred (length edges) ->
  (forall x x', x <= x' -> share edges row x <= share edges row x') /\ (forall x, 0 <= share edges row x <= 1).
Proof.
  intros He Ap F L. assert (Ip : 0 < / area edges row) by (apply Rinv_0_lt_compat, Ap).
  assert (Hp : forall i, 0 <= val64 (nth i row zero64)). { intros i. destruct (Nat.lt_ge_cases i (length row)) as [H|H]; [apply F; lia|rewrite nth_overflow by exact H; cbn; lra]. }
  split; [intros x x' H; apply Rmult_le_compat_r; [lra|]; apply area_below_mono; assumption|]. intros x. assert (E : forall i, (i < pred (length edges))%nat -> val64 (nth i edges zero64) <= val64 (nth (S i) edges zero64)).
  { intros i Hi. destruct He as (_ & _ & _ & D). pose proof (D i ltac:(lia)). pose proof inv1000. lra. }
  split; [apply Rmult_le_pos; [|lra]; unfold area_below; rewrite <- tot_seq; apply tot_pos; intros; apply Rmult_le_pos; [apply Hp|apply Rmax_l]|].
  apply Rmult_le_reg_r with (area edges row); [exact Ap|]. unfold share. unfold Rdiv. rewrite Rmult_assoc, Rinv_l by lra. rewrite Rmult_1_r, Rmult_1_l. apply rsum_le'. intros i Hi. apply Rmult_le_compat_l; [apply Hp|]. specialize (E i Hi).
  apply Rmax_lub; [lra|]. pose proof (Rmin_r x (val64 (nth (S i) edges zero64))). lra.
Qed.
Lemma share_bounds edges row : good_edges edges -> normalisable edges row -> (forall x x', x <= x' -> share edges row x <= share edges row x') /\ (forall x, 0 <= share edges row x <= 1).
Proof.
  intros He (L & F & M). apply share_bounds0; try assumption; [eapply Rlt_le_trans; [|exact M]; apply Rinv_0_lt_compat, pow_lt; lra|]. intros i Hi. apply F, nth_In. lia.
Qed.

(** ** Histograms that were normalised on creation *)
Section Created.
  Variables (edges : list spec_float) (rows : list (list spec_float)) (chk : bool) (h : hist spec_float).
  Hypothesis He : good_edges edges.
  Hypothesis Hne : rows <> [].
  Hypothesis Hr : forall row, In row rows -> normalisable edges row.
  Hypothesis Hh : hist_ctor (N := SFNum) edges (nd2 (pred (length edges)) rows) chk = Ok h.
  Lemma edges_up i : (S i < length edges)%nat -> val64 (nth i edges zero64) <= val64 (nth (S i) edges zero64).
  Proof. intros H. destruct He as (_ & _ & _ & D). pose proof (D i H). pose proof inv1000. lra. Qed.
  Lemma made_of : h_bins h = edges /\ h_pdfs h = map (fun row => hist_norm_row (N := SFNum) (bin_widths (N := SFNum) edges) (given64 edges chk row)) rows.
  Proof. rewrite hist_build_64 in Hh by (intros row H; apply (Hr row H)). injection Hh as <-. split; reflexivity. Qed.
  Lemma made_good row : In row (h_pdfs h) -> good_row (h_bins h) row.
  Proof.
    destruct made_of as [-> ->]. intros H. apply in_map_iff in H. destruct H as (g & <- & Hg). destruct He as (H2 & H40 & Hm & _).
    destruct (norm64 edges g chk H2 H40 Hm edges_up (Hr g Hg)) as (L & F & A). pose proof (proj1 (Hr g Hg)) as Lg.
    split; [rewrite L; exact Lg|]. split; [exact F|]. apply Rabs_le_inv in A. assert (INR (length g) <= 2 ^ 40) by (eapply Rle_trans; [apply le_INR; rewrite Lg; apply Nat.le_pred_l|exact H40]). simpl (2 ^ 40) in *. simpl (2 ^ 51) in *. lra.
  Qed.
  Let n := pred (length edges).
  Lemma e_is : INR (length edges + 3) = INR n + 4.
  Proof. destruct He as (H2 & _). replace (length edges + 3)%nat with (n + 4)%nat by (unfold n; lia). rewrite plus_INR. simpl. lra. Qed.
  Lemma one_round g x : parts64 edges g ->
    Rabs (area_below edges (hist_norm_row (N := SFNum) (bin_widths (N := SFNum) edges) g) x - share edges g x) <= INR (length edges + 3) / 2 ^ 51.
  Proof.
    intros (s & Hn1 & HnR & Hp & HW & Hw & Htot & Hmass & Hs & L & Q). rewrite e_is.
    set (V := fun i => Rmax 0 (Rmin x (val64 (nth (S i) edges zero64)) - val64 (nth i edges zero64))).
    assert (HV : forall i, (i < n)%nat -> 0 <= V i <= val64 (nth (S i) edges zero64) - val64 (nth i edges zero64)).
    { intros i Hi. pose proof (edges_up i ltac:(unfold n in Hi; lia)). unfold V. split; [apply Rmax_l|]. apply Rmax_lub; [lra|]. pose proof (Rmin_r x (val64 (nth (S i) edges zero64))). lra. }
    unfold area_below, share. fold n. rewrite (rsum_ext' n _ (fun i => rd (val64 (nth i g zero64) / s) * V i)) by (intros i Hi; f_equal; apply Q, Hi).
    apply (row_part n _ _ _ s Hn1 HnR Hp HW Hw Htot Hmass Hs V HV).
  Qed.
  Lemma given_near g x : normalisable edges g -> Rabs (share edges (given64 edges chk g) x - share edges g x) <= 2 * (INR (length edges + 3) / 2 ^ 51).
  Proof.
    intros G. assert (E0 : 0 <= INR (length edges + 3) / 2 ^ 51) by (apply Rmult_le_pos; [apply pos_INR|apply Rlt_le, Rinv_0_lt_compat, pow_lt; lra]). unfold given64. destruct chk; [|replace (_ - _) with 0 by ring; rewrite Rabs_R0; lra].
    destruct He as (H2 & H40 & Hm & _). destruct (norm64_parts_first edges g H2 H40 Hm edges_up G) as [P _]. pose proof (one_round g x P) as D.
    destruct (parts_normal edges g P (proj1 G)) as (L & F & A). rewrite (proj1 G) in A. fold n in A. rewrite <- e_is in A. destruct (first_again edges g H2 H40 Hm edges_up G) as (L' & R & A1 & A2).
    set (g1 := hist_norm_row (N := SFNum) (bin_widths (N := SFNum) edges) g) in *. set (e := INR (length edges + 3) / 2 ^ 51) in *.
    destruct (share_bounds0 edges g1 He ltac:(lra) (fun i Hi => proj1 (proj2 (R i Hi))) L') as [_ B]. specialize (B x).
    replace (share edges g1 x - share edges g x) with (share edges g1 x * (1 - area edges g1) + (area_below edges g1 x - share edges g x)) by (unfold share at 1; field_simplify; [unfold share; field; pose proof (proj2 (proj2 G)) as M; pose proof (pow_lt 2 500 ltac:(lra)) as PP; apply Rinv_0_lt_compat in PP; lra|lra..]).
    eapply Rle_trans; [apply Rabs_triang|]. rewrite Rabs_mult, (Rabs_pos_eq (share edges g1 x)) by lra. rewrite Rabs_minus_sym in A. pose proof (Rabs_pos (1 - area edges g1)).
    assert (share edges g1 x * Rabs (1 - area edges g1) <= 1 * Rabs (1 - area edges g1)) by (apply Rmult_le_compat_r; lra). lra.
  Qed.
  Lemma share_near r x : (r < length rows)%nat -> Rabs (area_below edges (nth r (h_pdfs h) []) x - share edges (nth r rows []) x) <= INR (3 * length edges + 9) / 2 ^ 51.
  Proof.
    intros Hl. destruct made_of as [_ ->]. rewrite nth_map_in with (d' := []) by exact Hl. set (g := nth r rows []). pose proof (Hr g (nth_In rows [] Hl)) as G.
    destruct He as (H2 & H40 & Hm & _). pose proof (one_round _ x (norm64_given edges g chk H2 H40 Hm edges_up G)) as A. pose proof (given_near g x G) as B.
    replace (INR (3 * length edges + 9)) with (3 * INR (length edges + 3)) by (replace (3 * length edges + 9)%nat with (3 * (length edges + 3))%nat by lia; rewrite mult_INR; simpl; lra).
    apply Rabs_le_inv in A, B. apply Rabs_le. lra.
  Qed.
  Lemma made_len : length (h_pdfs h) = length rows. Proof. destruct made_of as [_ ->]. apply map_length. Qed.
  Lemma made_ne : (0 < length (h_pdfs h))%nat. Proof. rewrite made_len. destruct rows; [congruence|simpl; lia]. Qed.
End Created.

Lemma c136_created : forall edges rows chk h x, good_edges edges -> rows <> [] -> (forall row, In row rows -> normalisable edges row) ->
  hist_ctor (N := SFNum) edges (nd2 (pred (length edges)) rows) chk = Ok h -> double x ->
  exists v, answers (hist_ens_cdf (N := SFNum) h (PScalar x)) (length rows) v /\
    forall r, (r < length rows)%nat ->
      fin64 (v r) /\ 0 <= val64 (v r) /\
      (val64 x < first_edge edges -> v r = zero64) /\
      (last_edge edges < val64 x -> v r = one64) /\
      (first_edge edges <= val64 x <= last_edge edges -> Rabs (val64 (v r) - share edges (nth r rows []) (val64 x)) <= INR (4 * length edges + 16) / 2 ^ 51).
Proof.
  intros edges rows chk h x He Hne Hr Hh Hx. destruct (made_of edges rows chk h Hr Hh) as [Eb _]. pose proof (made_len edges rows chk h Hr Hh) as El.
  assert (He' : good_edges (h_bins h)) by (rewrite Eb; exact He).
  destruct (c136_value h x He' (made_ne edges rows chk h Hne Hr Hh) (made_good edges rows chk h He Hr Hh) Hx) as (v & A & B). rewrite El, Eb in *. exists v. split; [exact A|].
  intros r Hl. destruct (B r Hl) as (F & P & Lo & Up & In_). repeat (split; [assumption|]). intros H. specialize (In_ H). pose proof (share_near edges rows chk h He Hr Hh r (val64 x) Hl) as S.
  replace (val64 (v r) - share edges (nth r rows []) (val64 x)) with ((val64 (v r) - area_below edges (nth r (h_pdfs h) []) (val64 x)) + (area_below edges (nth r (h_pdfs h) []) (val64 x) - share edges (nth r rows []) (val64 x))) by ring.
  eapply Rle_trans; [apply Rabs_triang|]. replace (INR (4 * length edges + 16)) with (INR (length edges + 7) + INR (3 * length edges + 9)) by (rewrite <- plus_INR; f_equal; lia). lra.
Qed.

Lemma share_outside edges row : good_edges edges -> normalisable edges row -> (forall x, x < first_edge edges -> share edges row x = 0) /\ (forall x, last_edge edges < x -> share edges row x = 1).
Proof.
  intros He (L & F & M). assert (Ap : 0 < area edges row) by (eapply Rlt_le_trans; [|exact M]; apply Rinv_0_lt_compat, pow_lt; lra).
  pose proof (len_e edges He) as Le. set (n := pred (length edges)) in *. split; intros x H.
  - unfold share. replace (area_below edges row x) with 0; [unfold Rdiv; ring|]. unfold area_below. fold n. symmetry. rewrite (rsum_ext' n _ (fun _ => 0)); [generalize n; intros m; clear; induction m; simpl; lra|].
    intros i Hi. pose proof (e_inc edges He 0 i ltac:(fold n; lia)) as G. pose proof (e_inc edges He 0 (S i) ltac:(fold n; lia)) as G'. unfold first_edge in H. cbv beta in G, G'. rewrite Rmin_left, Rmax_left by lra. ring.
  - unfold share. replace (area_below edges row x) with (area edges row); [field; lra|]. unfold area_below, area. fold n. apply rsum_ext'. intros i Hi.
    pose proof (e_inc edges He (S i) n ltac:(fold n; lia)) as G. pose proof (e_inc edges He i (S i) ltac:(fold n; lia)) as G'. unfold last_edge in H. fold n in H. cbv beta in G, G'. rewrite Rmin_right, Rmax_right by lra. reflexivity.
Qed.
(** From left to right the values of a normalised histogram decrease by no more than the rounding, and exceed 1 by no more. *)
Lemma c136_order : forall edges rows chk h x x' v v' r, good_edges edges -> rows <> [] -> (forall row, In row rows -> normalisable edges row) ->
  hist_ctor (N := SFNum) edges (nd2 (pred (length edges)) rows) chk = Ok h -> double x -> double x' ->
  answers (hist_ens_cdf (N := SFNum) h (PScalar x)) (length rows) v -> answers (hist_ens_cdf (N := SFNum) h (PScalar x')) (length rows) v' -> (r < length rows)%nat -> val64 x <= val64 x' ->
  val64 (v r) <= val64 (v' r) + INR (4 * length edges + 16) / 2 ^ 50 /\ 0 <= val64 (v r) <= 1 + INR (4 * length edges + 16) / 2 ^ 51.
Proof.
  intros edges rows chk h x x' v v' r He Hne Hr Hh Hx Hx' A A' Hl Hle. pose proof (Hr _ (nth_In rows [] Hl)) as G.
  destruct (share_bounds edges _ He G) as [Sm Sb]. destruct (share_outside edges _ He G) as [S0 S1]. set (g := nth r rows []) in *.
  assert (K : forall z u, double z -> answers (hist_ens_cdf (N := SFNum) h (PScalar z)) (length rows) u -> Rabs (val64 (u r) - share edges g (val64 z)) <= INR (4 * length edges + 16) / 2 ^ 51 /\ 0 <= val64 (u r)).
  { intros z u Hz Au. destruct (c136_created edges rows chk h z He Hne Hr Hh Hz) as (u' & Au' & B). rewrite (answers_inj _ _ _ _ Au Au' r Hl). destruct (B r Hl) as (_ & P & Lo & Up & In_). split; [|exact P].
    assert (0 <= INR (4 * length edges + 16) / 2 ^ 51) by (apply Rmult_le_pos; [apply pos_INR|apply Rlt_le, Rinv_0_lt_compat, pow_lt; lra]).
    destruct (Rlt_le_dec (val64 z) (first_edge edges)) as [C|C]; [rewrite (Lo C), (S0 _ C); change (val64 zero64) with 0; replace (0 - 0) with 0 by ring; rewrite Rabs_R0; assumption|].
    destruct (Rlt_le_dec (last_edge edges) (val64 z)) as [D|D]; [rewrite (Up D), (S1 _ D), val_one; replace (1 - 1) with 0 by ring; rewrite Rabs_R0; assumption|]. apply In_. split; assumption. }
  destruct (K x v Hx A) as [E P]. destruct (K x' v' Hx' A') as [E' P']. specialize (Sm _ _ Hle). pose proof (Sb (val64 x)) as Bx. apply Rabs_le_inv in E, E'.
  replace (INR (4 * length edges + 16) / 2 ^ 50) with (2 * (INR (4 * length edges + 16) / 2 ^ 51)) by (simpl; lra). lra.
Qed.

(** The values can exceed 1 and can decrease: edges 0, 1, 4, 5 and values 3, 4, 3 give cdf(5) = 1 + 2^-52 and cdf(6) = 1. *)
Definition w_edges : list spec_float := map (fun z => SpecFloat.binary_normalize 53 1024 z 0 false) [0; 1; 4; 5]%Z.
Definition w_row : list spec_float := map (fun z => SpecFloat.binary_normalize 53 1024 z 0 false) [3; 4; 3]%Z.
Lemma c136_above_one : exists h x x' v v', hist_ctor (N := SFNum) w_edges (nd2 3 [w_row]) true = Ok h /\
  answers (hist_ens_cdf (N := SFNum) h (PScalar x)) 1 v /\ answers (hist_ens_cdf (N := SFNum) h (PScalar x')) 1 v' /\ val64 x < val64 x' /\ 1 < val64 (v 0%nat) /\ val64 (v' 0%nat) < val64 (v 0%nat).
Proof.
  eexists. exists (SpecFloat.binary_normalize 53 1024 5 0 false), (SpecFloat.binary_normalize 53 1024 6 0 false), (fun _ => f64 4503599627370497 (-52)), (fun _ => one64).
  split; [vm_compute; reflexivity|]. split; [vm_compute; reflexivity|]. split; [vm_compute; reflexivity|].
  rewrite val_one. split; [|split].
  - replace (SpecFloat.binary_normalize 53 1024 5 0 false) with (f64 5629499534213120 (-50)) by (vm_compute; reflexivity). replace (SpecFloat.binary_normalize 53 1024 6 0 false) with (f64 6755399441055744 (-50)) by (vm_compute; reflexivity). rewrite !val_f64. simpl bpow. lra.
  - rewrite val_f64. simpl bpow. lra.
  - rewrite val_f64. simpl bpow. lra.
Qed.
Lemma w_edges_are : w_edges = [S754_zero false; f64 4503599627370496 (-52); f64 4503599627370496 (-50); f64 5629499534213120 (-50)]. Proof. vm_compute. reflexivity. Qed.
Lemma w_row_is : w_row = [f64 6755399441055744 (-51); f64 4503599627370496 (-50); f64 6755399441055744 (-51)]. Proof. vm_compute. reflexivity. Qed.
Lemma modest_f64_8 m e : bounded 53 1024 m e = true -> IZR (Z.pos m) * bpow radix2 e <= 8 -> modest (f64 m e) /\ 0 <= val64 (f64 m e).
Proof.
  intros B H. assert (P : forall k, (3 <= k)%nat -> 8 <= 2 ^ k) by (intros k Hk; replace k with (3 + (k - 3))%nat by lia; rewrite pow_add; pose proof (pow_R1_Rle 2 (k - 3) ltac:(lra)); simpl (2 ^ 3); lra).
  pose proof (P 1000%nat ltac:(lia)). pose proof (P 400%nat ltac:(lia)).
  assert (G : 0 <= val64 (f64 m e)) by (rewrite val_f64; apply Rmult_le_pos; [apply IZR_le; lia|apply bpow_ge_0]).
  split; [|exact G]. split; [split; [exact B|]|]; rewrite Rabs_pos_eq by exact G; rewrite val_f64; lra.
Qed.
Lemma modest_0 : modest (S754_zero false) /\ 0 <= val64 (S754_zero false).
Proof. assert (forall k, 0 <= 2 ^ k) by (intros; apply pow_le; lra). split; [|cbn; lra]. split; [split; [exact I|]|]; change (val64 (S754_zero false)) with 0; rewrite Rabs_R0; auto. Qed.
Lemma half_le k : (1 <= k)%nat -> / 2 ^ k <= / 2.
Proof. intros H. apply Rinv_le_contravar; [lra|]. replace k with (1 + (k - 1))%nat by lia. rewrite pow_add. pose proof (pow_R1_Rle 2 (k - 1) ltac:(lra)). simpl (2 ^ 1). lra. Qed.
Example c136_example : good_edges w_edges /\ normalisable w_edges w_row /\ first_edge w_edges = 0 /\ last_edge w_edges = 5 /\ share w_edges w_row 3 = 11 / 18.
Proof.
  rewrite w_edges_are, w_row_is. assert (V : forall f : spec_float -> Prop, f zero64 = f (S754_zero false)) by reflexivity.
  split; [|split].
  - split; [simpl; lia|]. split; [simpl; lra|]. split.
    + intros b H. cbn [In] in H. destruct H as [<-|[<-|[<-|[<-|[]]]]]; try (apply modest_0); apply modest_f64_8; try reflexivity; simpl bpow; lra.
    + intros i Hi. pose proof (half_le 1000 ltac:(lia)). cbn [length] in Hi. destruct i as [|[|[|i]]]; [| | |lia]; cbn [nth]; rewrite ?val_f64; change (val64 (S754_zero false)) with 0; simpl bpow; lra.
  - split; [reflexivity|]. split.
    + intros x H. cbn [In] in H. destruct H as [<-|[<-|[<-|[]]]]; apply modest_f64_8; try reflexivity; simpl bpow; lra.
    + pose proof (half_le 500 ltac:(lia)). unfold area, zero64. cbn [length pred rsum nth]. rewrite !val_f64. change (val64 (S754_zero false)) with 0. simpl bpow. lra.
  - assert (V1 : val64 (f64 4503599627370496 (-52)) = 1) by (rewrite val_f64; simpl bpow; lra).
    assert (V3 : val64 (f64 6755399441055744 (-51)) = 3) by (rewrite val_f64; simpl bpow; lra). assert (V4 : val64 (f64 4503599627370496 (-50)) = 4) by (rewrite val_f64; simpl bpow; lra).
    assert (V5 : val64 (f64 5629499534213120 (-50)) = 5) by (rewrite val_f64; simpl bpow; lra).
    unfold first_edge, last_edge, share, area_below, area, zero64. cbn [length pred rsum nth]. rewrite V1, V3, V4, V5. change (val64 (S754_zero false)) with 0. split; [reflexivity|]. split; [reflexivity|].
    rewrite (Rmin_right 3 1), (Rmin_left 3 4), (Rmin_left 3 5), (Rmax_right 0 (1 - 0)), (Rmax_right 0 (3 - 1)), (Rmax_left 0 (3 - 4)) by lra. lra.
Qed.
