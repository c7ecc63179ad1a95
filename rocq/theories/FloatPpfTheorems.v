(** Quantiles of histograms in double precision. *)
From Coq Require Import List Arith ZArith Bool Sorted Permutation Lia Reals Lra Psatz Floats.SpecFloat.
From Flocq Require Import Core.Zaux Core.Raux.
From Verif Require Import Num NumProofs Py NdArray NumpyLib Utils ScipyWrap SortProofs EvalProofs HistPdf Spec InterpProofs BinProofs Float FloatProofs FloatHist FloatMachine FloatTheorems FloatExamples FloatNorm FloatCdf FloatCdfTheorems FloatPpf.
Import ListNotations.
Local Open Scope R_scope.

(** ** Specification *)
(** Every bin is empty or holds an area of at least 2^-550. *)
Definition no_slivers (edges row : list spec_float) : Prop :=
  forall i, (i < pred (length edges))%nat ->
    val64 (nth i row zero64) = 0 \/ / 2 ^ 550 <= val64 (nth i row zero64) * (val64 (nth (S i) edges zero64) - val64 (nth i edges zero64)).
(** The largest magnitude among the edges. *)
Definition reach (edges : list spec_float) : R := Rmax (Rabs (first_edge edges)) (Rabs (last_edge edges)).

(** ** Evaluation at one point, for any kind of numbers *)
Section AnyNumbers.
  Context {T : Type} {N : Num T}.
  Variable q : T.
  Hypothesis Hq : nleb q q = true.
  Hypothesis Hin : (nltb n0 q && nltb q n1)%bool = true.
  Definition ppf_point (h : hist T) (r : nat) : T := interp1d (nth r (h_cdfs h) []) (h_bins h) (nhead (h_bins h)) (nlast (h_bins h)) q.
  Lemma place_in (cond : T -> bool) (other : T -> xnum T) pts vals : length pts = length vals -> forallb cond pts = true -> place cond other pts vals = map Fin vals.
  Proof.
    revert vals. induction pts as [|p pts IH]; intros [|v vals] L C; try discriminate; [reflexivity|]. simpl in C. apply andb_true_iff in C. destruct C as [C1 C2]. cbn [place map]. rewrite C1. f_equal. apply IH; [simpl in L; lia|exact C2].
  Qed.
  Lemma hist_ppf_scalar (h : hist T) : (0 < h_npdf h)%nat ->
    hist_ens_ppf h (PScalar q) = Ok (map (fun r => [Fin (ppf_point h r)]) (seq 0 (h_npdf h))).
  Proof.
    intros Hk. unfold hist_ens_ppf, rv_ppf, rv_eval. cbn [broadcast_points bind]. rewrite concat_single.
    replace (flat_rows (repeat [q] (h_npdf h)) (seq 0 (h_npdf h))) with (seq 0 (h_npdf h)) by (rewrite <- (seq_length (h_npdf h) 0) at 2; symmetry; apply flat_rows_one).
    set (n := h_npdf h) in *. set (g := ppf_point h).
    set (cond := fun p : T => (nltb n0 p && nltb p n1)%bool).
    assert (C : forallb cond (repeat q n) = true) by (apply forallb_forall; intros z Hz; apply repeat_spec in Hz; subst z; exact Hin). rewrite C, repeat_length.
    destruct (Nat.eqb_spec n 0); [lia|].
    assert (E : hist_ppf h (nd1 (repeat q n)) (nd1 (seq 0 n)) = Ok (map g (seq 0 n))).
    { unfold hist_ppf, interpolate_multi_x_y, dispatch, get_eval_case. change (np_ndim (nd1 (repeat q n))) with 1%nat. change (np_ndim (nd1 (seq 0 n))) with 1%nat. cbn [Nat.leb andb negb Nat.eqb].
      rewrite !size_nd1, repeat_length, seq_length. change (dat (nd1 (repeat q n))) with (repeat q n). change (dat (nd1 (seq 0 n))) with (seq 0 n). unfold g, ppf_point. destruct (Nat.eqb_spec n 1) as [E1|E1].
      - rewrite E1. reflexivity.
      - cbn [orb]. assert (V : np_unique (repeat q n) = [q]) by (replace n with (S (pred n)) by lia; apply unique_repeat, Hq). rewrite V.
        assert (U : np_unique_nat (seq 0 n) = seq 0 n) by apply np_unique_nat_sorted_id, seq_sorted. rewrite U. rewrite ?seq_length. cbn [length].
        destruct (Nat.eqb_spec 1 n); [lia|]. rewrite Nat.eqb_refl. rewrite ?size_nd1, ?seq_length. cbn [length]. rewrite ?seq_length, ?Nat.mul_1_l, Nat.eqb_refl. cbn [negb bind].
        f_equal.
        }
    rewrite E. cbn [bind]. f_equal.
    assert (W : match repeat [q] n with [] => 0%nat | l :: _ => length l end = 1%nat) by (destruct n; [lia|reflexivity]). rewrite W.
    rewrite repeat_length. rewrite place_in; [|rewrite map_length, seq_length, repeat_length; reflexivity|exact C]. rewrite map_map.
    assert (Ch : forall m k, chunks m 1 (map (fun x => Fin (g x)) (seq k m)) = map (fun r => [Fin (g r)]) (seq k m)) by (induction m as [|m IH]; intros k; [reflexivity|]; cbn [seq map chunks firstn skipn]; f_equal; apply IH).
    apply Ch.
  Qed.
End AnyNumbers.

Section PRow.
  Variables edges row : list spec_float.
  Hypothesis He : good_edges edges.
  Hypothesis Hr : good_row edges row.
  Hypothesis Hh : no_slivers edges row.
  Let n := pred (length edges).
  Let e i := val64 (nth i edges zero64).
  Let p i := val64 (nth i row zero64).
  Let W i := e (S i) - e i.
  Let w i := rd (W i).
  Let a i := rd (p i * w i).
  Let y k := sums a k.
  Let tab := hist_cdf_row (N := SFNum) (bin_widths (N := SFNum) edges) row.
  Let M := reach edges.

  Lemma pn_pos : (1 <= n)%nat. Proof. exact (n_pos edges He). Qed.
  Lemma p_len : length edges = S n. Proof. exact (len_e edges He). Qed.
  Lemma pe_inc i j : (i <= j <= n)%nat -> e i <= e j. Proof. exact (e_inc edges He i j). Qed.
  Lemma pW_nn i : (i < n)%nat -> 0 <= W i. Proof. exact (W_nn edges He i). Qed.
  Lemma p_nn i : (i < n)%nat -> 0 <= p i. Proof. intros H. exact (proj2 (p_fin edges row Hr i H)). Qed.
  Lemma ptab64 k : (k <= n)%nat -> fin64 (nth k tab zero64) /\ val64 (nth k tab zero64) = y k. Proof. exact (tab64 edges row He Hr k). Qed.
  Lemma ptab_len : length tab = S n. Proof. exact (tab_len edges row Hr). Qed.
  Lemma py_inc k : (k < n)%nat -> 0 <= y k <= y (S k). Proof. exact (y_inc edges row He Hr k). Qed.
  Lemma py_high k : (k <= n)%nat -> y k <= 3. Proof. exact (y_high edges row He Hr k). Qed.
  Lemma py_up i j : (i <= j <= n)%nat -> y i <= y j.
  Proof. intros [H1 H2]. induction H1; [lra|]. specialize (IHle ltac:(lia)). pose proof (py_inc m ltac:(lia)). lra. Qed.
  Lemma pd_W k : (k < n)%nat -> / 2 ^ 1000 <= e (S k) - e k <= 2 ^ 401. Proof. exact (dW edges He k). Qed.
  Lemma py_dbl k : dbl (y k). Proof. apply sums_dbl. Qed.
  Lemma pe_dbl k : (k <= n)%nat -> dbl (e k). Proof. exact (e_dbl edges He k). Qed.
  Lemma ptab_near k : (k <= n)%nat -> Rabs (y k - rsum k (fun i => p i * W i)) <= (INR n + 2) / 2 ^ 51 + / 2 ^ 600. Proof. exact (tab_near edges row He Hr k). Qed.

  Lemma b551 : bpow radix2 (-551) = / 2 ^ 550 / 2.
  Proof. change (-551)%Z with (- Z.of_nat 550 + -1)%Z. rewrite bpow_plus, bpow_opp, <- pow_bpow. simpl (bpow radix2 (-1)). unfold Rdiv. f_equal. Qed.
  Lemma a_heavy i : (i < n)%nat -> a i = 0 \/ bpow radix2 (-551) <= a i.
  Proof.
    intros Hi. destruct (Hh i Hi) as [Z|H]; [left; unfold a, p; rewrite Z, Rmult_0_l; apply rd_0|right]. unfold a. rewrite <- (rd_id (bpow radix2 (-551))) by (apply dbl_bpow; lia). apply rd_mono. rewrite b551.
    pose proof (w_near' edges He i Hi) as E. change (Rabs (w i - W i) <= u53 * W i) in E. rewrite u53v in E. apply Rabs_le_inv in E. pose proof (pW_nn i Hi). pose proof (p_nn i Hi). change (/ 2 ^ 550 <= p i * W i) in H.
    assert (W i / 2 <= w i) by (simpl (2 ^ 53) in E; lra). apply Rle_trans with (p i * (W i / 2)); [|apply Rmult_le_compat_l; lra]. replace (p i * (W i / 2)) with (p i * W i / 2) by field. lra.
  Qed.
  Lemma y_heavy k : (k <= n)%nat -> y k = 0 \/ bpow radix2 (-551) <= y k.
  Proof.
    induction k as [|k IH]; intros Hk; [left; reflexivity|]. destruct (IH ltac:(lia)) as [Z|H].
    - destruct (a_heavy k ltac:(lia)) as [A|A].
      + left. change (rd (y k + a k) = 0). rewrite Z, A, Rplus_0_l. apply rd_0.
      + right. change (bpow radix2 (-551) <= rd (y k + a k)). rewrite Z, Rplus_0_l, rd_id by apply rd_dbl. exact A.
    - right. pose proof (py_inc k ltac:(lia)). lra.
  Qed.
  Lemma p610 : / 2 ^ 610 = bpow radix2 (-610). Proof. rewrite pow_bpow, <- bpow_opp. reflexivity. Qed.
  Lemma y_gap k : (k < n)%nat -> y k < y (S k) -> / 2 ^ 610 <= y (S k) - y k <= 3.
  Proof.
    intros Hk L. pose proof (py_inc k Hk) as I. pose proof (py_high (S k) ltac:(lia)). split; [|lra]. rewrite p610. destruct (y_heavy k ltac:(lia)) as [Z|H1].
    - destruct (y_heavy (S k) ltac:(lia)) as [Z'|H2]; [lra|]. rewrite Z, Rminus_0_r. eapply Rle_trans; [|exact H2]. apply bpow_le. lia.
    - eapply Rle_trans; [|apply (dbl_apart (-551) (y k) (y (S k)) (py_dbl k) (py_dbl (S k)) ltac:(lia) H1 L)]. apply bpow_le. lia.
  Qed.
  Lemma e_reach k : (k <= n)%nat -> Rabs (e k) <= M.
  Proof.
    intros Hk. pose proof (pe_inc 0 k ltac:(lia)) as A. pose proof (pe_inc k n ltac:(lia)) as B. unfold M, reach. change (first_edge edges) with (e 0%nat). change (last_edge edges) with (e n).
    pose proof (Rmax_l (Rabs (e 0%nat)) (Rabs (e n))) as L. pose proof (Rmax_r (Rabs (e 0%nat)) (Rabs (e n))) as R. pose proof (Rle_abs (e n)). pose proof (Rle_abs (- e 0%nat)) as K; rewrite Rabs_Ropp in K. apply Rabs_le. lra.
  Qed.
  Lemma M_pos : 0 <= M. Proof. eapply Rle_trans; [apply Rabs_pos|apply (e_reach 0); lia]. Qed.

  Variable q : spec_float.
  Hypothesis Fq : fin64 q.
  Let v := val64 q.
  Hypothesis Hq : 0 < v.
  Lemma q_dbl : dbl v. Proof. apply dbl64, Fq. Qed.

  Definition cell_of (z : spec_float) (k : nat) : Prop := (k < n)%nat /\ y k <= v < y (S k) /\ val64 z = seg (y k) (y (S k)) (e k) (e (S k)) v.
  Definition quantile (z : spec_float) : Prop := fin64 z /\ ((exists k, cell_of z k) \/ (y n <= v /\ val64 z = e n)).

  Lemma pseg64 k : (k < n)%nat -> y k <= v < y (S k) ->
    let z := SFadd 53 1024 (SFmul 53 1024 (SFdiv 53 1024 (SFsub 53 1024 (nth (S k) edges zero64) (nth k edges zero64)) (SFsub 53 1024 (nth (S k) tab zero64) (nth k tab zero64)))
                                          (SFsub 53 1024 q (nth k tab zero64))) (nth k edges zero64) in
    fin64 z /\ val64 z = seg (y k) (y (S k)) (e k) (e (S k)) v.
  Proof.
    intros Hk Hx z. destruct (ptab64 k ltac:(lia)) as [F0 V0]. destruct (ptab64 (S k) ltac:(lia)) as [F1 V1]. pose proof (py_inc k Hk) as Yi. pose proof (py_high (S k) ltac:(lia)) as Yh. pose proof (pd_W k Hk) as HW.
    pose proof (y_gap k Hk ltac:(lra)) as G. pose proof (py_dbl k) as Dk. pose proof (py_dbl (S k)) as Dk1.
    pose proof (pe_dbl k ltac:(lia)) as De. pose proof (pe_dbl (S k) ltac:(lia)) as De1.
    pose proof (e_mod edges He k ltac:(change (k <= n)%nat; lia)) as M0. pose proof (e_mod edges He (S k) ltac:(change (S k <= n)%nat; lia)) as M1.
    assert (R4 : forall u, 0 <= u <= 8 -> small (rd u)) by exact (rd4 []).
    destruct (sub64 _ _ F1 F0) as [Fd Vd]; [rewrite V1, V0; apply R4; lra|]. rewrite V1, V0 in Vd.
    destruct (mod_sub 400 _ _ ltac:(lia) M1 M0) as [[Fw _] Vw]. change (val64 (nth (S k) edges zero64)) with (e (S k)) in Vw. change (val64 (nth k edges zero64)) with (e k) in Vw.
    destruct (sub64 _ _ Fq F0) as [Fv Vv]; [rewrite V0; fold v; apply R4; lra|]. rewrite V0 in Vv. fold v in Vv.
    pose proof (pw_pos (y k) (y (S k)) G) as Wp.
    pose proof (pq_pos (y k) (y (S k)) (e k) (e (S k)) G HW) as Qp. pose proof (pq_high (y k) (y (S k)) (e k) (e (S k)) G HW) as Qh.
    destruct (div64 _ _ Fw Fd) as [Fs Vs].
    { rewrite Vd. lra. }
    { rewrite Vd, Vw. apply (small_le 1011); [lia|]. apply rd_le_bpow; [lia|]. rewrite Rabs_pos_eq by exact Qp. exact Qh. }
    rewrite Vd, Vw in Vs.
    pose proof (psv_pos (y k) (y (S k)) (e k) (e (S k)) G HW v ltac:(lra)) as Sp. pose proof (psv_high (y k) (y (S k)) (e k) (e (S k)) Dk Dk1 De De1 G HW v q_dbl ltac:(lra)) as Sh.
    pose proof (pt_pos (y k) (y (S k)) (e k) (e (S k)) G HW v ltac:(lra)) as Tp. pose proof (pt_high (y k) (y (S k)) (e k) (e (S k)) Dk Dk1 De De1 G HW v q_dbl ltac:(lra)) as Th.
    assert (P402 : 2 ^ 402 = bpow radix2 402) by (rewrite pow_bpow; reflexivity).
    destruct (mul64 _ _ Fs Fv) as [Fm Vm]. { rewrite Vs, Vv. apply (small_le 402); [lia|]. rewrite Rabs_pos_eq by exact Tp. rewrite <- P402. exact Th. } rewrite Vs, Vv in Vm.
    destruct (add64 _ _ Fm (proj1 M0)) as [Fz Vz].
    { rewrite Vm. apply (small_le 403); [lia|]. apply rd_le_bpow; [lia|]. destruct M0 as [_ A]. change (Rabs (e k) <= bpow radix2 400) in A. change (val64 (nth k edges zero64)) with (e k).
      eapply Rle_trans; [apply Rabs_triang|]. rewrite (Rabs_pos_eq (rd _)) by exact Tp. change 403%Z with (402 + 1)%Z. rewrite <- bpow_add1, <- P402. rewrite P402 at 2. apply Rplus_le_compat; [exact Th|]. eapply Rle_trans; [exact A|]. apply bpow_le. lia. }
    rewrite Vm in Vz. split; [exact Fz|exact Vz].
  Qed.
  Lemma nth0_tab i : (i <= n)%nat -> nth0 (N := RNum) i (map val64 tab) = y i.
  Proof. intros H. unfold nth0. transitivity (val64 (nth i tab zero64)); [symmetry; apply nth64|apply ptab64, H]. Qed.
  Lemma fins_tab b : In b tab -> fin64 b.
  Proof. intros H. apply In_nth with (d := zero64) in H. destruct H as (i & Hi & <-). rewrite ptab_len in Hi. apply ptab64. lia. Qed.
  Lemma ppf_in : quantile (interp1d (N := SFNum) tab edges (nhead (N := SFNum) edges) (nlast (N := SFNum) edges) q).
  Proof.
    unfold interp1d. assert (Lt : nlast (N := SFNum) tab = nth n tab zero64) by (unfold nlast; rewrite last_nth', ptab_len; reflexivity). assert (Ht : nhead (N := SFNum) tab = nth 0 tab zero64) by reflexivity.
    pose proof pn_pos as Np. destruct (ptab64 0 ltac:(lia)) as [F0 V0]. destruct (ptab64 n ltac:(lia)) as [Fn Vn].
    rewrite Lt, Ht, !ltb64 by assumption. rewrite V0, Vn. fold v. change (y 0%nat) with 0.
    destruct (nltb (N := RNum) v 0) eqn:E; [apply nltb_R_true in E; lra|]. clear E.
    assert (Le : nlast (N := SFNum) edges = nth n edges zero64) by exact (last_e edges). assert (Fe : forall i, (i <= n)%nat -> fin64 (nth i edges zero64)) by (intros i Hi; apply (fin_e edges He i Hi)).
    destruct (nltb (N := RNum) (y n) v) eqn:E.
    { apply nltb_R_true in E. rewrite Le. split; [apply Fe; lia|]. right. split; [lra|reflexivity]. }
    assert (Hv : v <= y n) by (destruct (Rle_lt_dec v (y n)) as [L|L]; [exact L|apply nltb_R_true in L; congruence]). clear E.
    rewrite search_r64 by (try exact Fq; apply fins_tab). fold v. set (j := searchsorted_right (N := RNum) (map val64 tab) v).
    pose proof (ssr_le (map val64 tab) v) as L. rewrite map_length, ptab_len in L. fold j in L. rewrite ptab_len. cbn [pred].
    assert (J1 : (1 <= j)%nat). { destruct j eqn:Ej; [|lia]. pose proof (ssr_at (map val64 tab) v) as B. fold j in B. rewrite map_length, ptab_len, Ej in B. specialize (B ltac:(lia)). rewrite nth0_tab in B by lia. change (y 0%nat) with 0 in B. lra. }
    pose proof (ssr_below (map val64 tab) v (pred j) ltac:(fold j; lia)) as B. rewrite nth0_tab in B by lia.
    destruct (Nat.eqb_spec (pred j) n) as [En|En].
    - rewrite En in *. change (nth0 (N := SFNum) n edges) with (nth n edges zero64). split; [apply Fe; lia|]. right. split; [exact B|reflexivity].
    - set (k := pred j) in *. assert (Ej : j = S k) by (unfold k; lia). assert (Hk : (k < n)%nat) by lia.
      pose proof (ssr_at (map val64 tab) v) as C. fold j in C. rewrite map_length, ptab_len in C. specialize (C ltac:(lia)). rewrite Ej, nth0_tab in C by lia.
      change (nth0 (N := SFNum) k edges) with (nth k edges zero64). change (nth0 (N := SFNum) (S k) edges) with (nth (S k) edges zero64). change (nth0 (N := SFNum) k tab) with (nth k tab zero64). change (nth0 (N := SFNum) (S k) tab) with (nth (S k) tab zero64).
      destruct (ptab64 k ltac:(lia)) as [Fk Vk]. destruct (neqb (N := SFNum) (nth k tab zero64) q) eqn:Q.
      + split; [apply Fe; lia|]. left. exists k. split; [exact Hk|]. split; [lra|]. unfold neqb in Q. cbn [nleb SFNum] in Q. rewrite !leb64 in Q by assumption. apply andb_true_iff in Q. destruct Q as [Q1 Q2]. apply Rleb_true in Q1, Q2. rewrite Vk in Q1, Q2. fold v in Q1, Q2.
        assert (Ev : v = y k) by lra. rewrite Ev. symmetry. apply seg_at. apply pe_dbl. lia.
      + destruct (pseg64 k Hk ltac:(lra)) as [Fz Vz]. split; [exact Fz|]. left. exists k. split; [exact Hk|]. split; [lra|exact Vz].
  Qed.

  (** *** The point that is hit *)
  Lemma pbelow_at k X : (k < n)%nat -> e k <= X <= e (S k) -> area_below edges row X = rsum k (fun i => p i * W i) + p k * (X - e k).
  Proof.
    intros Hk Hx. change (rsum n (fun i => p i * Rmax 0 (Rmin X (e (S i)) - e i)) = rsum k (fun i => p i * W i) + p k * (X - e k)).
    assert (G : forall m, (S k <= m <= n)%nat -> rsum m (fun i => p i * Rmax 0 (Rmin X (e (S i)) - e i)) = rsum k (fun i => p i * W i) + p k * (X - e k)).
    { intros m [H1 H2]. induction H1.
      - cbn [rsum]. f_equal.
        + apply rsum_ext'. intros i Hi. unfold W. pose proof (pe_inc (S i) k ltac:(lia)). pose proof (pe_inc i (S i) ltac:(lia)). rewrite Rmin_right, Rmax_right by lra. reflexivity.
        + rewrite Rmin_left, Rmax_right by lra. reflexivity.
      - cbn [rsum]. rewrite (IHle ltac:(lia)). pose proof (pe_inc (S k) m ltac:(lia)). pose proof (pe_inc m (S m) ltac:(lia)). rewrite Rmin_left, Rmax_left by lra. lra. }
    apply G. lia.
  Qed.
  Let hit k := e k + (e (S k) - e k) * ((v - y k) / (y (S k) - y k)).
  Lemma hit_in k : (k < n)%nat -> y k <= v < y (S k) -> e k <= hit k <= e (S k).
  Proof.
    intros Hk Hv. pose proof (pe_inc k (S k) ltac:(lia)) as E. assert (L : 0 <= (v - y k) / (y (S k) - y k) <= 1).
    { split; [apply Rmult_le_pos; [lra|apply Rlt_le, Rinv_0_lt_compat; lra]|]. apply Rmult_le_reg_r with (y (S k) - y k); [lra|]. unfold Rdiv. rewrite Rmult_assoc, Rinv_l by lra. lra. }
    unfold hit. set (l := (v - y k) / (y (S k) - y k)) in *. split; [assert (0 <= (e (S k) - e k) * l) by (apply Rmult_le_pos; lra); lra|].
    assert ((e (S k) - e k) * l <= (e (S k) - e k) * 1) by (apply Rmult_le_compat_l; lra). lra.
  Qed.
  Lemma off_small : (INR n + 2) / 2 ^ 51 + / 2 ^ 600 <= INR (length edges + 2) / 2 ^ 51.
  Proof.
    rewrite p_len. replace (S n + 2)%nat with (n + 3)%nat by lia. rewrite plus_INR. replace (INR 3) with 3 by (simpl; lra). pose proof p600. simpl (2 ^ 51) in *. simpl (2 ^ 100) in *. set (zz := / 2 ^ 600) in *. lra.
  Qed.
  Lemma hit_area k : (k < n)%nat -> y k <= v < y (S k) -> Rabs (area_below edges row (hit k) - v) <= INR (length edges + 2) / 2 ^ 51.
  Proof.
    intros Hk Hv. eapply Rle_trans; [|apply off_small]. rewrite (pbelow_at k _ Hk (hit_in k Hk Hv)). pose proof (ptab_near k ltac:(lia)) as E0. pose proof (ptab_near (S k) ltac:(lia)) as E1. cbn [rsum] in E1.
    set (Y := rsum k (fun i => p i * W i)) in *. set (b := (INR n + 2) / 2 ^ 51 + / 2 ^ 600) in *.
    assert (L : 0 <= (v - y k) / (y (S k) - y k) <= 1).
    { split; [apply Rmult_le_pos; [lra|apply Rlt_le, Rinv_0_lt_compat; lra]|]. apply Rmult_le_reg_r with (y (S k) - y k); [lra|]. unfold Rdiv. rewrite Rmult_assoc, Rinv_l by lra. lra. }
    set (l := (v - y k) / (y (S k) - y k)) in *. assert (Ev : v = y k + (y (S k) - y k) * l) by (unfold l; field; lra).
    assert (Eq : Y + p k * (hit k - e k) - v = - ((1 - l) * (y k - Y) + l * (y (S k) - (Y + p k * W k)))) by (transitivity (Y + p k * (hit k - e k) - (y k + (y (S k) - y k) * l)); [rewrite <- Ev; reflexivity|unfold hit; fold l; unfold W; ring]).
    rewrite Eq, Rabs_Ropp. eapply Rle_trans; [apply Rabs_triang|]. rewrite !Rabs_mult, (Rabs_pos_eq (1 - l)), (Rabs_pos_eq l) by lra.
    assert ((1 - l) * Rabs (y k - Y) <= (1 - l) * b) by (apply Rmult_le_compat_l; lra). assert (l * Rabs (y (S k) - (Y + p k * W k)) <= l * b) by (apply Rmult_le_compat_l; lra). lra.
  Qed.
  Lemma area_all : area_below edges row (e n) = area edges row.
  Proof.
    unfold area_below, area. apply rsum_ext'. intros i Hi. pose proof (pe_inc (S i) n ltac:(fold n in Hi; lia)) as G. pose proof (pe_inc i (S i) ltac:(fold n in Hi; lia)) as G'. unfold e in G, G' |- *. rewrite Rmin_right, Rmax_right by lra. reflexivity.
  Qed.
  Lemma cell_near z k : cell_of z k -> Rabs (val64 z - hit k) <= M / 2 ^ 49 /\ e k <= val64 z.
  Proof.
    intros (Hk & Hv & Ez). rewrite Ez. pose proof (y_gap k Hk ltac:(lra)) as G. pose proof (pd_W k Hk) as HW. split.
    - unfold Rdiv. rewrite Rmult_comm. apply (pseg_err (y k) (y (S k)) (e k) (e (S k)) (py_dbl k) (py_dbl (S k)) (pe_dbl k ltac:(lia)) (pe_dbl (S k) ltac:(lia)) G HW v q_dbl ltac:(lra) M (e_reach k ltac:(lia)) (e_reach (S k) ltac:(lia))).
    - apply (pseg_low (y k) (y (S k)) (e k) (e (S k)) (pe_dbl k ltac:(lia)) G HW v ltac:(lra)).
  Qed.
  Lemma quantile_hits z : quantile z -> exists X, first_edge edges <= X <= last_edge edges /\ Rabs (val64 z - X) <= M / 2 ^ 49 /\
    Rabs (area_below edges row X - Rmin v (area edges row)) <= INR (length edges + 2) / 2 ^ 51 /\ first_edge edges <= val64 z.
  Proof.
    change (first_edge edges) with (e 0%nat). change (last_edge edges) with (e n).
    assert (T : forall X, e 0%nat <= X <= e n -> area_below edges row X <= area edges row).
    { intros X HX. rewrite <- area_all. apply area_below_mono; [exact He| |lra]. intros i. destruct (Nat.lt_ge_cases i n) as [H|H]; [apply p_nn, H|]. rewrite nth_overflow; [cbn; lra|]. destruct Hr as (Lr & _). rewrite Lr. exact H. }
    intros [_ [(k & C)|(Hv & Ez)]].
    - exists (hit k). destruct (cell_near z k C) as [N1 N2]. destruct C as (Hk & Hv & Ez). pose proof (hit_in k Hk Hv) as H. pose proof (pe_inc 0 k ltac:(lia)). pose proof (pe_inc (S k) n ltac:(lia)).
      split; [lra|]. split; [exact N1|]. split; [|lra]. pose proof (hit_area k Hk Hv) as Ha. pose proof (T (hit k) ltac:(lra)) as U. unfold Rmin. destruct (Rle_dec v (area edges row)); [exact Ha|]. apply Rabs_le_inv in Ha. apply Rabs_le. lra.
    - exists (e n). pose proof (pe_inc 0 n ltac:(lia)). rewrite Ez. split; [lra|]. split; [replace (e n - e n) with 0 by ring; rewrite Rabs_R0; apply Rmult_le_pos; [apply M_pos|apply Rlt_le, Rinv_0_lt_compat, pow_lt; lra]|]. split; [|lra].
      rewrite area_all. pose proof (ptab_near n ltac:(lia)) as E. change (rsum n (fun i => p i * W i)) with (area edges row) in E. pose proof off_small as O. apply Rabs_le_inv in E. unfold Rmin. destruct (Rle_dec v (area edges row)); apply Rabs_le; lra.
  Qed.
End PRow.

Lemma quantile_order edges row q q' z z' : good_edges edges -> good_row edges row -> no_slivers edges row -> fin64 q -> fin64 q' -> 0 < val64 q -> val64 q <= val64 q' ->
  quantile edges row q z -> quantile edges row q' z' -> val64 z <= val64 z' + reach edges / 2 ^ 49.
Proof.
  intros He Hr Hh Fq Fq' Hq Hle [_ Hz] [_ Hz']. assert (M0 : 0 <= reach edges / 2 ^ 49) by (apply Rmult_le_pos; [apply (M_pos edges He)|apply Rlt_le, Rinv_0_lt_compat, pow_lt; lra]).
  pose proof (n_pos edges He) as Np. set (n := pred (length edges)) in *.
  destruct Hz as [(k & C)|(Hv & Ez)]; destruct Hz' as [(k' & C')|(Hv' & Ez')].
  - destruct (cell_near edges row He Hr Hh q Fq z k C) as [N1 _]. destruct (cell_near edges row He Hr Hh q' Fq' z' k' C') as [_ N2]. pose proof C as (Hk & Hv & Ez). pose proof C' as (Hk' & Hv' & Ez'). fold n in Hk, Hk'.
    pose proof (hit_in edges row He q k Hk Hv) as H. destruct (Nat.lt_trichotomy k k') as [L|[L|L]].
    + pose proof (pe_inc edges He (S k) k' ltac:(fold n; lia)) as I. cbv beta in I. apply Rabs_le_inv in N1. lra.
    + subst k'. rewrite Ez, Ez'. match type of Hv with ?a <= _ < ?b => set (y0 := a) in *; set (y1 := b) in * end. pose proof (y_gap edges row He Hr Hh k Hk (Rle_lt_trans _ _ _ (proj1 Hv) (proj2 Hv))) as G. pose proof (pd_W edges He k Hk) as HW.
      pose proof (pseg_mono y0 y1 _ _ G HW _ _ Hle). lra.
    + exfalso. pose proof (py_up edges row He Hr (S k') k ltac:(fold n; lia)) as I. cbv beta in I. lra.
  - destruct (cell_near edges row He Hr Hh q Fq z k C) as [N1 _]. pose proof C as (Hk & Hv & Ez). fold n in Hk. pose proof (hit_in edges row He q k Hk Hv) as H. pose proof (pe_inc edges He (S k) n ltac:(fold n; lia)) as I. cbv beta in I. rewrite Ez'. apply Rabs_le_inv in N1. lra.
  - exfalso. pose proof C' as (Hk' & Hv' & Ez'). fold n in Hk'. pose proof (py_up edges row He Hr (S k') n ltac:(fold n; lia)) as I. cbv beta in I. fold n in Hv. lra.
  - rewrite Ez, Ez'. lra.
Qed.

(** ** The ensemble *)
Lemma in_unit q : double q -> 0 < val64 q < 1 -> (nltb (N := SFNum) (n0 (Num := SFNum)) q && nltb (N := SFNum) q (n1 (Num := SFNum)))%bool = true.
Proof.
  intros Hq H. assert (Fq : fin64 q) by apply double_moderate, Hq. assert (F1 : fin64 one64) by (split; reflexivity). change (n0 (Num := SFNum)) with zero64. change (n1 (Num := SFNum)) with one64.
  assert (L : forall b c, fin64 b -> fin64 c -> nltb (N := SFNum) b c = nltb (N := RNum) (val64 b) (val64 c)) by (intros b c Hb Hc; unfold nltb; cbn [nleb SFNum]; rewrite leb64 by assumption; reflexivity).
  rewrite !L by (try assumption; apply fin64_0). rewrite val_one. change (val64 zero64) with 0. rewrite !(proj2 (nltb_R_true _ _)) by lra. reflexivity.
Qed.
Lemma ppf_answers h q : (0 < length (h_pdfs h))%nat -> double q -> 0 < val64 q < 1 -> answers (hist_ens_ppf (N := SFNum) h (PScalar q)) (length (h_pdfs h)) (ppf_point (N := SFNum) q h).
Proof.
  intros Hne Hq H. unfold answers. change (length (h_pdfs h)) with (h_npdf h). apply hist_ppf_scalar; [|apply in_unit; assumption|exact Hne].
  cbn [nleb SFNum]. rewrite leb64 by (apply double_moderate, Hq). apply Rleb_true. lra.
Qed.
Lemma ppf_quantile h q r : good_edges (h_bins h) -> (forall row, In row (h_pdfs h) -> good_row (h_bins h) row /\ no_slivers (h_bins h) row) -> double q -> 0 < val64 q -> (r < length (h_pdfs h))%nat ->
  quantile (h_bins h) (nth r (h_pdfs h) []) q (ppf_point (N := SFNum) q h r).
Proof.
  intros He Hr Hq H Hl. destruct (Hr _ (nth_In (h_pdfs h) [] Hl)) as [G S]. unfold ppf_point. rewrite cdfs_nth by exact Hl. apply ppf_in; try assumption. apply double_moderate, Hq.
Qed.

Lemma c143_value : forall h q, good_edges (h_bins h) -> (0 < length (h_pdfs h))%nat -> (forall row, In row (h_pdfs h) -> good_row (h_bins h) row /\ no_slivers (h_bins h) row) -> double q -> 0 < val64 q < 1 ->
  exists v, answers (hist_ens_ppf (N := SFNum) h (PScalar q)) (length (h_pdfs h)) v /\
    forall r, (r < length (h_pdfs h))%nat ->
      fin64 (v r) /\ first_edge (h_bins h) <= val64 (v r) <= last_edge (h_bins h) + reach (h_bins h) / 2 ^ 49 /\
      exists x, first_edge (h_bins h) <= x <= last_edge (h_bins h) /\ Rabs (val64 (v r) - x) <= reach (h_bins h) / 2 ^ 49 /\
        Rabs (area_below (h_bins h) (nth r (h_pdfs h) []) x - Rmin (val64 q) (area (h_bins h) (nth r (h_pdfs h) []))) <= INR (length (h_bins h) + 2) / 2 ^ 51.
Proof.
  intros h q He Hne Hr Hq H. exists (ppf_point (N := SFNum) q h). split; [apply ppf_answers; assumption|]. intros r Hl. pose proof (ppf_quantile h q r He Hr Hq (proj1 H) Hl) as Q.
  destruct (Hr _ (nth_In (h_pdfs h) [] Hl)) as [G S]. split; [apply Q|]. destruct (quantile_hits (h_bins h) _ He G S q (proj1 (double_moderate _ Hq)) _ Q) as (x & X1 & X2 & X3 & X4).
  split; [split; [exact X4|]; apply Rabs_le_inv in X2; lra|]. exists x. split; [exact X1|]. split; [exact X2|exact X3].
Qed.

Lemma c143_order : forall h q q' v v' r, good_edges (h_bins h) -> (0 < length (h_pdfs h))%nat -> (forall row, In row (h_pdfs h) -> good_row (h_bins h) row /\ no_slivers (h_bins h) row) ->
  double q -> double q' -> 0 < val64 q -> val64 q <= val64 q' -> val64 q' < 1 ->
  answers (hist_ens_ppf (N := SFNum) h (PScalar q)) (length (h_pdfs h)) v -> answers (hist_ens_ppf (N := SFNum) h (PScalar q')) (length (h_pdfs h)) v' -> (r < length (h_pdfs h))%nat ->
  val64 (v r) <= val64 (v' r) + reach (h_bins h) / 2 ^ 49.
Proof.
  intros h q q' v v' r He Hne Hr Hq Hq' H0 H1 H2 A A' Hl. rewrite (answers_inj _ _ _ _ A (ppf_answers h q Hne Hq ltac:(lra)) r Hl), (answers_inj _ _ _ _ A' (ppf_answers h q' Hne Hq' ltac:(lra)) r Hl).
  destruct (Hr _ (nth_In (h_pdfs h) [] Hl)) as [G S].
  apply (quantile_order (h_bins h) (nth r (h_pdfs h) []) q q'); try assumption; try (apply double_moderate; assumption); apply ppf_quantile; try assumption; lra.
Qed.

(** *** Histograms normalised on creation *)
(** Every bin is empty or holds at least 2^-500 of the area. *)
Definition no_tiny_share (edges row : list spec_float) : Prop :=
  forall i, (i < pred (length edges))%nat ->
    val64 (nth i row zero64) = 0 \/ / 2 ^ 500 * area edges row <= val64 (nth i row zero64) * (val64 (nth (S i) edges zero64) - val64 (nth i edges zero64)).
Lemma norm_heavy edges g c i : good_edges edges -> parts64 edges g -> (i < pred (length edges))%nat -> / 2 ^ 520 <= c ->
  val64 (nth i g zero64) = 0 \/ c * area edges g <= val64 (nth i g zero64) * (val64 (nth (S i) edges zero64) - val64 (nth i edges zero64)) ->
  let z := val64 (nth i (hist_norm_row (N := SFNum) (bin_widths (N := SFNum) edges) g) zero64) in
  z = 0 \/ c / 4 <= z * (val64 (nth (S i) edges zero64) - val64 (nth i edges zero64)).
Proof.
  intros He (s & Hn1 & HnR & Hp & HW & Hw & Htot & Hmass & Hs & L & Q) Hi Hc H z. destruct (Q i Hi) as (_ & Ez & _). fold z in Ez.
  pose proof (sum_near _ _ _ _ s Hn1 HnR Hp HW Hw Hmass Hs) as Es. pose proof (theta_small _ Hn1 HnR) as Th. pose proof (row_normal _ _ _ _ s Hn1 HnR Hp HW Hw Htot Hmass Hs) as (Ps & _ & _).
  specialize (Hp i Hi). cbv beta in *. change (/ 2 ^ 500 <= area edges g) in Hmass. change (Rabs (s - area edges g) <= (INR (pred (length edges)) + 3) / 2 ^ 52 * area edges g) in Es. set (S := area edges g) in *. set (theta := (INR _ + 3) / 2 ^ 52) in *. set (p := val64 (nth i g zero64)) in *.
  destruct H as [Z|H]; [left; rewrite Ez, Z; unfold Rdiv; rewrite Rmult_0_l; apply rd_0|right].
  pose proof (pd_W edges He i Hi) as Wb. set (W := val64 (nth (Datatypes.S i) edges zero64) - val64 (nth i edges zero64)) in *. change (/ 2 ^ 1000 <= W <= 2 ^ 401) in Wb.
  assert (W0 : 0 < W) by (eapply Rlt_le_trans; [|apply Wb]; apply Rinv_0_lt_compat, pow_lt; lra).
  assert (S0 : 0 < S) by (eapply Rlt_le_trans; [|exact Hmass]; apply Rinv_0_lt_compat, pow_lt; lra).
  assert (s2 : s <= 2 * S). { apply Rabs_le_inv in Es. assert (theta * S <= / 2 ^ 11 * S) by (apply Rmult_le_compat_r; lra). simpl (2 ^ 11) in *. lra. }
  assert (c0 : 0 < c) by (eapply Rlt_le_trans; [|exact Hc]; apply Rinv_0_lt_compat, pow_lt; lra).
  assert (K : c / 2 <= p / s * W).
  { apply Rmult_le_reg_r with s; [exact Ps|]. replace (p / s * W * s) with (p * W) by (field; lra). apply Rle_trans with (c / 2 * (2 * S)); [apply Rmult_le_compat_l; lra|]. replace (c / 2 * (2 * S)) with (c * S) by field. exact H. }
  assert (B : / 2 ^ 922 <= p / s).
  { apply Rmult_le_reg_r with W; [exact W0|]. eapply Rle_trans; [|exact K]. apply Rle_trans with (/ 2 ^ 922 * 2 ^ 401); [apply Rmult_le_compat_l; [apply Rlt_le, Rinv_0_lt_compat, pow_lt; lra|apply Wb]|].
    replace (/ 2 ^ 922 * 2 ^ 401) with (/ 2 ^ 520 / 2); [lra|]. replace 922%nat with (401 + 520 + 1)%nat by lia. rewrite !pow_add, pow_1. field; repeat split; apply pow_nonzero; lra. }
  assert (T : tiny <= / 4 * (p / s)).
  { apply Rle_trans with (/ 2 ^ 924); [apply tiny_le; lia|]. replace (/ 2 ^ 924) with (/ 4 * / 2 ^ 922); [apply Rmult_le_compat_l; [lra|exact B]|]. replace 924%nat with (2 + 922)%nat by lia. rewrite pow_add. rewrite Rinv_mult. f_equal. simpl; lra. }
  pose proof (rd_err (p / s)) as E. fold tiny in E. rewrite u53v in E. assert (P0 : 0 <= p / s) by (apply Rmult_le_pos; [exact Hp|apply Rlt_le, Rinv_0_lt_compat, Ps]). rewrite (Rabs_pos_eq (p / s)) in E by exact P0. apply Rabs_le_inv in E.
  assert (Zl : / 2 * (p / s) <= z) by (rewrite Ez; simpl (2 ^ 53) in E; lra).
  apply Rle_trans with (/ 2 * (p / s) * W); [|apply Rmult_le_compat_r; lra]. rewrite Rmult_assoc. lra.
Qed.
Lemma half_pow a b : (a <= b)%nat -> / 2 ^ b <= / 2 ^ a.
Proof. intros H. apply Rinv_le_contravar; [apply pow_lt; lra|apply Rle_pow; [lra|exact H]]. Qed.
Lemma quarter k : / 2 ^ k / 4 = / 2 ^ (k + 2). Proof. rewrite pow_add. unfold Rdiv. rewrite Rinv_mult. f_equal. simpl. lra. Qed.
Lemma made_heavy edges rows chk h row : good_edges edges -> (forall row, In row rows -> normalisable edges row /\ no_tiny_share edges row) ->
  hist_ctor (N := SFNum) edges (nd2 (pred (length edges)) rows) chk = Ok h -> In row (h_pdfs h) -> no_slivers edges row.
Proof.
  intros He Hr Hh Hin. destruct (made_of edges rows chk h (fun r H => proj1 (Hr r H)) Hh) as [_ Ep]. rewrite Ep in Hin. apply in_map_iff in Hin. destruct Hin as (g & <- & Hg). destruct (Hr g Hg) as [G S]. clear Ep.
  pose proof He as (H2 & H40 & Hm & _). pose proof (edges_up edges He) as Hup. intros i Hi.
  pose proof (norm64_given edges g chk H2 H40 Hm Hup G) as P.
  assert (C : val64 (nth i (given64 edges chk g) zero64) = 0 \/ / 2 ^ 503 * area edges (given64 edges chk g) <= val64 (nth i (given64 edges chk g) zero64) * (val64 (nth (Datatypes.S i) edges zero64) - val64 (nth i edges zero64))).
  { destruct chk; cbn [given64].
    - destruct (norm64_parts_first edges g H2 H40 Hm Hup G) as [P1 _]. destruct (norm_heavy edges g (/ 2 ^ 500) i He P1 Hi (half_pow 500 520 ltac:(lia)) (S i Hi)) as [Z|K]; [left; exact Z|right].
      eapply Rle_trans; [|exact K]. destruct (first_again edges g H2 H40 Hm Hup G) as (_ & _ & A1 & A2). rewrite quarter. replace (500 + 2)%nat with 502%nat by lia. replace (/ 2 ^ 502) with (/ 2 ^ 503 * 2); [apply Rmult_le_compat_l; [apply Rlt_le, Rinv_0_lt_compat, pow_lt; lra|exact A2]|].
      replace 503%nat with (502 + 1)%nat by lia. rewrite pow_add, pow_1. field; apply pow_nonzero; lra.
    - destruct (S i Hi) as [Z|K]; [left; exact Z|right]. eapply Rle_trans; [|exact K]. apply Rmult_le_compat_r; [|apply half_pow; lia]. destruct G as (_ & _ & M). eapply Rle_trans; [|exact M]. apply Rlt_le, Rinv_0_lt_compat, pow_lt; lra. }
  destruct (norm_heavy edges _ (/ 2 ^ 503) i He P Hi (half_pow 503 520 ltac:(lia)) C) as [Z|K]; [left; exact Z|right]. eapply Rle_trans; [|exact K]. rewrite quarter. apply half_pow. lia.
Qed.

Lemma c143_created : forall edges rows chk h q, good_edges edges -> rows <> [] -> (forall row, In row rows -> normalisable edges row /\ no_tiny_share edges row) ->
  hist_ctor (N := SFNum) edges (nd2 (pred (length edges)) rows) chk = Ok h -> double q -> 0 < val64 q < 1 ->
  exists v, answers (hist_ens_ppf (N := SFNum) h (PScalar q)) (length rows) v /\
    forall r, (r < length rows)%nat ->
      fin64 (v r) /\ first_edge edges <= val64 (v r) <= last_edge edges + reach edges / 2 ^ 49 /\
      exists x, first_edge edges <= x <= last_edge edges /\ Rabs (val64 (v r) - x) <= reach edges / 2 ^ 49 /\
        Rabs (share edges (nth r rows []) x - val64 q) <= INR (7 * length edges + 20) / 2 ^ 51.
Proof.
  intros edges rows chk h q He Hne Hr Hh Hq H. pose proof (fun r H => proj1 (Hr r H)) as Hr'. destruct (made_of edges rows chk h Hr' Hh) as [Eb _]. pose proof (made_len edges rows chk h Hr' Hh) as El.
  assert (He' : good_edges (h_bins h)) by (rewrite Eb; exact He).
  destruct (c143_value h q He' (made_ne edges rows chk h Hne Hr' Hh)) as (v & A & B); [|exact Hq|exact H|].
  { intros row Hin. split; [apply (made_good edges rows chk h He Hr' Hh row Hin)|]. rewrite Eb. apply (made_heavy edges rows chk h row He Hr Hh Hin). }
  rewrite El, Eb in *. exists v. split; [exact A|]. intros r Hl. destruct (B r Hl) as (F & Lo & x & X1 & X2 & X3). split; [exact F|]. split; [exact Lo|]. exists x. split; [exact X1|]. split; [exact X2|].
  pose proof (share_near edges rows chk h He Hr' Hh r x Hl) as N1. pose proof (share_near edges rows chk h He Hr' Hh r (last_edge edges) Hl) as N2.
  assert (Hin : In (nth r (h_pdfs h) []) (h_pdfs h)) by (apply nth_In; rewrite El; exact Hl).
  assert (G : good_row edges (nth r (h_pdfs h) [])) by (rewrite <- Eb; apply (made_good edges rows chk h He Hr' Hh _ Hin)).
  assert (T : area_below edges (nth r (h_pdfs h) []) (last_edge edges) = area edges (nth r (h_pdfs h) [])) by exact (area_all edges (nth r (h_pdfs h) []) He).
  assert (One : share edges (nth r rows []) (last_edge edges) = 1).
  { pose proof (Hr' _ (nth_In rows [] Hl)) as Gn. unfold share. change (last_edge edges) with (val64 (nth (pred (length edges)) edges zero64)).
    assert (Ap : 0 < area edges (nth r rows [])) by (destruct Gn as (_ & _ & Mm); eapply Rlt_le_trans; [|exact Mm]; apply Rinv_0_lt_compat, pow_lt; lra).
    rewrite (area_all edges (nth r rows []) He). field. lra. }
  rewrite T, One in N2. set (Ar := area edges (nth r (h_pdfs h) [])) in *. set (Ax := area_below edges (nth r (h_pdfs h) []) x) in *. set (sx := share edges (nth r rows []) x) in *.
  replace (INR (7 * length edges + 20)) with (INR (length edges + 2) + 2 * INR (3 * length edges + 9)) by (replace (7 * length edges + 20)%nat with ((length edges + 2) + 2 * (3 * length edges + 9))%nat by lia; rewrite (plus_INR (length edges + 2)), (mult_INR 2); change (INR 2) with (1 + 1); lra).
  set (b1 := INR (length edges + 2)) in *. set (b2 := INR (3 * length edges + 9)) in *. replace ((b1 + 2 * b2) / 2 ^ 51) with (b1 / 2 ^ 51 + 2 * (b2 / 2 ^ 51)) by (field; apply pow_nonzero; lra).
  set (c1 := b1 / 2 ^ 51) in *. set (c2 := b2 / 2 ^ 51) in *. apply Rabs_le_inv in N1, N2, X3. unfold Rmin in X3. destruct (Rle_dec (val64 q) Ar); apply Rabs_le; lra.
Qed.

(** The answer can lie beyond the last edge: edges -1, 0, 11 and values 6, 1 give ppf(1 - 2^-53) = 11 + 2^-49. *)
Definition o_edges : list spec_float := map (fun z => SpecFloat.binary_normalize 53 1024 z 0 false) [-1; 0; 11]%Z.
Definition o_row : list spec_float := map (fun z => SpecFloat.binary_normalize 53 1024 z 0 false) [6; 1]%Z.
Lemma o_edges_are : o_edges = [S754_finite true 4503599627370496 (-52); S754_zero false; f64 6192449487634432 (-49)]. Proof. vm_compute. reflexivity. Qed.
Lemma o_row_is : o_row = [f64 6755399441055744 (-50); f64 4503599627370496 (-52)]. Proof. vm_compute. reflexivity. Qed.
Lemma c143_beyond : exists h q v, hist_ctor (N := SFNum) o_edges (nd2 2 [o_row]) true = Ok h /\ double q /\ 0 < val64 q < 1 /\
  answers (hist_ens_ppf (N := SFNum) h (PScalar q)) 1 v /\ last_edge o_edges < val64 (v 0%nat).
Proof.
  eexists. exists (f64 9007199254740991 (-53)), (fun _ => f64 6192449487634433 (-49)). split; [vm_compute; reflexivity|].
  assert (B : double (f64 9007199254740991 (-53)) /\ 0 <= val64 (f64 9007199254740991 (-53))) by (destruct (modest_f64_8 9007199254740991 (-53) eq_refl ltac:(simpl bpow; lra)) as [[D _] P]; split; assumption).
  split; [apply B|]. split; [rewrite val_f64; simpl bpow; lra|]. split; [vm_compute; reflexivity|].
  rewrite o_edges_are. unfold last_edge. cbn [length pred nth]. rewrite !val_f64. simpl bpow. lra.
Qed.
(** Without the lower bound on the bins a quantile can be infinite: edges 0, 1, 2, values 2^-1070 and 1, q = 2^-1071. *)
Definition s_edges : list spec_float := map (fun z => SpecFloat.binary_normalize 53 1024 z 0 false) [0; 1; 2]%Z.
Definition s_row : list spec_float := [S754_finite false 16 (-1074); one64].
Lemma c143_infinite : exists h q v, hist_ctor (N := SFNum) s_edges (nd2 2 [s_row]) true = Ok h /\ good_edges s_edges /\ normalisable s_edges s_row /\ double q /\ 0 < val64 q < 1 /\
  answers (hist_ens_ppf (N := SFNum) h (PScalar q)) 1 v /\ v 0%nat = S754_infinity false.
Proof.
  eexists. exists (f64 8 (-1074)), (fun _ => S754_infinity false). split; [vm_compute; reflexivity|].
  assert (Es : s_edges = [S754_zero false; f64 4503599627370496 (-52); f64 4503599627370496 (-51)]) by (vm_compute; reflexivity).
  assert (Er : s_row = [f64 16 (-1074); f64 4503599627370496 (-52)]) by reflexivity.
  assert (Tn : 0 < bpow radix2 (-1074) <= / 2 ^ 10) by (split; [apply bpow_gt_0|rewrite pow_bpow, <- bpow_opp; apply bpow_le; simpl; lia]). simpl (2 ^ 10) in Tn.
  assert (Ms : forall m, (Z.pos m <= 16)%Z -> bounded 53 1024 m (-1074) = true -> modest (f64 m (-1074)) /\ 0 <= val64 (f64 m (-1074))).
  { intros m Hm Bm. apply modest_f64_8; [exact Bm|]. apply Rle_trans with (16 * bpow radix2 (-1074)); [apply Rmult_le_compat_r; [lra|apply IZR_le; lia]|lra]. }
  split; [|split].
  - rewrite Es. split; [simpl; lia|]. split; [simpl; lra|]. split.
    + intros b H. cbn [In] in H. destruct H as [<-|[<-|[<-|[]]]]; try (apply modest_0); apply modest_f64_8; try reflexivity; simpl bpow; lra.
    + intros i Hi. pose proof (half_le 1000 ltac:(lia)). cbn [length] in Hi. destruct i as [|[|i]]; [| |lia]; cbn [nth]; rewrite ?val_f64; change (val64 (S754_zero false)) with 0; simpl bpow; lra.
  - rewrite Es, Er. split; [reflexivity|]. split.
    + intros x H. cbn [In] in H. destruct H as [<-|[<-|[]]]; [apply Ms; [lia|reflexivity]|apply modest_f64_8; [reflexivity|simpl bpow; lra]].
    + pose proof (half_le 500 ltac:(lia)). unfold area, zero64. cbn [length pred rsum nth]. rewrite !val_f64. change (val64 (S754_zero false)) with 0. set (tn := bpow radix2 (-1074)) in *. simpl bpow. lra.
  - destruct (Ms 8%positive ltac:(lia) eq_refl) as [[D _] _]. split; [exact D|]. split; [rewrite val_f64; lra|]. split; [vm_compute; reflexivity|reflexivity].
Qed.
Example c143_example : good_edges o_edges /\ normalisable o_edges o_row /\ no_tiny_share o_edges o_row /\ first_edge o_edges = -1 /\ last_edge o_edges = 11 /\ reach o_edges = 11 /\ share o_edges o_row 0 = 6 / 17.
Proof.
  rewrite o_edges_are, o_row_is.
  assert (Vm : val64 (S754_finite true 4503599627370496 (-52)) = -1) by (change (val64 (SFopp (f64 4503599627370496 (-52))) = -1); rewrite (proj2 (opp64 (f64 4503599627370496 (-52)) (conj eq_refl eq_refl))), val_f64; simpl bpow; lra).
  assert (V11 : val64 (f64 6192449487634432 (-49)) = 11) by (rewrite val_f64; simpl bpow; lra). assert (V6 : val64 (f64 6755399441055744 (-50)) = 6) by (rewrite val_f64; simpl bpow; lra). assert (V1 : val64 (f64 4503599627370496 (-52)) = 1) by (rewrite val_f64; simpl bpow; lra).
  assert (P16 : forall k, (4 <= k)%nat -> 16 <= 2 ^ k) by (intros k Hk; replace k with (4 + (k - 4))%nat by lia; rewrite pow_add; pose proof (pow_R1_Rle 2 (k - 4) ltac:(lra)); simpl (2 ^ 4); lra).
  pose proof (P16 1000%nat ltac:(lia)). pose proof (P16 400%nat ltac:(lia)).
  assert (Ar : area [S754_finite true 4503599627370496 (-52); S754_zero false; f64 6192449487634432 (-49)] [f64 6755399441055744 (-50); f64 4503599627370496 (-52)] = 17) by (unfold area, zero64; cbn [length pred rsum nth]; rewrite Vm, V11, V6, V1; change (val64 (S754_zero false)) with 0; lra).
  split; [|split; [|split]].
  - split; [simpl; lia|]. split; [simpl; lra|]. split.
    + intros b Hb. cbn [In] in Hb. destruct Hb as [<-|[<-|[<-|[]]]]; [|apply modest_0|]; (split; [split; [reflexivity|]|]); rewrite ?Vm, ?V11; apply Rabs_le; lra.
    + intros i Hi. pose proof (half_le 1000 ltac:(lia)). cbn [length] in Hi. destruct i as [|[|i]]; [| |lia]; cbn [nth]; rewrite ?Vm, ?V11; change (val64 (S754_zero false)) with 0; lra.
  - split; [reflexivity|]. split.
    + intros x Hx. cbn [In] in Hx. destruct Hx as [<-|[<-|[]]]; apply modest_f64_8; try reflexivity; simpl bpow; lra.
    + rewrite Ar. pose proof (half_le 500 ltac:(lia)). lra.
  - intros i Hi. rewrite Ar. right. pose proof (half_le 500 ltac:(lia)) as H5. pose proof (half_pow 5 500 ltac:(lia)) as H6. simpl (2 ^ 5) in H6. cbn [length pred] in Hi. destruct i as [|[|i]]; [| |lia]; cbn [nth]; rewrite ?Vm, ?V11, ?V6, ?V1; change (val64 (S754_zero false)) with 0; set (zz := / 2 ^ 500) in *; lra.
  - unfold first_edge, last_edge, reach, share. unfold first_edge, last_edge. rewrite Ar. cbn [length pred nth]. rewrite Vm, V11. split; [reflexivity|]. split; [reflexivity|]. split.
    + rewrite (Rabs_pos_eq 11) by lra. rewrite Rabs_left by lra. rewrite Rmax_right; lra.
    + unfold area_below, zero64. cbn [length pred rsum nth]. rewrite Vm, V11, V6, V1. change (val64 (S754_zero false)) with 0. rewrite (Rmin_left 0 0), (Rmin_left 0 11), (Rmax_right 0 (0 - -1)), (Rmax_left 0 (0 - 0)) by lra. lra.
Qed.
