(** Quantiles of interpolated densities (interp_pdf.py 132-144) in double precision. *)
From Coq Require Import List Arith ZArith Bool Sorted Permutation Lia Reals Lra Psatz Floats.SpecFloat.
From Flocq Require Import Core.Zaux Core.Raux.
From Verif Require Import Num NumProofs Py NdArray NumpyLib Utils ScipyWrap SortProofs EvalProofs InterpPdf Spec InterpProofs BinProofs Float FloatProofs FloatHist FloatMachine FloatTheorems FloatExamples FloatNorm FloatCdf FloatCdfTheorems FloatInterp FloatInterpTheorems FloatPpf FloatPpfTheorems.
Import ListNotations.
Local Open Scope R_scope.

(** ** Specification *)
(** The area up to each grid point is 0 or at least 2^-500 of the whole area. *)
Definition no_tiny_part (xs ys : list spec_float) : Prop :=
  forall k, (k < length xs)%nat -> cells_to xs ys k = 0 \/ / 2 ^ 500 * all_cells xs ys <= cells_to xs ys k.

(** ** Evaluation at one point, for any kind of numbers *)
Section AnyNumbers.
  Context {T : Type} {N : Num T}.
  Variable q : T.
  Hypothesis Hq : nleb q q = true.
  Hypothesis Hin : (nltb n0 q && nltb q n1)%bool = true.
  Definition ippf_point (i : interp T) (r : nat) : T := interp1d (nth r (i_cumul i) []) (i_xvals i) (nhead (i_xvals i)) (nlast (i_xvals i)) q.
  Lemma interp_ppf_scalar (h : interp T) : (0 < i_npdf h)%nat ->
    interp_ens_ppf h (PScalar q) = Ok (map (fun r => [Fin (ippf_point h r)]) (seq 0 (i_npdf h))).
  Proof.
    intros Hk. unfold interp_ens_ppf, rv_ppf, rv_eval. cbn [broadcast_points bind]. rewrite concat_single.
    replace (flat_rows (repeat [q] (i_npdf h)) (seq 0 (i_npdf h))) with (seq 0 (i_npdf h)) by (rewrite <- (seq_length (i_npdf h) 0) at 2; symmetry; apply flat_rows_one).
    set (n := i_npdf h) in *. set (g := ippf_point h).
    set (cond := fun p : T => (nltb n0 p && nltb p n1)%bool).
    assert (C : forallb cond (repeat q n) = true) by (apply forallb_forall; intros z Hz; apply repeat_spec in Hz; subst z; exact Hin). rewrite C, repeat_length.
    destruct (Nat.eqb_spec n 0); [lia|].
    assert (E : interp_ppf h (nd1 (repeat q n)) (nd1 (seq 0 n)) = Ok (map g (seq 0 n))).
    { unfold interp_ppf, interpolate_multi_x_y, dispatch, get_eval_case. change (np_ndim (nd1 (repeat q n))) with 1%nat. change (np_ndim (nd1 (seq 0 n))) with 1%nat. cbn [Nat.leb andb negb Nat.eqb].
      rewrite !size_nd1, repeat_length, seq_length. change (dat (nd1 (repeat q n))) with (repeat q n). change (dat (nd1 (seq 0 n))) with (seq 0 n). unfold g, ippf_point. destruct (Nat.eqb_spec n 1) as [E1|E1].
      - rewrite E1. reflexivity.
      - cbn [orb]. assert (V : np_unique (repeat q n) = [q]) by (replace n with (S (pred n)) by lia; apply unique_repeat, Hq). rewrite V.
        assert (U : np_unique_nat (seq 0 n) = seq 0 n) by apply np_unique_nat_sorted_id, seq_sorted. rewrite U. rewrite ?seq_length. cbn [length].
        destruct (Nat.eqb_spec 1 n); [lia|]. rewrite Nat.eqb_refl. rewrite ?size_nd1, ?seq_length. cbn [length]. rewrite ?seq_length, ?Nat.mul_1_l, Nat.eqb_refl. cbn [negb bind].
        f_equal.
        }
    rewrite E. cbn [bind]. f_equal.
    assert (W : match repeat [q] n with [] => 0%nat | l :: _ => length l end = 1%nat) by (destruct n; [lia|reflexivity]). rewrite W.
    rewrite repeat_length. rewrite place_in; [|rewrite map_length, seq_length, repeat_length; reflexivity|exact C]. rewrite map_map.
    assert (Ch : forall m k, chunks m 1 (map (fun x => Fin (g x)) (seq k m)) = map (fun r => [Fin (g r)]) (seq k m)) by (induction m as [|m IH]; intros k; [reflexivity|]; cbn [seq map chunks firstn skipn]; f_equal; apply IH).
    apply Ch.
  Qed.
End AnyNumbers.

(** ** Looking a level up in an increasing table *)
Section Inverse.
  Variable edges : list spec_float.
  Variable y : nat -> R.
  Hypothesis He : good_edges edges.
  Let n := pred (length edges).
  Let e i := val64 (nth i edges zero64).
  Let M := reach edges.
  Hypothesis y_dbl : forall k, dbl (y k).
  Hypothesis y_inc : forall k, (k < n)%nat -> 0 <= y k <= y (S k).
  Hypothesis y_high : forall k, (k <= n)%nat -> y k <= 3.
  Hypothesis y_heavy : forall k, (k <= n)%nat -> y k = 0 \/ bpow radix2 (-551) <= y k.
  Lemma v_npos : (1 <= n)%nat. Proof. exact (n_pos edges He). Qed.
  Lemma v_einc i j : (i <= j <= n)%nat -> e i <= e j. Proof. exact (e_inc edges He i j). Qed.
  Lemma v_up i j : (i <= j <= n)%nat -> y i <= y j.
  Proof. intros [H1 H2]. induction H1; [lra|]. specialize (IHle ltac:(lia)). pose proof (y_inc m ltac:(lia)). lra. Qed.
  Lemma v_gap k : (k < n)%nat -> y k < y (S k) -> / 2 ^ 610 <= y (S k) - y k <= 3.
  Proof.
    intros Hk L. pose proof (y_inc k Hk) as I. pose proof (y_high (S k) ltac:(lia)). split; [|lra]. rewrite p610. destruct (y_heavy k ltac:(lia)) as [Z|H1].
    - destruct (y_heavy (S k) ltac:(lia)) as [Z'|H2]; [lra|]. rewrite Z, Rminus_0_r. eapply Rle_trans; [|exact H2]. apply bpow_le. lia.
    - eapply Rle_trans; [|apply (dbl_apart (-551) (y k) (y (S k)) (y_dbl k) (y_dbl (S k)) ltac:(lia) H1 L)]. apply bpow_le. lia.
  Qed.
  Lemma v_reach k : (k <= n)%nat -> Rabs (e k) <= M. Proof. exact (e_reach edges He k). Qed.
  Lemma v_dW k : (k < n)%nat -> / 2 ^ 1000 <= e (S k) - e k <= 2 ^ 401. Proof. exact (dW edges He k). Qed.
  Lemma v_edbl k : (k <= n)%nat -> dbl (e k). Proof. exact (e_dbl edges He k). Qed.

  Variable q : spec_float.
  Hypothesis Fq : fin64 q.
  Let v := val64 q.
  Hypothesis Hq : 0 < v.
  Lemma v_qdbl : dbl v. Proof. apply dbl64, Fq. Qed.

  Definition level_in (z : spec_float) (k : nat) : Prop := (k < n)%nat /\ y k <= v < y (S k) /\ val64 z = seg (y k) (y (S k)) (e k) (e (S k)) v.
  Definition level (z : spec_float) : Prop := fin64 z /\ ((v < y 0%nat /\ val64 z = e 0%nat) \/ (exists k, level_in z k) \/ (y n <= v /\ val64 z = e n)).
  Definition hit_at k := e k + (e (S k) - e k) * ((v - y k) / (y (S k) - y k)).
  Lemma v_lam k : (k < n)%nat -> y k <= v < y (S k) -> 0 <= (v - y k) / (y (S k) - y k) <= 1.
  Proof.
    intros Hk Hv. split; [apply Rmult_le_pos; [lra|apply Rlt_le, Rinv_0_lt_compat; lra]|]. apply Rmult_le_reg_r with (y (S k) - y k); [lra|]. unfold Rdiv. rewrite Rmult_assoc, Rinv_l by lra. lra.
  Qed.
  Lemma v_hit k : (k < n)%nat -> y k <= v < y (S k) -> e k <= hit_at k <= e (S k).
  Proof.
    intros Hk Hv. pose proof (v_einc k (S k) ltac:(lia)) as E. pose proof (v_lam k Hk Hv) as L.
    unfold hit_at. set (l := (v - y k) / (y (S k) - y k)) in *. split; [assert (0 <= (e (S k) - e k) * l) by (apply Rmult_le_pos; lra); lra|].
    assert ((e (S k) - e k) * l <= (e (S k) - e k) * 1) by (apply Rmult_le_compat_l; lra). lra.
  Qed.
  Lemma v_near z k : level_in z k -> Rabs (val64 z - hit_at k) <= M / 2 ^ 49 /\ e k <= val64 z.
  Proof.
    intros (Hk & Hv & Ez). rewrite Ez. pose proof (v_gap k Hk ltac:(lra)) as G. pose proof (v_dW k Hk) as HW. split.
    - unfold Rdiv. rewrite Rmult_comm. apply (pseg_err (y k) (y (S k)) (e k) (e (S k)) (y_dbl k) (y_dbl (S k)) (v_edbl k ltac:(lia)) (v_edbl (S k) ltac:(lia)) G HW v v_qdbl ltac:(lra) M (v_reach k ltac:(lia)) (v_reach (S k) ltac:(lia))).
    - apply (pseg_low (y k) (y (S k)) (e k) (e (S k)) (v_edbl k ltac:(lia)) G HW v ltac:(lra)).
  Qed.
  (** The answer is near a point of some cell at which the straight line between the entries of the table takes the wanted level. *)
  Lemma v_found z : level z -> y n = 1 -> v < 1 -> exists k X, (k < n)%nat /\ e k <= X <= e (S k) /\ Rabs (val64 z - X) <= M / 2 ^ 49 /\ e 0%nat <= val64 z /\
    y k + (y (S k) - y k) * ((X - e k) / (e (S k) - e k)) = Rmax v (y 0%nat).
  Proof.
    intros (_ & Hz) Y1 V1. pose proof v_npos as Np. pose proof inv1000 as I0. destruct Hz as [(Hv & Ez)|[(k & C)|(Hv & _)]]; [| |lra].
    - exists 0%nat, (e 0%nat). pose proof (v_dW 0 ltac:(lia)). split; [lia|]. split; [lra|]. rewrite Ez. split; [replace (e 0%nat - e 0%nat) with 0 by ring; rewrite Rabs_R0; apply Rmult_le_pos; [exact (M_pos edges He)|apply Rlt_le, Rinv_0_lt_compat, pow_lt; lra]|]. split; [lra|].
      rewrite Rmax_right by lra. replace (e 0%nat - e 0%nat) with 0 by ring. unfold Rdiv. rewrite Rmult_0_l, Rmult_0_r. ring.
    - destruct (v_near z k C) as [N1 N2]. destruct C as (Hk & Hv & Ez). pose proof (v_hit k Hk Hv) as H. exists k, (hit_at k). split; [exact Hk|]. split; [exact H|]. split; [exact N1|]. pose proof (v_einc 0 k ltac:(lia)). split; [lra|].
      pose proof (v_up 0 k ltac:(lia)). rewrite Rmax_left by lra. pose proof (v_dW k Hk). unfold hit_at. field. split; lra.
  Qed.
  Variable tab : list spec_float.
  Hypothesis tab64 : forall k, (k <= n)%nat -> fin64 (nth k tab zero64) /\ val64 (nth k tab zero64) = y k.
  Hypothesis tab_len : length tab = S n.
  Lemma v_seg64 k : (k < n)%nat -> y k <= v < y (S k) ->
    let z := SFadd 53 1024 (SFmul 53 1024 (SFdiv 53 1024 (SFsub 53 1024 (nth (S k) edges zero64) (nth k edges zero64)) (SFsub 53 1024 (nth (S k) tab zero64) (nth k tab zero64)))
                                          (SFsub 53 1024 q (nth k tab zero64))) (nth k edges zero64) in
    fin64 z /\ val64 z = seg (y k) (y (S k)) (e k) (e (S k)) v.
  Proof.
    intros Hk Hx z. destruct (tab64 k ltac:(lia)) as [F0 V0]. destruct (tab64 (S k) ltac:(lia)) as [F1 V1]. pose proof (y_inc k Hk) as Yi. pose proof (y_high (S k) ltac:(lia)) as Yh. pose proof (v_dW k Hk) as HW.
    pose proof (v_gap k Hk ltac:(lra)) as G. pose proof (y_dbl k) as Dk. pose proof (y_dbl (S k)) as Dk1.
    pose proof (v_edbl k ltac:(lia)) as De. pose proof (v_edbl (S k) ltac:(lia)) as De1.
    pose proof (e_mod edges He k ltac:(change (k <= n)%nat; lia)) as M0. pose proof (e_mod edges He (S k) ltac:(change (S k <= n)%nat; lia)) as M1.
    assert (R4 : forall u, 0 <= u <= 8 -> small (rd u)) by exact (rd4 []).
    destruct (sub64 _ _ F1 F0) as [Fd Vd]; [rewrite V1, V0; apply R4; lra|]. rewrite V1, V0 in Vd.
    destruct (mod_sub 400 _ _ ltac:(lia) M1 M0) as [[Fw _] Vw]. change (val64 (nth (S k) edges zero64)) with (e (S k)) in Vw. change (val64 (nth k edges zero64)) with (e k) in Vw.
    destruct (sub64 _ _ Fq F0) as [Fv Vv]; [rewrite V0; fold v; apply R4; lra|]. rewrite V0 in Vv. fold v in Vv.
    pose proof (pw_pos (y k) (y (S k)) G) as Wp.
    pose proof (pq_pos (y k) (y (S k)) (e k) (e (S k)) G HW) as Qp. pose proof (pq_high (y k) (y (S k)) (e k) (e (S k)) G HW) as Qh.
    destruct (div64 _ _ Fw Fd) as [Fs Vs].
    { rewrite Vd. lra. }
    { rewrite Vd, Vw. apply (small_le 1011); [lia|]. apply rd_le_bpow; [lia|]. rewrite Rabs_pos_eq by exact Qp. exact Qh. }
    rewrite Vd, Vw in Vs.
    pose proof (psv_pos (y k) (y (S k)) (e k) (e (S k)) G HW v ltac:(lra)) as Sp. pose proof (psv_high (y k) (y (S k)) (e k) (e (S k)) Dk Dk1 De De1 G HW v v_qdbl ltac:(lra)) as Sh.
    pose proof (pt_pos (y k) (y (S k)) (e k) (e (S k)) G HW v ltac:(lra)) as Tp. pose proof (pt_high (y k) (y (S k)) (e k) (e (S k)) Dk Dk1 De De1 G HW v v_qdbl ltac:(lra)) as Th.
    assert (P402 : 2 ^ 402 = bpow radix2 402) by (rewrite pow_bpow; reflexivity).
    destruct (mul64 _ _ Fs Fv) as [Fm Vm]. { rewrite Vs, Vv. apply (small_le 402); [lia|]. rewrite Rabs_pos_eq by exact Tp. rewrite <- P402. exact Th. } rewrite Vs, Vv in Vm.
    destruct (add64 _ _ Fm (proj1 M0)) as [Fz Vz].
    { rewrite Vm. apply (small_le 403); [lia|]. apply rd_le_bpow; [lia|]. destruct M0 as [_ A]. change (Rabs (e k) <= bpow radix2 400) in A. change (val64 (nth k edges zero64)) with (e k).
      eapply Rle_trans; [apply Rabs_triang|]. rewrite (Rabs_pos_eq (rd _)) by exact Tp. change 403%Z with (402 + 1)%Z. rewrite <- bpow_add1, <- P402. rewrite P402 at 2. apply Rplus_le_compat; [exact Th|]. eapply Rle_trans; [exact A|]. apply bpow_le. lia. }
    rewrite Vm in Vz. split; [exact Fz|exact Vz].
  Qed.
  Lemma v_nth0 i : (i <= n)%nat -> nth0 (N := RNum) i (map val64 tab) = y i.
  Proof. intros H. unfold nth0. transitivity (val64 (nth i tab zero64)); [symmetry; apply nth64|apply tab64, H]. Qed.
  Lemma v_fins b : In b tab -> fin64 b.
  Proof. intros H. apply In_nth with (d := zero64) in H. destruct H as (i & Hi & <-). rewrite tab_len in Hi. apply tab64. lia. Qed.
  Lemma v_look : level (interp1d (N := SFNum) tab edges (nhead (N := SFNum) edges) (nlast (N := SFNum) edges) q).
  Proof.
    unfold interp1d. assert (Lt : nlast (N := SFNum) tab = nth n tab zero64) by (unfold nlast; rewrite last_nth', tab_len; reflexivity). assert (Ht : nhead (N := SFNum) tab = nth 0 tab zero64) by (destruct tab; reflexivity).
    pose proof v_npos as Np. destruct (tab64 0 ltac:(lia)) as [F0 V0]. destruct (tab64 n ltac:(lia)) as [Fn Vn].
    assert (Le : nlast (N := SFNum) edges = nth n edges zero64) by exact (last_e edges). assert (Hd : nhead (N := SFNum) edges = nth 0 edges zero64) by (destruct edges; reflexivity). assert (Fe : forall i, (i <= n)%nat -> fin64 (nth i edges zero64)) by (intros i Hi; apply (fin_e edges He i Hi)).
    rewrite Lt, Ht, !ltb64 by assumption. rewrite V0, Vn. fold v.
    destruct (nltb (N := RNum) v (y 0%nat)) eqn:E.
    { apply nltb_R_true in E. rewrite Hd. split; [apply Fe; lia|]. left. split; [exact E|reflexivity]. }
    assert (H0 : y 0%nat <= v) by (destruct (Rle_lt_dec (y 0%nat) v) as [L|L]; [exact L|apply nltb_R_true in L; congruence]). clear E.
    destruct (nltb (N := RNum) (y n) v) eqn:E.
    { apply nltb_R_true in E. rewrite Le. split; [apply Fe; lia|]. right. right. split; [lra|reflexivity]. }
    assert (Hv : v <= y n) by (destruct (Rle_lt_dec v (y n)) as [L|L]; [exact L|apply nltb_R_true in L; congruence]). clear E.
    rewrite search_r64 by (try exact Fq; apply v_fins). fold v. set (j := searchsorted_right (N := RNum) (map val64 tab) v).
    pose proof (ssr_le (map val64 tab) v) as L. rewrite map_length, tab_len in L. fold j in L. rewrite tab_len. cbn [pred].
    assert (J1 : (1 <= j)%nat). { destruct j eqn:Ej; [|lia]. pose proof (ssr_at (map val64 tab) v) as B. fold j in B. rewrite map_length, tab_len, Ej in B. specialize (B ltac:(lia)). rewrite v_nth0 in B by lia. lra. }
    pose proof (ssr_below (map val64 tab) v (pred j) ltac:(fold j; lia)) as B. rewrite v_nth0 in B by lia.
    destruct (Nat.eqb_spec (pred j) n) as [En|En].
    - rewrite En in *. change (nth0 (N := SFNum) n edges) with (nth n edges zero64). split; [apply Fe; lia|]. right. right. split; [exact B|reflexivity].
    - set (k := pred j) in *. assert (Ej : j = S k) by (unfold k; lia). assert (Hk : (k < n)%nat) by lia.
      pose proof (ssr_at (map val64 tab) v) as C. fold j in C. rewrite map_length, tab_len in C. specialize (C ltac:(lia)). rewrite Ej, v_nth0 in C by lia.
      change (nth0 (N := SFNum) k edges) with (nth k edges zero64). change (nth0 (N := SFNum) (S k) edges) with (nth (S k) edges zero64). change (nth0 (N := SFNum) k tab) with (nth k tab zero64). change (nth0 (N := SFNum) (S k) tab) with (nth (S k) tab zero64).
      destruct (tab64 k ltac:(lia)) as [Fk Vk]. destruct (neqb (N := SFNum) (nth k tab zero64) q) eqn:Q.
      + split; [apply Fe; lia|]. right. left. exists k. split; [exact Hk|]. split; [lra|]. unfold neqb in Q. cbn [nleb SFNum] in Q. rewrite !leb64 in Q by assumption. apply andb_true_iff in Q. destruct Q as [Q1 Q2]. apply Rleb_true in Q1, Q2. rewrite Vk in Q1, Q2. fold v in Q1, Q2.
        assert (Ev : v = y k) by lra. rewrite Ev. symmetry. apply seg_at. apply v_edbl. lia.
      + destruct (v_seg64 k Hk ltac:(lra)) as [Fz Vz]. split; [exact Fz|]. right. left. exists k. split; [exact Hk|]. split; [lra|exact Vz].
  Qed.

End Inverse.

Lemma level_order edges y q q' z z' : good_edges edges -> (forall k, dbl (y k)) -> (forall k, (k < pred (length edges))%nat -> 0 <= y k <= y (S k)) -> (forall k, (k <= pred (length edges))%nat -> y k <= 3) ->
  (forall k, (k <= pred (length edges))%nat -> y k = 0 \/ bpow radix2 (-551) <= y k) -> fin64 q -> fin64 q' -> val64 q <= val64 q' ->
  level edges y q z -> level edges y q' z' -> val64 z <= val64 z' + reach edges / 2 ^ 49.
Proof.
  intros He Yd Yi Yh Yv Fq Fq' Hle [_ Hz] [_ Hz']. assert (M0 : 0 <= reach edges / 2 ^ 49) by (apply Rmult_le_pos; [apply (M_pos edges He)|apply Rlt_le, Rinv_0_lt_compat, pow_lt; lra]).
  pose proof (n_pos edges He) as Np. set (n := pred (length edges)) in *.
  assert (Up : forall i j, (i <= j <= n)%nat -> y i <= y j) by (intros i j [H1 H2]; induction H1; [lra|]; specialize (IHle ltac:(lia)); pose proof (Yi m ltac:(lia)); lra).
  assert (Lo : val64 (nth 0 edges zero64) <= val64 z').
  { destruct Hz' as [(_ & ->)|[(k & C)|(_ & ->)]]; [lra| |apply (e_inc edges He 0 n); fold n; lia]. pose proof C as (Hk & _). fold n in Hk. destruct (v_near edges y He Yd Yi Yh Yv q' Fq' z' k C) as [_ N2]. pose proof (e_inc edges He 0 k ltac:(fold n; lia)) as I. cbv beta in I. lra. }
  destruct Hz as [(Hv & ->)|[(k & C)|(Hv & Ez)]]; [lra| |].
  - pose proof C as (Hk & Hv & Ez). fold n in Hk. destruct (v_near edges y He Yd Yi Yh Yv q Fq z k C) as [N1 _]. pose proof (v_hit edges y He q k Hk Hv) as H.
    destruct Hz' as [(Hv' & Ez')|[(k' & C')|(Hv' & Ez')]].
    + pose proof (Up 0%nat k ltac:(lia)). lra.
    + destruct (v_near edges y He Yd Yi Yh Yv q' Fq' z' k' C') as [_ N2]. pose proof C' as (Hk' & Hv' & Ez'). fold n in Hk'. destruct (Nat.lt_trichotomy k k') as [L|[L|L]].
      * pose proof (e_inc edges He (S k) k' ltac:(fold n; lia)) as I. cbv beta in I. apply Rabs_le_inv in N1. lra.
      * subst k'. rewrite Ez, Ez'. assert (G : / 2 ^ 610 <= y (S k) - y k <= 3) by (apply (v_gap edges y); try assumption; lra).
        pose proof (pseg_mono (y k) (y (S k)) _ _ G (dW edges He k Hk) _ _ Hle) as P. cbv beta in P. lra.
      * exfalso. pose proof (Up (S k') k ltac:(lia)). lra.
    + pose proof (e_inc edges He (S k) n ltac:(fold n; lia)) as I. cbv beta in I. rewrite Ez'. fold n. apply Rabs_le_inv in N1. lra.
  - destruct Hz' as [(Hv' & Ez')|[(k' & C')|(Hv' & Ez')]].
    + pose proof (Up 0%nat n ltac:(lia)). fold n in Hv. lra.
    + exfalso. pose proof C' as (Hk' & Hv' & Ez'). fold n in Hk'. pose proof (Up (S k') n ltac:(lia)). fold n in Hv. lra.
    + rewrite Ez, Ez'. lra.
Qed.

(** ** Tables without tiny entries *)
Lemma rsum_zero_each k f : (forall i, (i < k)%nat -> 0 <= f i) -> rsum k f = 0 -> forall i, (i < k)%nat -> f i = 0.
Proof.
  induction k as [|k IH]; intros H E i Hi; [lia|]. cbn [rsum] in E. assert (P : 0 <= rsum k f) by (clear - H; induction k as [|k IH]; [simpl; lra|]; cbn [rsum]; pose proof (H k ltac:(lia)); assert (0 <= rsum k f) by (apply IH; intros; apply H; lia); lra).
  pose proof (H k ltac:(lia)). destruct (Nat.eq_dec i k) as [->|]; [lra|]. apply IH; [intros; apply H; lia|lra|lia].
Qed.
Section Heavy.
  Variables (n : nat) (y X : nat -> R).
  Hypothesis Hn : (1 <= n)%nat.
  Hypothesis HN : INR n <= 2 ^ 40.
  Hypothesis DX : forall i, (i <= n)%nat -> dbl (X i).
  Hypothesis HX : forall i, (i < n)%nat -> / 2 ^ 1000 <= X (S i) - X i.
  Hypothesis Dy : forall i, (i <= n)%nat -> dbl (y i).
  Hypothesis Hy : forall i, (i <= n)%nat -> 0 <= y i.
  Hypothesis Hy0 : y 0%nat = 0 \/ / 2 ^ 1020 <= y 0%nat.
  Hypothesis Hmass : / 2 ^ 500 <= cum y X n.
  Hypothesis Htot : X n - X 0%nat <= 2 ^ 202.
  Lemma y_wid i : (i < n)%nat -> 0 < width X i.
  Proof. intros H. pose proof (HX i H). pose proof inv1000. unfold width. lra. Qed.
  Lemma cum_zero k : (k <= n)%nat -> cum y X k = 0 -> forall i, (i <= k)%nat -> y i = 0.
  Proof.
    intros Hk E. destruct k as [|k].
    - intros i Hi. replace i with 0%nat by lia. cbn [cum] in E. pose proof (y_wid 0 ltac:(lia)). apply Rmult_integral in E. destruct E; lra.
    - change (rsum (S k) (trap y X) = 0) in E. assert (Tn : forall i, (i < S k)%nat -> 0 <= trap y X i) by (intros i Hi; unfold trap; pose proof (y_wid i ltac:(lia)); pose proof (Hy i ltac:(lia)); pose proof (Hy (S i) ltac:(lia)); apply Rmult_le_pos; lra).
      assert (Z : forall i, (i < S k)%nat -> y i = 0 /\ y (S i) = 0).
      { intros i Hi. pose proof (rsum_zero_each (S k) _ Tn E i Hi) as T. unfold trap in T. pose proof (y_wid i ltac:(lia)). pose proof (Hy i ltac:(lia)). pose proof (Hy (S i) ltac:(lia)). apply Rmult_integral in T. destruct T; lra. }
      intros i Hi. destruct (Nat.eq_dec i (S k)) as [->|]; [apply (Z k); lia|apply (Z i); lia].
  Qed.
  Lemma zero_cum (z : nat -> R) k : (forall i, (i <= k)%nat -> z i = 0) -> cum z X k = 0.
  Proof.
    intros Z. destruct k as [|k]; cbn [cum]; [rewrite (Z 0%nat) by lia; unfold Rdiv; ring|]. change (rsum (S k) (trap z X) = 0). rewrite (rsum_ext' (S k) _ (fun _ => 0)); [clear; induction (S k) as [|m IH]; simpl; [reflexivity|rewrite IH; ring]|].
    intros i Hi. unfold trap. rewrite (Z i), (Z (S i)) by lia. unfold Rdiv. ring.
  Qed.
  Lemma zero_cum64 k : (forall i, (i <= k)%nat -> y i = 0) -> cum64 y X k = 0.
  Proof.
    intros Z. destruct k as [|k].
    - change (first64 y X = 0). unfold first64. rewrite (Z 0%nat) by lia. rewrite Rmult_0_r, rd_0, Rmult_0_l, rd_0. reflexivity.
    - change (sums (trap64 y X) (S k) = 0). assert (T : forall i, (i < S k)%nat -> trap64 y X i = 0) by (intros i Hi; unfold trap64; rewrite (Z i), (Z (S i)) by lia; rewrite Rplus_0_r, rd_0, Rmult_0_r, rd_0; reflexivity).
      clear Z. induction (S k) as [|m IH]; [reflexivity|]. change (rd (sums (trap64 y X) m + trap64 y X m) = 0). rewrite IH, T by (intros; try apply T; lia). rewrite Rplus_0_r. apply rd_0.
  Qed.
  Lemma heavy_table k : (k <= n)%nat -> cum y X k = 0 \/ / 2 ^ 504 * cum y X n <= cum y X k -> table64 n y X k = 0 \/ bpow radix2 (-551) <= table64 n y X k.
  Proof.
    intros Hk [Z|H].
    - left. unfold table64. rewrite (zero_cum64 k (cum_zero k Hk Z)). unfold Rdiv. rewrite Rmult_0_l. apply rd_0.
    - right. assert (E : Rabs (cum64 y X k - cum y X k) <= theta n * cum y X k + delta) by (apply cum_err; assumption). assert (Th : 3 / 2 ^ 52 <= theta n <= / 2 ^ 11) by (apply theta_bounds; assumption).
      assert (Tn : 0 < cum64 y X n /\ Rabs (cum64 y X n - cum y X n) <= / 2 ^ 10 * cum y X n) by (apply total_near; assumption). destruct Tn as [P En].
      assert (C0 : / 2 ^ 1004 <= cum y X k). { eapply Rle_trans; [|exact H]. replace 1004%nat with (504 + 500)%nat by lia. rewrite pow_add, Rinv_mult. apply Rmult_le_compat_l; [apply Rlt_le, Rinv_0_lt_compat, pow_lt; lra|exact Hmass]. }
      assert (D : delta <= / 4 * cum y X k).
      { apply Rle_trans with (/ 4 * / 2 ^ 1004); [|apply Rmult_le_compat_l; lra]. unfold delta. apply Rle_trans with (2 ^ 42 * / 2 ^ 1050); [apply Rmult_le_compat_l; [apply pow_le; lra|apply tiny_le; lia]|].
        replace 1050%nat with (42 + 2 + 1004 + 2)%nat by lia. rewrite !pow_add. rewrite !Rinv_mult. assert (0 < / 2 ^ 1004) by (apply Rinv_0_lt_compat, pow_lt; lra). set (zz := / 2 ^ 1004) in *. simpl (2 ^ 42). simpl (2 ^ 2). lra. }
      assert (C1 : 0 < cum y X k) by (eapply Rlt_le_trans; [|exact C0]; apply Rinv_0_lt_compat, pow_lt; lra).
      assert (L : / 2 * cum y X k <= cum64 y X k). { assert (theta n * cum y X k <= / 2 ^ 11 * cum y X k) by (apply Rmult_le_compat_r; lra). apply Rabs_le_inv in E. simpl (2 ^ 11) in *. lra. }
      assert (N0 : 0 < cum y X n) by (eapply Rlt_le_trans; [|exact Hmass]; apply Rinv_0_lt_compat, pow_lt; lra).
      assert (U : cum64 y X n <= 2 * cum y X n) by (apply Rabs_le_inv in En; simpl (2 ^ 10) in En; lra).
      unfold table64. rewrite <- (rd_id (bpow radix2 (-551))) by (apply dbl_bpow; lia). apply rd_mono. apply Rmult_le_reg_r with (cum64 y X n); [exact P|]. replace (cum64 y X k / cum64 y X n * cum64 y X n) with (cum64 y X k) by (field; lra).
      apply Rle_trans with (/ 2 * (/ 2 ^ 504 * cum y X n)); [|lra]. apply Rle_trans with (bpow radix2 (-551) * (2 * cum y X n)); [apply Rmult_le_compat_l; [apply bpow_ge_0|exact U]|].
      assert (B : bpow radix2 (-551) <= / 4 * / 2 ^ 504) by (replace (/ 4 * / 2 ^ 504) with (bpow radix2 (-506)); [apply bpow_le; lia|change (-506)%Z with (- Z.of_nat 504 + -2)%Z; rewrite bpow_plus, bpow_opp, <- pow_bpow; simpl (bpow radix2 (-2)); lra]).
      assert (bpow radix2 (-551) * (2 * cum y X n) <= / 4 * / 2 ^ 504 * (2 * cum y X n)) by (apply Rmult_le_compat_r; lra). lra.
  Qed.
  Lemma heavy_again k : (k <= n)%nat -> cum y X k = 0 \/ / 2 ^ 500 * cum y X n <= cum y X k ->
    cum (stored64 n y X) X k = 0 \/ / 2 ^ 504 * cum (stored64 n y X) X n <= cum (stored64 n y X) X k.
  Proof.
    intros Hk [Z|H].
    - left. apply zero_cum. intros i Hi. unfold stored64. rewrite (cum_zero k Hk Z i Hi). unfold Rdiv. rewrite Rmult_0_l. apply rd_0.
    - right. set (s := cum64 y X n). assert (E : Rabs (cum (stored64 n y X) X k - cum y X k / s) <= / 2 ^ 53 * (cum y X k / s) + tiny * 2 ^ 202) by (apply cum_scaled; assumption).
      assert (B : 99 / 100 <= cum y X n / s <= 101 / 100) by (apply scaled_bounds; assumption). assert (Ar : Rabs (cum (stored64 n y X) X n - 1) <= (INR n + 3) / 2 ^ 51) by (apply stored_area; assumption).
      assert (P : 0 < s) by (apply total_near; assumption).
      assert (L : / 2 ^ 500 * (99 / 100) <= cum y X k / s). { apply Rle_trans with (/ 2 ^ 500 * (cum y X n / s)); [apply Rmult_le_compat_l; [apply Rlt_le, Rinv_0_lt_compat, pow_lt; lra|apply B]|]. unfold Rdiv. rewrite <- Rmult_assoc. apply Rmult_le_compat_r; [apply Rlt_le, Rinv_0_lt_compat, P|exact H]. }
      assert (U : cum (stored64 n y X) X n <= 2) by (apply Rabs_le_inv in Ar; simpl (2 ^ 40) in HN; simpl (2 ^ 51) in Ar; lra).
      assert (T : tiny * 2 ^ 202 <= / 2 ^ 504).
      { apply Rle_trans with (/ 2 ^ 706 * 2 ^ 202); [apply Rmult_le_compat_r; [apply pow_le; lra|apply tiny_le; lia]|]. right. replace 706%nat with (504 + 202)%nat by lia. rewrite pow_add. field; split; apply pow_nonzero; lra. }
      assert (T0 : 0 < / 2 ^ 504) by (apply Rinv_0_lt_compat, pow_lt; lra). assert (E5 : / 2 ^ 500 = 16 * / 2 ^ 504) by (replace 504%nat with (500 + 4)%nat by lia; rewrite pow_add, Rinv_mult; simpl (2 ^ 4); lra). rewrite E5 in L.
      set (c := cum y X k / s) in *. set (zz := / 2 ^ 504) in *. assert (zz * cum (stored64 n y X) X n <= zz * 2) by (apply Rmult_le_compat_l; lra). apply Rabs_le_inv in E. simpl (2 ^ 53) in E. lra.
  Qed.
End Heavy.

(** ** The ensemble *)
Section Made.
  Variables (xs : list spec_float) (rows : list (list spec_float)) (chk : bool) (i : interp spec_float).
  Hypothesis Hg : good_grid xs.
  Hypothesis Hne : rows <> [].
  Hypothesis Hr : forall row, In row rows -> good_values xs row /\ no_tiny_part xs row.
  Hypothesis Hi : interp_ctor (N := SFNum) xs (nd2 (length xs) rows) chk = Ok i.
  Let Hr' := fun row H => proj1 (Hr row H).
  Lemma q_answers q : double q -> 0 < val64 q < 1 -> answers (interp_ens_ppf (N := SFNum) i (PScalar q)) (length rows) (ippf_point (N := SFNum) q i).
  Proof.
    intros Hq H. unfold answers. rewrite <- (e_npdf xs rows chk i Hg Hr' Hi). apply interp_ppf_scalar; [|apply in_unit; assumption|rewrite (e_npdf xs rows chk i Hg Hr' Hi); clear - Hne; destruct rows; [congruence|simpl; lia]].
    cbn [nleb SFNum]. rewrite leb64 by (apply double_moderate, Hq). apply Rleb_true. lra.
  Qed.
  Variable r : nat.
  Hypothesis Hl : (r < length rows)%nat.
  Let row := nth r rows [].
  Let g := values_for xs chk row.
  Let n := pred (length xs).
  Let T := table64 n (fun i => val64 (nth i g zero64)) (fun i => val64 (nth i xs zero64)).
  Lemma q_ready : ready xs g. Proof. exact (e_ready xs rows chk Hg Hr' r Hl). Qed.
  Lemma q_dbl' k : dbl (T k). Proof. apply table64_dbl. Qed.
  Lemma q_inc k : (k < n)%nat -> 0 <= T k <= T (S k). Proof. exact (w_inc xs g Hg q_ready k). Qed.
  Lemma q_high k : (k <= n)%nat -> T k <= 3. Proof. exact (w_high3 xs g Hg q_ready k). Qed.
  Lemma q_last : T n = 1.
  Proof. destruct q_ready as (L & V & F & M). apply table64_last; row_side xs g Hg V F M. Qed.
  Lemma q_given k : (k <= n)%nat -> cum (fun i => val64 (nth i g zero64)) (fun i => val64 (nth i xs zero64)) k = 0 \/
    / 2 ^ 504 * cum (fun i => val64 (nth i g zero64)) (fun i => val64 (nth i xs zero64)) n <= cum (fun i => val64 (nth i g zero64)) (fun i => val64 (nth i xs zero64)) k.
  Proof.
    intros Hk. destruct (Hr row (nth_In rows [] Hl)) as [Gv Nt]. pose proof (m_len xs Hg) as Le. fold n in Le. pose proof (Nt k ltac:(rewrite Le; lia)) as H. rewrite cells_to_cum, (all_cells_cum xs row Hg) in H. fold n in H.
    destruct (g_ready xs row Hg Gv) as (L & V & F & M). unfold g, values_for. destruct chk.
    - pose proof (m_n xs Hg) as N1. fold n in N1. assert (Q : forall j, (j <= n)%nat -> val64 (nth j (norm_row xs row) zero64) = stored64 n (fun i => val64 (nth i row zero64)) (fun i => val64 (nth i xs zero64)) j).
      { intros j Hj. apply (norm_vals xs Hg row (g_ready xs row Hg Gv)); [|exact Hj]. intros m Hm. eapply Rle_trans; [apply (g_small xs row Hg Gv m Hm)|]. apply bpow_le. lia. }
      rewrite !(cum_ext _ _ _ n _ N1 Hk Q), (cum_ext _ _ _ n n N1 (le_n n) Q). apply heavy_again; row_side xs row Hg V F M.
    - destruct H as [Z|H]; [left; exact Z|right]. eapply Rle_trans; [|exact H]. apply Rmult_le_compat_r; [|apply half_pow; lia].
      change (0 <= cum (fun i => val64 (nth i row zero64)) (fun i => val64 (nth i xs zero64)) (pred (length xs))). rewrite <- (all_cells_cum xs row Hg). eapply Rle_trans; [|exact M]. apply Rlt_le, Rinv_0_lt_compat, pow_lt; lra.
  Qed.
  Lemma q_heavy k : (k <= n)%nat -> T k = 0 \/ bpow radix2 (-551) <= T k.
  Proof. intros Hk. destruct q_ready as (L & V & F & M). apply heavy_table; try (apply q_given; exact Hk); row_side xs g Hg V F M. Qed.
  Lemma q_tab k : (k <= n)%nat -> fin64 (nth k (table_row xs g) zero64) /\ val64 (nth k (table_row xs g) zero64) = T k. Proof. exact (w_tab xs g Hg q_ready k). Qed.
  Lemma q_len : length (table_row xs g) = S n.
  Proof. destruct q_ready as (L & V & F & M). unfold table_row. rewrite map_length. apply cumul_len; assumption. Qed.
  Lemma q_level q : double q -> 0 < val64 q -> level xs T q (ippf_point (N := SFNum) q i r).
  Proof.
    intros Hq H. unfold ippf_point. destruct (e_parts xs rows chk i Hg Hr' Hi) as (-> & _ & _). rewrite (e_tab xs rows chk i Hg Hr' Hi r Hl). fold row g.
    apply v_look; try assumption; [exact (proj1 Hg)|exact q_dbl'|exact q_inc|exact q_high|exact q_heavy|apply double_moderate, Hq|exact q_tab|exact q_len].
  Qed.
  Lemma q_near k : (k <= n)%nat -> Rabs (T k - cells_to xs row k / all_cells xs row) <= (501 / 500 * (INR n + 2) + 10) / 2 ^ 51.
  Proof.
    intros Hk. pose proof (w_err xs g Hg q_ready k Hk) as E1. fold n T in E1. pose proof (v_same xs row chk Hg (Hr' row (nth_In rows [] Hl)) k Hk) as E2. fold g in E2. apply Rabs_le_inv in E1, E2. apply Rabs_le. simpl (2 ^ 51) in *. lra.
  Qed.
End Made.

Lemma c145_ppf : forall xs rows chk i q, good_grid xs -> rows <> [] -> (forall row, In row rows -> good_values xs row /\ no_tiny_part xs row) ->
  interp_ctor (N := SFNum) xs (nd2 (length xs) rows) chk = Ok i -> double q -> 0 < val64 q < 1 ->
  exists v, answers (interp_ens_ppf (N := SFNum) i (PScalar q)) (length rows) v /\
    forall r, (r < length rows)%nat ->
      fin64 (v r) /\ first_edge xs <= val64 (v r) <= last_edge xs + reach xs / 2 ^ 49 /\
      exists k x, (S k < length xs)%nat /\ val64 (nth k xs zero64) <= x <= val64 (nth (S k) xs zero64) /\ Rabs (val64 (v r) - x) <= reach xs / 2 ^ 49 /\
        Rabs (share_in xs (nth r rows []) k x - Rmax (val64 q) (cells_to xs (nth r rows []) 0 / all_cells xs (nth r rows []))) <= INR (3 * length xs + 22) / 2 ^ 51.
Proof.
  intros xs rows chk i q Hg Hne Hr Hi Hq H. exists (ippf_point (N := SFNum) q i). split; [apply (q_answers xs rows chk i Hg Hne Hr Hi q Hq H)|]. intros r Hl.
  pose proof (q_level xs rows chk i Hg Hr Hi r Hl q Hq (proj1 H)) as Lv. pose proof (q_near xs rows chk Hg Hr r Hl) as Nr.
  pose proof (q_inc xs rows chk Hg Hr r Hl) as Ti. pose proof (q_high xs rows chk Hg Hr r Hl) as Th. pose proof (q_heavy xs rows chk i Hg Hr Hi r Hl) as Tv. pose proof (q_last xs rows chk Hg Hr r Hl) as T1.
  set (row := nth r rows []) in *. set (g := values_for xs chk row) in *. pose proof (m_len xs Hg) as Le. pose proof (m_n xs Hg) as N1. set (n := pred (length xs)) in *.
  assert (Td : forall k, dbl (table64 n (fun i => val64 (nth i g zero64)) (fun i => val64 (nth i xs zero64)) k)) by (intros; apply table64_dbl). set (T := table64 _ _ _) in *.
  split; [apply Lv|]. destruct (v_found xs T (proj1 Hg) Td Ti Th Tv q (proj1 (double_moderate _ Hq)) _ Lv T1 (proj2 H)) as (k & x & Hk & Hx & Hz & Lo & Eq). fold n in Hk. cbv beta in Hx, Lo, Eq.
  pose proof (e_inc xs (proj1 Hg) (S k) n ltac:(fold n; lia)) as Iu. cbv beta in Iu. change (val64 (nth n xs zero64)) with (last_edge xs) in Iu. split; [split; [exact Lo|]; apply Rabs_le_inv in Hz; lra|].
  exists k, x. split; [rewrite Le; lia|]. split; [exact Hx|]. split; [exact Hz|].
  assert (q01 : 0 <= (x - val64 (nth k xs zero64)) / (val64 (nth (S k) xs zero64) - val64 (nth k xs zero64)) <= 1) by (apply (lam _ _ (dW xs (proj1 Hg) k Hk) x Hx)).
  unfold share_in. set (l := (x - _) / _) in *. pose proof (Nr k ltac:(lia)) as M0. pose proof (Nr (S k) Hk) as M1. pose proof (Nr 0%nat ltac:(lia)) as Mz. set (a := cells_to xs row k / all_cells xs row) in *. set (b := cells_to xs row (S k) / all_cells xs row) in *. set (a0 := cells_to xs row 0 / all_cells xs row) in *.
  replace ((cells_to xs row k + (cells_to xs row (S k) - cells_to xs row k) * l) / all_cells xs row) with (a + (b - a) * l) by (unfold a, b, Rdiv; ring).
  set (d := (501 / 500 * (INR n + 2) + 10) / 2 ^ 51) in *.
  assert (F : Rabs (a + (b - a) * l - Rmax (val64 q) (T 0%nat)) <= d).
  { rewrite <- Eq. replace (a + (b - a) * l - (T k + (T (S k) - T k) * l)) with (- ((1 - l) * (T k - a) + l * (T (S k) - b))) by ring. rewrite Rabs_Ropp. eapply Rle_trans; [apply Rabs_triang|]. rewrite !Rabs_mult, (Rabs_pos_eq (1 - l)), (Rabs_pos_eq l) by lra.
    assert ((1 - l) * Rabs (T k - a) <= (1 - l) * d) by (apply Rmult_le_compat_l; lra). assert (l * Rabs (T (S k) - b) <= l * d) by (apply Rmult_le_compat_l; lra). lra. }
  assert (G : Rabs (Rmax (val64 q) (T 0%nat) - Rmax (val64 q) a0) <= d) by (apply Rabs_le_inv in Mz; unfold Rmax; destruct (Rle_dec (val64 q) (T 0%nat)), (Rle_dec (val64 q) a0); apply Rabs_le; lra).
  replace (INR (3 * length xs + 22)) with (3 * INR n + 25) by (rewrite Le; replace (3 * S n + 22)%nat with (3 * n + 25)%nat by lia; rewrite plus_INR, mult_INR; replace (INR 25) with 25 by (simpl; lra); replace (INR 3) with 3 by (simpl; lra); ring).
  pose proof (le_INR 1 n N1) as N1'. simpl (INR 1) in N1'. apply Rabs_le_inv in F, G. assert (D2 : 2 * d <= (3 * INR n + 25) / 2 ^ 51) by (unfold d; simpl (2 ^ 51); lra). apply Rabs_le. lra.
Qed.

(** Larger levels give no smaller answers, up to the rounding of one interpolation. *)
Lemma c145_order : forall xs rows chk i q q' v v' r, good_grid xs -> rows <> [] -> (forall row, In row rows -> good_values xs row /\ no_tiny_part xs row) ->
  interp_ctor (N := SFNum) xs (nd2 (length xs) rows) chk = Ok i -> double q -> double q' -> 0 < val64 q -> val64 q <= val64 q' -> val64 q' < 1 ->
  answers (interp_ens_ppf (N := SFNum) i (PScalar q)) (length rows) v -> answers (interp_ens_ppf (N := SFNum) i (PScalar q')) (length rows) v' -> (r < length rows)%nat ->
  val64 (v r) <= val64 (v' r) + reach xs / 2 ^ 49.
Proof.
  intros xs rows chk i q q' v v' r Hg Hne Hr Hi Hq Hq' H0 H1 H2 A A' Hl. rewrite (answers_inj _ _ _ _ A (q_answers xs rows chk i Hg Hne Hr Hi q Hq ltac:(lra)) r Hl), (answers_inj _ _ _ _ A' (q_answers xs rows chk i Hg Hne Hr Hi q' Hq' ltac:(lra)) r Hl).
  eapply level_order; [exact (proj1 Hg)| | | | | | |exact H1|apply (q_level xs rows chk i Hg Hr Hi r Hl q Hq H0)|apply (q_level xs rows chk i Hg Hr Hi r Hl q' Hq'); lra].
  - intros; apply table64_dbl.
  - exact (q_inc xs rows chk Hg Hr r Hl).
  - exact (q_high xs rows chk Hg Hr r Hl).
  - exact (q_heavy xs rows chk i Hg Hr Hi r Hl).
  - apply double_moderate, Hq.
  - apply double_moderate, Hq'.
Qed.

(** The answer of a PDF does not depend on the other PDFs, to the last bit. *)
Lemma c145_alone : forall xs rows chk i j q v w r, good_grid xs -> (forall row, In row rows -> good_values xs row /\ no_tiny_part xs row) -> (r < length rows)%nat ->
  interp_ctor (N := SFNum) xs (nd2 (length xs) rows) chk = Ok i -> interp_ctor (N := SFNum) xs (nd2 (length xs) [nth r rows []]) chk = Ok j -> double q -> 0 < val64 q < 1 ->
  answers (interp_ens_ppf (N := SFNum) i (PScalar q)) (length rows) v -> answers (interp_ens_ppf (N := SFNum) j (PScalar q)) 1 w -> v r = w 0%nat.
Proof.
  intros xs rows chk i j q v w r Hg Hr Hl Hi Hj Hq H A B. assert (Hne : rows <> []) by (destruct rows; [simpl in Hl; lia|discriminate]).
  assert (Hr1 : forall row, In row [nth r rows []] -> good_values xs row /\ no_tiny_part xs row) by (intros row [<-|[]]; apply Hr, nth_In, Hl).
  rewrite (answers_inj _ _ _ _ A (q_answers xs rows chk i Hg Hne Hr Hi q Hq H) r Hl), (answers_inj _ _ _ _ B (q_answers xs [nth r rows []] chk j Hg ltac:(discriminate) Hr1 Hj q Hq H) 0%nat ltac:(simpl; lia)).
  unfold ippf_point. rewrite (e_tab xs rows chk i Hg (fun row K => proj1 (Hr row K)) Hi r Hl), (e_tab xs [nth r rows []] chk j Hg (fun row K => proj1 (Hr1 row K)) Hj 0%nat ltac:(simpl; lia)).
  destruct (e_parts xs rows chk i Hg (fun row K => proj1 (Hr row K)) Hi) as (-> & _ & _). destruct (e_parts xs [nth r rows []] chk j Hg (fun row K => proj1 (Hr1 row K)) Hj) as (-> & _ & _). reflexivity.
Qed.

(** The answer can lie beyond the last grid point: grid -3, -2, 9 and values 5, 1, 0 give ppf(1 - 2^-53) = 9 + 2^-49. *)
Definition b_grid : list spec_float := map (fun z => SpecFloat.binary_normalize 53 1024 z 0 false) [-3; -2; 9]%Z.
Definition b_row : list spec_float := map (fun z => SpecFloat.binary_normalize 53 1024 z 0 false) [5; 1; 0]%Z.
Lemma b_grid_is : b_grid = [SFopp (f64 6755399441055744 (-51)); SFopp (f64 4503599627370496 (-51)); f64 5066549580791808 (-49)]. Proof. vm_compute. reflexivity. Qed.
Lemma b_row_is : b_row = [f64 5629499534213120 (-50); f64 4503599627370496 (-52); S754_zero false]. Proof. vm_compute. reflexivity. Qed.
Lemma c145_beyond : exists i q v, interp_ctor (N := SFNum) b_grid (nd2 3 [b_row]) true = Ok i /\ double q /\ 0 < val64 q < 1 /\
  answers (interp_ens_ppf (N := SFNum) i (PScalar q)) 1 v /\ last_edge b_grid < val64 (v 0%nat).
Proof.
  eexists. exists (f64 9007199254740991 (-53)), (fun _ => f64 5066549580791809 (-49)). split; [vm_compute; reflexivity|].
  assert (B : double (f64 9007199254740991 (-53)) /\ 0 <= val64 (f64 9007199254740991 (-53))) by (destruct (modest_f64_8 9007199254740991 (-53) eq_refl ltac:(simpl bpow; lra)) as [[D _] P]; split; assumption).
  split; [apply B|]. split; [rewrite val_f64; simpl bpow; lra|]. split; [vm_compute; reflexivity|].
  rewrite b_grid_is. unfold last_edge. cbn [length pred nth]. rewrite !val_f64. simpl bpow. lra.
Qed.
Lemma b_vals : val64 (SFopp (f64 6755399441055744 (-51))) = -3 /\ val64 (SFopp (f64 4503599627370496 (-51))) = -2 /\ val64 (f64 5066549580791808 (-49)) = 9 /\ val64 (f64 5629499534213120 (-50)) = 5 /\ val64 (f64 4503599627370496 (-52)) = 1.
Proof.
  rewrite (proj2 (opp64 (f64 6755399441055744 (-51)) (conj eq_refl eq_refl))), (proj2 (opp64 (f64 4503599627370496 (-51)) (conj eq_refl eq_refl))), !val_f64. simpl bpow. repeat split; lra.
Qed.
Example c145_example : good_grid b_grid /\ good_values b_grid b_row /\ no_tiny_part b_grid b_row /\ first_edge b_grid = -3 /\ last_edge b_grid = 9 /\ reach b_grid = 9 /\
  cells_to b_grid b_row 0 / all_cells b_grid b_row = 5 / 17 /\ share_in b_grid b_row 1 9 = 1.
Proof.
  rewrite b_grid_is, b_row_is. destruct b_vals as (V3 & V2 & V9 & V5 & V1).
  assert (P16 : forall k, (4 <= k)%nat -> 16 <= 2 ^ k) by (intros k Hk; replace k with (4 + (k - 4))%nat by lia; rewrite pow_add; pose proof (pow_R1_Rle 2 (k - 4) ltac:(lra)); simpl (2 ^ 4); lra).
  pose proof (P16 400%nat ltac:(lia)) as P4. pose proof (P16 200%nat ltac:(lia)) as P2. pose proof (half_le 1000 ltac:(lia)) as H10. pose proof (half_le 500 ltac:(lia)) as H5. pose proof (half_pow 5 500 ltac:(lia)) as H6. simpl (2 ^ 5) in H6.
  set (xs := [SFopp (f64 6755399441055744 (-51)); SFopp (f64 4503599627370496 (-51)); f64 5066549580791808 (-49)]). set (ys := [f64 5629499534213120 (-50); f64 4503599627370496 (-52); S754_zero false]).
  assert (C0 : cells_to xs ys 0 = 5 / 2) by (unfold cells_to, xs, ys; cbn [nth]; rewrite V3, V2, V5; lra).
  assert (C1 : cells_to xs ys 1 = 3) by (unfold cells_to, cell, xs, ys; cbn [nth rsum]; rewrite V3, V2, V5, V1; lra).
  assert (C2 : cells_to xs ys 2 = 17 / 2) by (unfold cells_to, cell, xs, ys; cbn [nth rsum]; rewrite V3, V2, V5, V1, V9; change (val64 (S754_zero false)) with 0; lra).
  assert (Ca : all_cells xs ys = 17 / 2) by (rewrite <- C2; reflexivity).
  split; [|split; [|split]].
  - split; [split; [simpl; lia|]; split; [simpl; lra|]; split|].
    + intros b Hb. cbn [In xs] in Hb. destruct Hb as [<-|[<-|[<-|[]]]]; (split; [split; [reflexivity|]|]); rewrite ?V3, ?V2, ?V9; apply Rabs_le; lra.
    + intros j Hj. cbn [length xs] in Hj. unfold xs. destruct j as [|[|j]]; [| |lia]; cbn [nth]; rewrite ?V3, ?V2, ?V9; lra.
    + intros b Hb. cbn [In xs] in Hb. destruct Hb as [<-|[<-|[<-|[]]]]; rewrite ?V3, ?V2, ?V9; apply Rabs_le; lra.
  - split; [reflexivity|]. split; [|split].
    + intros b Hb. cbn [In ys] in Hb. destruct Hb as [<-|[<-|[<-|[]]]]; (split; [split; [reflexivity|]|]); rewrite ?V5, ?V1; change (val64 (S754_zero false)) with 0; rewrite ?Rabs_R0; try (apply Rabs_le); lra.
    + right. unfold ys. cbn [nth]. rewrite V5. lra.
    + rewrite Ca. lra.
  - intros k Hk. cbn [length xs] in Hk. right. rewrite Ca. set (zz := / 2 ^ 500) in *. destruct k as [|[|[|k]]]; [rewrite C0|rewrite C1|rewrite C2|lia]; lra.
  - split; [unfold first_edge, xs; cbn [nth]; exact V3|]. split; [unfold last_edge, xs; cbn [length pred nth]; exact V9|]. split; [unfold reach, first_edge, last_edge, xs; cbn [length pred nth]; rewrite V3, V9, (Rabs_left (-3)), (Rabs_pos_eq 9), Rmax_right by lra; reflexivity|]. rewrite C0, Ca. split; [lra|].
    unfold share_in. rewrite C1, C2, Ca. unfold xs. cbn [nth]. rewrite V2, V9. lra.
Qed.
(** Without the lower bound on the areas a quantile can be infinite: grid 0, 1, 2, values 0, 2^-1070 and 1, q = 2^-1072. *)
Definition t_grid : list spec_float := map (fun z => SpecFloat.binary_normalize 53 1024 z 0 false) [0; 1; 2]%Z.
Definition t_row : list spec_float := [zero64; S754_finite false 16 (-1074); one64].
Lemma c145_infinite : exists i q v, interp_ctor (N := SFNum) t_grid (nd2 3 [t_row]) true = Ok i /\ good_grid t_grid /\ good_values t_grid t_row /\ double q /\ 0 < val64 q < 1 /\
  answers (interp_ens_ppf (N := SFNum) i (PScalar q)) 1 v /\ v 0%nat = S754_infinity false.
Proof.
  eexists. exists (f64 4 (-1074)), (fun _ => S754_infinity false). split; [vm_compute; reflexivity|].
  assert (Es : t_grid = [S754_zero false; f64 4503599627370496 (-52); f64 4503599627370496 (-51)]) by (vm_compute; reflexivity).
  assert (Er : t_row = [S754_zero false; f64 16 (-1074); f64 4503599627370496 (-52)]) by reflexivity.
  assert (Tn : 0 < bpow radix2 (-1074) <= / 2 ^ 10) by (split; [apply bpow_gt_0|rewrite pow_bpow, <- bpow_opp; apply bpow_le; simpl; lia]). simpl (2 ^ 10) in Tn.
  assert (Ms : forall m, (Z.pos m <= 16)%Z -> bounded 53 1024 m (-1074) = true -> modest (f64 m (-1074)) /\ 0 <= val64 (f64 m (-1074))).
  { intros m Hm Bm. apply modest_f64_8; [exact Bm|]. apply Rle_trans with (16 * bpow radix2 (-1074)); [apply Rmult_le_compat_r; [lra|apply IZR_le; lia]|lra]. }
  assert (V1 : val64 (f64 4503599627370496 (-52)) = 1) by (rewrite val_f64; simpl bpow; lra). assert (V2 : val64 (f64 4503599627370496 (-51)) = 2) by (rewrite val_f64; simpl bpow; lra). assert (V0 : val64 (S754_zero false) = 0) by reflexivity.
  assert (P2 : 16 <= 2 ^ 200) by (replace 200%nat with (4 + 196)%nat by lia; rewrite pow_add; pose proof (pow_R1_Rle 2 196 ltac:(lra)); simpl (2 ^ 4); lra).
  split; [|split].
  - rewrite Es. split; [split; [simpl; lia|]; split; [simpl; lra|]; split|].
    + intros b H. cbn [In] in H. destruct H as [<-|[<-|[<-|[]]]]; try (apply modest_0); apply modest_f64_8; try reflexivity; simpl bpow; lra.
    + intros j Hj. pose proof (half_le 1000 ltac:(lia)). cbn [length] in Hj. destruct j as [|[|j]]; [| |lia]; cbn [nth]; rewrite ?V0, ?V1, ?V2; lra.
    + intros b H. cbn [In] in H. destruct H as [<-|[<-|[<-|[]]]]; rewrite ?V0, ?V1, ?V2; apply Rabs_le; lra.
  - rewrite Es, Er. split; [reflexivity|]. split; [|split].
    + intros x H. cbn [In] in H. destruct H as [<-|[<-|[<-|[]]]]; [split; [apply modest_0|rewrite V0; lra]| |].
      * destruct (Ms 16%positive ltac:(lia) eq_refl) as [[D _] P]. split; [exact D|]. split; [exact P|]. rewrite val_f64. lra.
      * destruct (modest_f64_8 4503599627370496 (-52) eq_refl ltac:(simpl bpow; lra)) as [[D _] _]. split; [exact D|]. rewrite V1. lra.
    + left. reflexivity.
    + pose proof (half_le 500 ltac:(lia)). unfold all_cells, cell, zero64. cbn [length pred rsum nth]. rewrite V0, V1, V2, val_f64. lra.
  - destruct (Ms 4%positive ltac:(lia) eq_refl) as [[D _] _]. split; [exact D|]. split; [rewrite val_f64; lra|]. split; [vm_compute; reflexivity|reflexivity].
Qed.
