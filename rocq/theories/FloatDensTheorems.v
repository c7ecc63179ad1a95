(** C144: the density of interpolated ensembles in double precision. *)
From Coq Require Import List Arith ZArith Bool Sorted Permutation Lia Reals Lra Psatz Floats.SpecFloat.
From Flocq Require Import Core.Zaux Core.Raux.
From Verif Require Import Num NumProofs Py NdArray NumpyLib Utils ScipyWrap SortProofs InterpProofs BinProofs EvalProofs HistPdf HistProofs InterpPdf Spec Float FloatProofs FloatHist FloatMachine FloatTheorems FloatExamples FloatNorm FloatCdf FloatCdfTheorems FloatInterp FloatInterpTheorems FloatDens.
Import ListNotations.
Local Open Scope R_scope.

(** ** Specification *)
(** Neighbouring grid points are at least 2^-400 apart. *)
Definition roomy (xs : list spec_float) : Prop := forall i, (S i < length xs)%nat -> / 2 ^ 400 <= val64 (nth (S i) xs zero64) - val64 (nth i xs zero64).
(** The exact density of the given table at a grid point, and between two grid points. *)
Definition dens_at (xs ys : list spec_float) (k : nat) : R := val64 (nth k ys zero64) / all_cells xs ys.
Definition dens_in (xs ys : list spec_float) (k : nat) (x : R) : R :=
  dens_at xs ys k + (dens_at xs ys (S k) - dens_at xs ys k) * ((x - val64 (nth k xs zero64)) / (val64 (nth (S k) xs zero64) - val64 (nth k xs zero64))).

(** ** Reading a table that need not be increasing *)
Section Reading.
  Variables edges tab : list spec_float.
  Variable y : nat -> R.
  Hypothesis He : good_edges edges.
  Hypothesis Hroom : roomy edges.
  Let n := pred (length edges).
  Let e i := val64 (nth i edges zero64).
  Hypothesis tab64 : forall k, (k <= n)%nat -> fin64 (nth k tab zero64) /\ val64 (nth k tab zero64) = y k.
  Hypothesis ydbl : forall k, (k <= n)%nat -> dbl (y k).
  Hypothesis y_pos : forall k, (k <= n)%nat -> 0 <= y k <= 2 ^ 402.
  Variable x : spec_float.
  Hypothesis Fx : double x.
  Let v := val64 x.
  Lemma h_xfin : fin64 x. Proof. apply double_moderate, Fx. Qed.
  Lemma h_xdbl : dbl v. Proof. apply dbl64, h_xfin. Qed.
  Lemma h_len : length edges = S n. Proof. apply (len_e edges He). Qed.
  Lemma h_npos : (1 <= n)%nat. Proof. apply (n_pos edges He). Qed.
  Lemma h_inc i j : (i <= j <= n)%nat -> e i <= e j. Proof. apply (e_inc edges He). Qed.
  Lemma h_dW k : (k < n)%nat -> / 2 ^ 1000 <= e (S k) - e k <= 2 ^ 401. Proof. intros H. split; [apply ((W_low edges He) k H)|apply ((W_high edges He) k H)]. Qed.
  Lemma h_seg k : (k < n)%nat -> e k <= v <= e (S k) ->
    let z := SFadd 53 1024 (SFmul 53 1024 (SFdiv 53 1024 (SFsub 53 1024 (nth (S k) tab zero64) (nth k tab zero64)) (SFsub 53 1024 (nth (S k) edges zero64) (nth k edges zero64)))
                                          (SFsub 53 1024 x (nth k edges zero64))) (nth k tab zero64) in
    fin64 z /\ val64 z = seg (e k) (e (S k)) (y k) (y (S k)) v.
  Proof.
    intros Hk Hx z. destruct (tab64 k ltac:(lia)) as [F0 V0]. destruct (tab64 (S k) ltac:(lia)) as [F1 V1]. pose proof (y_pos k ltac:(lia)) as Yi. pose proof (y_pos (S k) ltac:(lia)) as Yh. pose proof (h_dW k Hk) as HW.
    pose proof (ydbl k ltac:(lia)) as Dk. pose proof (ydbl (S k) ltac:(lia)) as Dk1. assert (B402 : 2 ^ 402 = bpow radix2 402) by (change 402%Z with (Z.of_nat 402); apply pow_bpow).
    assert (De : dbl (e k)) by (apply (e_dbl edges He); fold n; lia). assert (De1 : dbl (e (S k))) by (apply (e_dbl edges He); fold n; lia).
    pose proof ((e_mod edges He) k ltac:(lia)) as M0. pose proof ((e_mod edges He) (S k) ltac:(lia)) as M1.
    assert (T0 : moderate 402 (nth k tab zero64)) by (split; [exact F0|rewrite V0, Rabs_pos_eq, <- B402 by lra; lra]). assert (T1 : moderate 402 (nth (S k) tab zero64)) by (split; [exact F1|rewrite V1, Rabs_pos_eq, <- B402 by lra; lra]).
    destruct (mod_sub 402 _ _ ltac:(lia) T1 T0) as [[Fd Md] Vd]. rewrite Vd in Md. rewrite V1, V0 in Vd, Md.
    destruct (mod_sub 400 _ _ ltac:(lia) M1 M0) as [[Fw _] Vw]. fold (e (S k)) (e k) in Vw.
    assert (Mx : moderate 400 x). { split; [apply h_xfin|]. destruct M0 as [_ A]. destruct M1 as [_ B]. fold (e k) in A. fold (e (S k)) in B. fold v. apply Rabs_le_inv in A, B. apply Rabs_le. lra. }
    destruct (mod_sub 400 _ _ ltac:(lia) Mx M0) as [[Fv _] Vv]. fold v in Vv. fold (e k) in Vv.
    assert (Wl : / 2 ^ 400 <= rd (e (S k) - e k)). { assert (P : / 2 ^ 400 = bpow radix2 (-400)) by (rewrite pow_bpow, <- bpow_opp; reflexivity). rewrite P, <- (rd_id (bpow radix2 (-400))) by (apply dbl_bpow; lia). apply rd_mono. rewrite <- P. apply Hroom. rewrite h_len. lia. }
    assert (I : 0 < / 2 ^ 400) by (apply Rinv_0_lt_compat, pow_lt; lra).
    destruct (div64 _ _ Fd Fw) as [Fq Vq].
    { rewrite Vw. lra. }
    { rewrite Vd, Vw. apply (small_le 803); [lia|]. apply rd_le_bpow; [lia|]. unfold Rdiv. rewrite Rabs_mult. change 803%Z with (402 + 1 + Z.of_nat 400)%Z. rewrite bpow_plus, <- pow_bpow.
      apply Rmult_le_compat; [apply Rabs_pos|apply Rabs_pos|exact Md|]. rewrite Rabs_pos_eq by (apply Rlt_le, Rinv_0_lt_compat; lra). rewrite <- (Rinv_inv (2 ^ 400)). apply Rinv_le_contravar; [exact I|exact Wl]. }
    rewrite Vd, Vw in Vq.
    pose proof (any_t _ _ _ _ De De1 Dk Dk1 HW v h_xdbl Hx) as Et. destruct (any_B _ _ _ _ HW (proj1 Yi) (proj1 Yh) v Hx) as (_ & Bm & _). pose proof p600 as P6.
    set (t := rd (rd (rd (y (S k) - y k) / rd (e (S k) - e k)) * rd (v - e k))) in *. set (B := (y (S k) - y k) * _) in *.
    assert (Bh : Rabs B <= 2 ^ 402) by (eapply Rle_trans; [exact Bm|apply Rmax_lub; lra]). assert (G : 1 <= 2 ^ 402) by (apply pow_R1_Rle; lra).
    assert (Th : Rabs t <= bpow radix2 403). { change 403%Z with (402 + 1)%Z. rewrite <- bpow_add1, <- B402. replace t with ((t - B) + B) by ring. eapply Rle_trans; [apply Rabs_triang|]. pose proof (Rabs_pos B). simpl (2 ^ 53) in Et. simpl (2 ^ 100) in P6. set (c := 2 ^ 402) in *. set (c6 := / 2 ^ 600) in *. lra. }
    destruct (mul64 _ _ Fq Fv) as [Fm Vm]; [rewrite Vq, Vv; fold t; apply (small_le 403); [lia|exact Th]|]. rewrite Vq, Vv in Vm. fold t in Vm.
    destruct (add64 _ _ Fm F0) as [Fz Vz].
    { rewrite Vm, V0. apply (small_le 404); [lia|]. apply rd_le_bpow; [lia|]. change 404%Z with (403 + 1)%Z. rewrite <- bpow_add1. eapply Rle_trans; [apply Rabs_triang|]. apply Rplus_le_compat; [exact Th|]. rewrite Rabs_pos_eq by lra. apply Rle_trans with (2 ^ 402); [lra|]. rewrite B402. apply bpow_le. lia. }
    rewrite Vm, V0 in Vz. split; [exact Fz|exact Vz].
  Qed.
  (** the value at the first grid point, or a value from the cell whose right end is the first grid point not below x *)
  Definition found (z : spec_float) : Prop :=
    fin64 z /\ ((v = e 0%nat /\ val64 z = y 0%nat) \/ exists k, (k < n)%nat /\ e k < v <= e (S k) /\ (val64 z = seg (e k) (e (S k)) (y k) (y (S k)) v \/ (v = e (S k) /\ val64 z = y (S k)))).
  Lemma h_nth0 i : nth0 (N := RNum) i (map val64 edges) = e i.
  Proof. unfold nth0, e. symmetry. apply nth64. Qed.
  Lemma h_head : nhead (N := SFNum) edges = nth 0 edges zero64. Proof. destruct edges; reflexivity. Qed.
  Lemma h_last : nlast (N := SFNum) edges = nth n edges zero64. Proof. unfold nlast. apply last_nth'. Qed.
  Lemma h_ltb b c : fin64 b -> fin64 c -> nltb (N := SFNum) b c = nltb (N := RNum) (val64 b) (val64 c).
  Proof. intros Hb Hc. unfold nltb. cbn [nleb SFNum]. rewrite leb64 by assumption. reflexivity. Qed.
  Lemma h_fin i : (i <= n)%nat -> fin64 (nth i edges zero64). Proof. intros H. apply (e_mod edges He), H. Qed.
  Lemma h_fins b : In b edges -> fin64 b. Proof. intros H. destruct He as (_ & _ & M & _). apply modest_mod, M, H. Qed.
  Lemma h_outside : v < e 0%nat \/ e n < v -> interp1d_nd (N := SFNum) edges tab (n0 (Num := SFNum)) (n0 (Num := SFNum)) x = zero64 /\ interp1d (N := SFNum) edges tab (n0 (Num := SFNum)) (n0 (Num := SFNum)) x = zero64.
  Proof.
    intros H. unfold interp1d_nd, interp1d. rewrite h_head, h_last, !h_ltb by (try apply h_xfin; apply h_fin; lia). fold v. fold (e 0%nat) (e n).
    destruct (nltb (N := RNum) v (e 0%nat)) eqn:E; [split; reflexivity|]. destruct H as [H|H]; [apply nltb_R_true in H; congruence|]. rewrite (proj2 (nltb_R_true (e n) v)) by exact H. split; reflexivity.
  Qed.
  Lemma h_nd : e 0%nat <= v <= e n -> found (interp1d_nd (N := SFNum) edges tab (n0 (Num := SFNum)) (n0 (Num := SFNum)) x).
  Proof.
    intros H. unfold interp1d_nd. rewrite h_head, h_last, !h_ltb by (try apply h_xfin; apply h_fin; lia). fold v. fold (e 0%nat) (e n).
    destruct (nltb (N := RNum) v (e 0%nat)) eqn:E; [apply nltb_R_true in E; lra|]. destruct (nltb (N := RNum) (e n) v) eqn:E'; [apply nltb_R_true in E'; lra|]. clear E E'.
    rewrite search64 by (try apply h_xfin; apply h_fins). change (searchsorted_left (N := DNum)) with (searchsorted_left (N := RNum)). fold v. set (j := searchsorted_left (N := RNum) (map val64 edges) v).
    pose proof (ssl_le (map val64 edges) v) as L. rewrite map_length, h_len in L. fold j in L. pose proof h_npos as Np. rewrite h_len. cbn [pred].
    set (hh := Nat.min (Nat.max j 1) n). assert (Hh : (1 <= hh <= n)%nat) by (unfold hh; lia).
    assert (U : v <= e hh).
    { destruct (Nat.le_gt_cases j n) as [Hj|Hj]; [|replace hh with n by (unfold hh; lia); lra].
      pose proof (ssl_at (map val64 edges) v) as B. rewrite map_length, h_len in B. specialize (B ltac:(fold j; lia)). fold j in B. rewrite h_nth0 in B. pose proof (h_inc j hh ltac:(unfold hh; lia)). lra. }
    assert (K : v = e 0%nat /\ pred hh = 0%nat \/ e (pred hh) < v).
    { destruct (Nat.eq_dec j 0) as [Ej|Ej].
      - left. pose proof (ssl_at (map val64 edges) v) as B. rewrite map_length, h_len in B. specialize (B ltac:(fold j; lia)). fold j in B. rewrite Ej, h_nth0 in B. split; [lra|unfold hh; rewrite Ej; lia].
      - right. pose proof (ssl_below (map val64 edges) v (pred hh) ltac:(fold j; unfold hh; lia)) as B. rewrite h_nth0 in B. lra. }
    set (k := pred hh) in *. assert (Eh : hh = S k) by (unfold k; lia). rewrite Eh in *. cbn [pred].
    assert (Kw : e k <= v <= e (S k)) by (destruct K as [[A B]|A]; [rewrite B in *; lra|lra]).
    destruct (h_seg k ltac:(lia) Kw) as [Fz Vz]. split; [exact Fz|]. destruct K as [[A B]|A].
    - left. split; [exact A|]. rewrite B in Vz. rewrite A in Vz. rewrite seg_at in Vz by (apply ydbl; lia). rewrite B. exact Vz.
    - right. exists k. split; [lia|]. split; [lra|]. left. exact Vz.
  Qed.
  Lemma h_one : e 0%nat <= v <= e n -> found (interp1d (N := SFNum) edges tab (n0 (Num := SFNum)) (n0 (Num := SFNum)) x) /\
    forall k, (k <= n)%nat -> v = e k -> interp1d (N := SFNum) edges tab (n0 (Num := SFNum)) (n0 (Num := SFNum)) x = nth k tab zero64.
  Proof.
    intros H. unfold interp1d. rewrite h_head, h_last, !h_ltb by (try apply h_xfin; apply h_fin; lia). fold v. fold (e 0%nat) (e n).
    destruct (nltb (N := RNum) v (e 0%nat)) eqn:E; [apply nltb_R_true in E; lra|]. destruct (nltb (N := RNum) (e n) v) eqn:E'; [apply nltb_R_true in E'; lra|]. clear E E'.
    rewrite search_r64 by (try apply h_xfin; apply h_fins). fold v. set (j := searchsorted_right (N := RNum) (map val64 edges) v).
    pose proof (ssr_le (map val64 edges) v) as L. rewrite map_length, h_len in L. fold j in L. pose proof h_npos as Np. rewrite h_len. cbn [pred].
    assert (J1 : (1 <= j)%nat). { destruct j eqn:Ej; [|lia]. pose proof (ssr_at (map val64 edges) v) as B. fold j in B. rewrite map_length, h_len, Ej in B. specialize (B ltac:(lia)). rewrite h_nth0 in B. lra. }
    pose proof (ssr_below (map val64 edges) v (pred j) ltac:(fold j; lia)) as B. rewrite h_nth0 in B.
    assert (St : forall p q, (p < q <= n)%nat -> e p < e q). { intros p q Hpq. pose proof (h_dW p ltac:(lia)) as D. pose proof inv1000 as I. pose proof (h_inc (S p) q ltac:(lia)). lra. }
    assert (At : forall z, (forall k, (k <= n)%nat -> v = e k -> z = nth k tab zero64) -> (exists k, (k <= n)%nat /\ v = e k) -> found z).
    { intros z Hz (k & Hk & Ev). rewrite (Hz k Hk Ev). destruct (tab64 k Hk) as [Fk Vk]. split; [exact Fk|]. destruct k as [|k]; [left; split; assumption|]. right. exists k. split; [lia|]. pose proof (St k (S k) ltac:(lia)). split; [lra|]. right. split; assumption. }
    destruct (Nat.eqb_spec (pred j) n) as [En|En].
    - rewrite En in *. assert (Z : forall k, (k <= n)%nat -> v = e k -> nth0 (N := SFNum) n tab = nth k tab zero64).
      { intros k Hk Ev. destruct (Nat.eq_dec k n) as [->|Nk]; [reflexivity|]. pose proof (St k n ltac:(lia)). lra. }
      split; [|exact Z]. apply At; [exact Z|]. exists n. split; [lia|lra].
    - set (k := pred j) in *. assert (Ej : j = S k) by (unfold k; lia). assert (Hk : (k < n)%nat) by lia.
      pose proof (ssr_at (map val64 edges) v) as C. fold j in C. rewrite map_length, h_len in C. specialize (C ltac:(lia)). rewrite Ej, h_nth0 in C.
      change (nth0 (N := SFNum) k edges) with (nth k edges zero64). change (nth0 (N := SFNum) (S k) edges) with (nth (S k) edges zero64). change (nth0 (N := SFNum) k tab) with (nth k tab zero64). change (nth0 (N := SFNum) (S k) tab) with (nth (S k) tab zero64).
      assert (Un : forall p, (p <= n)%nat -> v = e p -> p = k).
      { intros p Hp Ev. destruct (Nat.lt_trichotomy p k) as [D|[D|D]]; [pose proof (St p k ltac:(lia)); lra|exact D|]. pose proof (h_inc (S k) p ltac:(lia)). lra. }
      assert (Q : neqb (N := SFNum) (nth k edges zero64) x = true <-> v = e k).
      { unfold neqb. cbn [nleb SFNum]. rewrite !leb64 by (try apply h_xfin; apply h_fin; lia). fold v. fold (e k). rewrite andb_true_iff, !Rleb_true. lra. }
      destruct (neqb (N := SFNum) (nth k edges zero64) x) eqn:Qe.
      + assert (Z : forall p, (p <= n)%nat -> v = e p -> nth k tab zero64 = nth p tab zero64) by (intros p Hp Ev; rewrite (Un p Hp Ev); reflexivity).
        split; [|exact Z]. apply At; [exact Z|]. exists k. split; [lia|]. apply Q. reflexivity.
      + assert (Ne : v <> e k) by (intros Ev; apply Q in Ev; discriminate).
        split; [|intros p Hp Ev; exfalso; apply Ne; rewrite <- (Un p Hp Ev); exact Ev].
        destruct (h_seg k Hk ltac:(lra)) as [Fz Vz]. split; [exact Fz|]. right. exists k. split; [exact Hk|]. split; [lra|]. left. exact Vz.
  Qed.
  Lemma h_err z : found z -> (v = e 0%nat -> val64 z = y 0%nat) /\
    forall k, (k < n)%nat -> e k < v <= e (S k) ->
      Rabs (val64 z - (y k + (y (S k) - y k) * ((v - e k) / (e (S k) - e k)))) <= / 2 ^ 50 * Rmax (y k) (y (S k)) + 4 / 2 ^ 600 /\ (y k <= y (S k) -> 0 <= val64 z).
  Proof.
    intros (_ & Hz). assert (St : forall p q, (p < q <= n)%nat -> e p < e q). { intros p q Hpq. pose proof (h_dW p ltac:(lia)) as D. pose proof inv1000 as I. pose proof (h_inc (S p) q ltac:(lia)). lra. }
    pose proof h_npos as Np. split.
    - intros Ev. destruct Hz as [[_ Hz]|(k & Hk & Kv & _)]; [exact Hz|]. pose proof (h_inc 0 k ltac:(lia)). lra.
    - intros k Hk Kv. destruct Hz as [[Ev _]|(j & Hj & Jv & Hz)]; [pose proof (h_inc 0 k ltac:(lia)); lra|].
      assert (j = k). { destruct (Nat.lt_trichotomy j k) as [D|[D|D]]; [|exact D|]; [pose proof (h_inc (S j) k ltac:(lia)); lra|pose proof (h_inc (S k) j ltac:(lia)); lra]. }
      subst j. pose proof (y_pos k ltac:(lia)) as Yi. pose proof (y_pos (S k) ltac:(lia)) as Yh.
      assert (De : dbl (e k)) by (apply (e_dbl edges He); fold n; lia). assert (De1 : dbl (e (S k))) by (apply (e_dbl edges He); fold n; lia). pose proof (h_dW k Hk) as HW.
      pose proof (ydbl k ltac:(lia)) as Dk. pose proof (ydbl (S k) ltac:(lia)) as Dk1.
      destruct Hz as [->|[Ev ->]].
      + split; [apply any_seg; try assumption; try apply h_xdbl; lra|]. intros Hr. apply any_rise; try assumption; try apply h_xdbl; lra.
      + split; [|lra]. pose proof (St k (S k) ltac:(lia)). rewrite Ev. replace ((e (S k) - e k) / (e (S k) - e k)) with 1 by (field; lra). replace (y (S k) - (y k + (y (S k) - y k) * 1)) with 0 by ring. rewrite Rabs_R0.
        pose proof p600 as P6. pose proof (Rmax_l (y k) (y (S k))). assert (0 <= / 2 ^ 50 * Rmax (y k) (y (S k))) by (apply Rmult_le_pos; [apply Rlt_le, Rinv_0_lt_compat, pow_lt; lra|lra]). unfold Rdiv. lra.
  Qed.
End Reading.

(** ** Evaluation at one point, for any kind of numbers *)
Section AnyNumbers.
  Context {T : Type} {N : Num T}.
  Variable x : T.
  Hypothesis Hx : nleb x x = true.
  Definition ipdf_point (i : interp T) (r : nat) : T :=
    (if Nat.eqb (i_npdf i) 1 then interp1d (i_xvals i) (nth r (i_yvals i) []) n0 n0 x else interp1d_nd (i_xvals i) (nth r (i_yvals i) []) n0 n0 x).
  Lemma interp_pdf_scalar (i : interp T) : (0 < i_npdf i)%nat ->
    interp_ens_pdf i (PScalar x) = Ok (map (fun r => [Fin (ipdf_point i r)]) (seq 0 (i_npdf i))).
  Proof.
    intros Hk. unfold interp_ens_pdf, rv_pdf, rv_eval. cbn [broadcast_points bind]. rewrite concat_single.
    replace (flat_rows (repeat [x] (i_npdf i)) (seq 0 (i_npdf i))) with (seq 0 (i_npdf i)) by (rewrite <- (seq_length (i_npdf i) 0) at 2; symmetry; apply flat_rows_one).
    unfold ipdf_point. set (n := i_npdf i) in *. set (g := fun r => if Nat.eqb n 1 then interp1d (i_xvals i) (nth r (i_yvals i) []) n0 n0 x else interp1d_nd (i_xvals i) (nth r (i_yvals i) []) n0 n0 x).
    assert (C : forallb (fun _ : T => true) (repeat x n) = true) by (apply forallb_forall; auto). rewrite C, repeat_length.
    destruct (Nat.eqb_spec n 0); [lia|].
    assert (E : interp_pdf i (nd1 (repeat x n)) (nd1 (seq 0 n)) = Ok (map g (seq 0 n))).
    { unfold interp_pdf, interpolate_x_multi_y, dispatch, get_eval_case. change (np_ndim (nd1 (repeat x n))) with 1%nat. change (np_ndim (nd1 (seq 0 n))) with 1%nat. cbn [Nat.leb andb negb Nat.eqb].
      rewrite !size_nd1, repeat_length, seq_length. change (dat (nd1 (repeat x n))) with (repeat x n). change (dat (nd1 (seq 0 n))) with (seq 0 n). unfold g. destruct (Nat.eqb_spec n 1) as [E1|E1].
      - rewrite E1. reflexivity.
      - cbn [orb]. assert (V : np_unique (repeat x n) = [x]) by (replace n with (S (pred n)) by lia; apply unique_repeat, Hx). rewrite V.
        assert (U : np_unique_nat (seq 0 n) = seq 0 n) by apply np_unique_nat_sorted_id, seq_sorted. rewrite U. rewrite ?seq_length. cbn [length].
        destruct (Nat.eqb_spec 1 n); [lia|]. rewrite Nat.eqb_refl. rewrite ?size_nd1, ?seq_length. cbn [length]. rewrite ?seq_length, ?Nat.mul_1_l, Nat.eqb_refl. cbn [negb bind].
        f_equal. destruct n as [|[|m]]; [lia|lia|]. unfold expand_last. cbn [dat nd1 map seq]. unfold per_row. cbn [flat_map map app]. do 2 f_equal.
        }
    rewrite E. cbn [bind]. f_equal.
    assert (W : match repeat [x] n with [] => 0%nat | l :: _ => length l end = 1%nat) by (destruct n; [lia|reflexivity]). rewrite W.
    rewrite repeat_length. apply chunk_ones.
  Qed.
End AnyNumbers.

(** ** The stored values *)
Lemma rsum_one n f k : (k < n)%nat -> (forall i, (i < n)%nat -> 0 <= f i) -> f k <= rsum n f.
Proof.
  intros Hk H. apply Rle_trans with (rsum (S k) f); [|apply rsum_mono_n; [lia|exact H]]. simpl. assert (0 <= rsum k f); [|lra].
  clear - H Hk. assert (Q : forall i, (i < k)%nat -> 0 <= f i) by (intros; apply H; lia). clear H Hk. induction k; simpl; [lra|]. assert (0 <= rsum k f) by (apply IHk; intros; apply Q; lia). pose proof (Q k ltac:(lia)). lra.
Qed.
Section Stored.
  Variables (xs row : list spec_float) (chk : bool).
  Hypothesis Hg : good_grid xs.
  Hypothesis Hroom : roomy xs.
  Hypothesis Hv : good_values xs row.
  Let n := pred (length xs).
  Let g := values_for xs chk row.
  Let X i := val64 (nth i xs zero64).
  Let z := stored64 n (fun i => val64 (nth i g zero64)) X.
  Lemma q_vals i : (i <= n)%nat -> fin64 (nth i (norm_row xs g) zero64) /\ val64 (nth i (norm_row xs g) zero64) = z i.
  Proof. apply norm_vals; [exact Hg|exact (v_ready xs row chk Hg Hv)|exact (v_small xs row chk Hg Hv)]. Qed.
  Lemma q_pos i : (i <= n)%nat -> 0 <= z i.
  Proof. intros Hi. destruct (v_ready xs row chk Hg Hv) as (L & V & F & M). fold g in L, V, F, M. apply stored64_pos; row_side xs g Hg V F M. Qed.
  Lemma q_high i : (i <= n)%nat -> 0 <= z i <= 2 ^ 402.
  Proof.
    intros Hi. split; [apply q_pos, Hi|]. destruct (v_area xs row chk Hg Hv) as (_ & _ & Ar). fold g n in Ar. pose proof (m_n xs Hg) as N1. pose proof (m_N xs Hg) as NN. pose proof (m_len xs Hg) as Le. fold n in N1, NN, Le.
    assert (T : all_cells xs (norm_row xs g) <= 2) by (apply Rabs_le_inv in Ar; simpl (2 ^ 40) in NN; simpl (2 ^ 51) in Ar; lra).
    assert (C : forall k, (k < n)%nat -> cell xs (norm_row xs g) k = (z k + z (S k)) / 2 * (X (S k) - X k)) by (intros k Hk; unfold cell; rewrite (proj2 (q_vals k ltac:(lia))), (proj2 (q_vals (S k) ltac:(lia))); reflexivity).
    assert (R : forall k, (k < n)%nat -> / 2 ^ 400 <= X (S k) - X k) by (intros k Hk; apply Hroom; rewrite Le; lia).
    assert (I : 0 < / 2 ^ 400) by (apply Rinv_0_lt_compat, pow_lt; lra).
    assert (B : forall k, (k < n)%nat -> (z k + z (S k)) / 2 * / 2 ^ 400 <= 2).
    { intros k Hk. pose proof (q_pos k ltac:(lia)). pose proof (q_pos (S k) ltac:(lia)). pose proof (R k Hk) as Rk. apply Rle_trans with (cell xs (norm_row xs g) k).
      - rewrite C by exact Hk. apply Rmult_le_compat_l; lra.
      - apply Rle_trans with (all_cells xs (norm_row xs g)); [|exact T]. apply (rsum_one n (cell xs (norm_row xs g)) k Hk). intros j Hj. rewrite C by exact Hj. pose proof (q_pos j ltac:(lia)). pose proof (q_pos (S j) ltac:(lia)). pose proof (R j Hj). apply Rmult_le_pos; lra. }
    assert (P : 2 ^ 402 = 4 * 2 ^ 400) by (replace 402%nat with (2 + 400)%nat by lia; rewrite pow_add; simpl (2 ^ 2); lra). rewrite P.
    assert (Fin : forall a, a * / 2 ^ 400 <= 4 -> a <= 4 * 2 ^ 400). { intros a Ha. apply Rmult_le_reg_r with (/ 2 ^ 400); [exact I|]. rewrite Rmult_assoc, Rinv_r by (apply pow_nonzero; lra). lra. }
    apply Fin. destruct (Nat.eq_dec i n) as [->|Ni].
    - pose proof (B (pred n) ltac:(lia)) as Bk. replace (S (pred n)) with n in Bk by lia. pose proof (q_pos (pred n) ltac:(lia)) as Q. assert (0 <= z (pred n) * / 2 ^ 400) by (apply Rmult_le_pos; lra). lra.
    - pose proof (B i ltac:(lia)) as Bk. pose proof (q_pos (S i) ltac:(lia)) as Q. assert (0 <= z (S i) * / 2 ^ 400) by (apply Rmult_le_pos; lra). lra.
  Qed.
  Lemma q_dens i : (i <= n)%nat -> 0 <= dens_at xs row i.
  Proof. intros Hi. unfold dens_at. rewrite (all_cells_cum xs row Hg). destruct (g_ready xs row Hg Hv) as (L & V & F & M). apply (f_pos n (fun i => val64 (nth i row zero64)) X); row_side xs row Hg V F M. Qed.
  Lemma q_err i : (i <= n)%nat -> Rabs (z i - dens_at xs row i) <= (INR n + 11) / 2 ^ 51 * dens_at xs row i + / 2 ^ 600.
  Proof.
    intros Hi. pose proof (q_dens i Hi) as D0. destruct (g_ready xs row Hg Hv) as (L & V & F & M). destruct (v_ready xs row chk Hg Hv) as (L' & V' & F' & M'). fold g in L', V', F', M'.
    pose proof (m_n xs Hg) as N1. pose proof (m_N xs Hg) as NN. fold n in N1, NN. simpl (2 ^ 40) in NN. pose proof (pos_INR n) as N0.
    assert (One : Rabs (z i - val64 (nth i g zero64) / cum (fun i => val64 (nth i g zero64)) X n) <= (INR n + 8) / 2 ^ 52 * (501 / 500) * (val64 (nth i g zero64) / cum (fun i => val64 (nth i g zero64)) X n) + tiny) by (apply once; row_side xs g Hg V' F' M').
    assert (Two : Rabs (val64 (nth i g zero64) / cum (fun i => val64 (nth i g zero64)) X n - dens_at xs row i) <= 4 / 2 ^ 53 * dens_at xs row i + 2 * tiny).
    { unfold g, values_for. unfold dens_at in *. rewrite (all_cells_cum xs row Hg) in *. change (cum (fun j => val64 (nth j row zero64)) (fun j => val64 (nth j xs zero64)) (pred (length xs))) with (cum (fun j => val64 (nth j row zero64)) X n) in *. destruct chk.
      - assert (Q : forall j, (j <= n)%nat -> val64 (nth j (norm_row xs row) zero64) = stored64 n (fun i => val64 (nth i row zero64)) X j).
        { intros j Hj. apply (norm_vals xs Hg row (g_ready xs row Hg Hv)); [|exact Hj]. intros k Hk. eapply Rle_trans; [apply (g_small xs row Hg Hv k Hk)|]. apply bpow_le. lia. }
        rewrite (cum_ext _ _ X n n N1 (le_n n) Q), (Q i Hi). apply (rescaled n (fun i => val64 (nth i row zero64)) X); row_side xs row Hg V F M.
      - replace (_ - _) with 0 by ring. rewrite Rabs_R0. pose proof tiny_pos. simpl (2 ^ 53). lra. }
    set (f' := val64 (nth i g zero64) / _) in *. set (f := dens_at xs row i) in *. clearbody f f'. pose proof tiny_pos as Tp. pose proof tiny_402 as T4. assert (T : 16 * tiny <= / 2 ^ 600). { eapply Rle_trans; [|exact T4]. rewrite Rmult_comm. apply Rmult_le_compat_l; [lra|]. replace 402%nat with (4 + 398)%nat by lia. rewrite pow_add. pose proof (pow_R1_Rle 2 398 ltac:(lra)). simpl (2 ^ 4). lra. }
    set (t6 := / 2 ^ 600) in *. set (c := (INR n + 8) / 2 ^ 52 * (501 / 500)) in *. assert (c0 : 0 <= c <= / 2 ^ 11) by (unfold c; simpl (2 ^ 52); simpl (2 ^ 11); lra).
    assert (cc : (INR n + 11) / 2 ^ 51 >= c + 4 / 2 ^ 53 + / 2 ^ 53) by (unfold c; simpl (2 ^ 52); simpl (2 ^ 51); simpl (2 ^ 53); lra).
    apply Rabs_le_inv in One, Two. simpl (2 ^ 53) in *. simpl (2 ^ 11) in *. set (C := (INR n + 11) / 2 ^ 51) in *. clearbody c C.
    assert (Cf : c * f' <= c * (f * (1 + 4 / 9007199254740992) + 2 * tiny)) by (apply Rmult_le_compat_l; lra). assert (ct : c * (f * (4 / 9007199254740992) + 2 * tiny) <= / 2048 * (f * (4 / 9007199254740992) + 2 * tiny)) by (apply Rmult_le_compat_r; [|lra]; assert (0 <= f * (4 / 9007199254740992)) by (apply Rmult_le_pos; lra); lra).
    assert (Df : (c + 4 / 9007199254740992 + / 9007199254740992) * f <= C * f) by (apply Rmult_le_compat_r; lra).
    apply Rabs_le. split; lra.
  Qed.
End Stored.

(** ** The ensemble *)
Section Ensemble.
  Variables (xs : list spec_float) (rows : list (list spec_float)) (chk : bool) (i : interp spec_float).
  Hypothesis Hg : good_grid xs.
  Hypothesis Hroom : roomy xs.
  Hypothesis Hne : rows <> [].
  Hypothesis Hr : forall row, In row rows -> good_values xs row.
  Hypothesis Hi : interp_ctor (N := SFNum) xs (nd2 (length xs) rows) chk = Ok i.
  Variable x : spec_float.
  Hypothesis Hx : double x.
  Lemma p_answers : answers (interp_ens_pdf (N := SFNum) i (PScalar x)) (length rows) (ipdf_point (N := SFNum) x i).
  Proof.
    unfold answers. rewrite <- (e_npdf xs rows chk i Hg Hr Hi). apply interp_pdf_scalar; [|rewrite (e_npdf xs rows chk i Hg Hr Hi); clear - Hne; destruct rows; [congruence|simpl; lia]]. cbn [nleb SFNum]. rewrite leb64 by (apply double_moderate, Hx). apply Rleb_true; lra.
  Qed.
  Variable r : nat.
  Hypothesis Hl : (r < length rows)%nat.
  Let row := nth r rows [].
  Let g := values_for xs chk row.
  Let n := pred (length xs).
  Let z := stored64 n (fun i => val64 (nth i g zero64)) (fun i => val64 (nth i xs zero64)).
  Lemma p_row : good_values xs row. Proof. apply Hr, nth_In, Hl. Qed.
  Lemma p_tab : nth r (i_yvals i) [] = norm_row xs g.
  Proof. destruct (e_parts xs rows chk i Hg Hr Hi) as (_ & -> & _). rewrite nth_map_in with (d' := []) by exact Hl. reflexivity. Qed.
  Lemma p_vals k : (k <= n)%nat -> fin64 (nth k (norm_row xs g) zero64) /\ val64 (nth k (norm_row xs g) zero64) = z k.
  Proof. apply (q_vals xs row chk Hg p_row). Qed.
  Lemma p_dbl k : (k <= n)%nat -> dbl (z k). Proof. intros Hk. apply rd_dbl. Qed.
  Lemma p_high k : (k <= n)%nat -> 0 <= z k <= 2 ^ 402. Proof. apply (q_high xs row chk Hg Hroom p_row). Qed.
  Lemma p_out : val64 x < first_edge xs \/ last_edge xs < val64 x -> ipdf_point (N := SFNum) x i r = zero64.
  Proof.
    intros H. unfold ipdf_point. destruct (e_parts xs rows chk i Hg Hr Hi) as (-> & _ & _). rewrite p_tab.
    destruct (h_outside xs (norm_row xs g) z (proj1 Hg) Hroom p_vals p_dbl p_high x Hx H) as [A B]. rewrite A, B. destruct (Nat.eqb _ _); reflexivity.
  Qed.
  Lemma p_found : first_edge xs <= val64 x <= last_edge xs -> found xs z x (ipdf_point (N := SFNum) x i r).
  Proof.
    intros H. unfold ipdf_point. destruct (e_parts xs rows chk i Hg Hr Hi) as (-> & _ & _). rewrite p_tab. destruct (Nat.eqb _ _).
    - apply (h_one xs (norm_row xs g) z (proj1 Hg) Hroom p_vals p_dbl p_high x Hx H).
    - apply (h_nd xs (norm_row xs g) z (proj1 Hg) Hroom p_vals p_dbl p_high x Hx H).
  Qed.
  Lemma p_single k : length rows = 1%nat -> (k <= n)%nat -> val64 x = val64 (nth k xs zero64) -> ipdf_point (N := SFNum) x i r = nth k (nth r (i_yvals i) []) zero64.
  Proof.
    intros E Hk Ev. unfold ipdf_point. rewrite (e_npdf xs rows chk i Hg Hr Hi), E. cbn [Nat.eqb]. destruct (e_parts xs rows chk i Hg Hr Hi) as (-> & _ & _). rewrite p_tab.
    assert (H : first_edge xs <= val64 x <= last_edge xs). { rewrite Ev. split; [apply (e_inc xs (proj1 Hg) 0 k); fold n; lia|apply (e_inc xs (proj1 Hg) k n); fold n; lia]. }
    apply (h_one xs (norm_row xs g) z (proj1 Hg) Hroom p_vals p_dbl p_high x Hx H); assumption.
  Qed.
End Ensemble.

Lemma c144_pdf : forall xs rows chk i x, good_grid xs -> roomy xs -> rows <> [] -> (forall row, In row rows -> good_values xs row) ->
  interp_ctor (N := SFNum) xs (nd2 (length xs) rows) chk = Ok i -> double x ->
  exists v, answers (interp_ens_pdf (N := SFNum) i (PScalar x)) (length rows) v /\
    forall r, (r < length rows)%nat ->
      fin64 (v r) /\
      (val64 x < first_edge xs \/ last_edge xs < val64 x -> v r = zero64) /\
      (val64 x = first_edge xs -> Rabs (val64 (v r) - dens_at xs (nth r rows []) 0) <= INR (length xs + 14) / 2 ^ 51 * dens_at xs (nth r rows []) 0 + / 2 ^ 590) /\
      (forall k, (S k < length xs)%nat -> val64 (nth k xs zero64) < val64 x <= val64 (nth (S k) xs zero64) ->
        Rabs (val64 (v r) - dens_in xs (nth r rows []) k (val64 x)) <=
          INR (length xs + 14) / 2 ^ 51 * Rmax (dens_at xs (nth r rows []) k) (dens_at xs (nth r rows []) (S k)) + / 2 ^ 590).
Proof.
  intros xs rows chk i x Hg Hroom Hne Hr Hi Hx. exists (ipdf_point (N := SFNum) x i). split; [apply (p_answers xs rows chk i Hg Hne Hr Hi x Hx)|]. intros r Hl.
  pose proof (p_row xs rows Hr r Hl) as Gr. pose proof (p_out xs rows chk i Hg Hroom Hr Hi x Hx r Hl) as Out. pose proof (p_found xs rows chk i Hg Hroom Hr Hi x Hx r Hl) as Fo.
  pose proof (m_len xs Hg) as Le. pose proof (m_n xs Hg) as N1. pose proof (m_N xs Hg) as NN. set (n := pred (length xs)) in *. simpl (2 ^ 40) in NN. pose proof (pos_INR n) as N0.
  set (row := nth r rows []) in *. set (z := stored64 n _ _) in *.
  assert (Er : forall k, (k <= n)%nat -> Rabs (z k - dens_at xs row k) <= (INR n + 11) / 2 ^ 51 * dens_at xs row k + / 2 ^ 600) by (apply (q_err xs row chk Hg Gr)).
  assert (Dp : forall k, (k <= n)%nat -> 0 <= dens_at xs row k) by (apply (q_dens xs row Hg Gr)).
  assert (Zp : forall k, (k <= n)%nat -> 0 <= z k <= 2 ^ 402) by (apply (p_high xs rows chk Hg Hroom Hr r Hl)).
  assert (Zd : forall k, (k <= n)%nat -> dbl (z k)) by (intros k Hk; apply rd_dbl).
  assert (Nl : INR (length xs + 14) = INR n + 15) by (rewrite Le; replace (S n + 14)%nat with (n + 15)%nat by lia; rewrite plus_INR; simpl (INR 15); lra). rewrite Nl.
  assert (P9 : 16 * / 2 ^ 600 <= / 2 ^ 590). { replace 600%nat with (590 + 10)%nat by lia. rewrite pow_add, Rinv_mult. assert (0 < / 2 ^ 590) by (apply Rinv_0_lt_compat, pow_lt; lra). simpl (2 ^ 10). lra. }
  pose proof p600 as [P6 _]. set (t6 := / 2 ^ 600) in *. set (t9 := / 2 ^ 590) in *.
  assert (C15 : forall d, 0 <= d -> (INR n + 15) / 2 ^ 51 * d = (INR n + 11) / 2 ^ 51 * d + 4 / 2 ^ 51 * d) by (intros; field; apply pow_nonzero; lra).
  split; [|split; [|split]].
  - destruct (Rlt_le_dec (val64 x) (first_edge xs)) as [C|C]; [rewrite Out by (left; exact C); apply fin64_0|]. destruct (Rlt_le_dec (last_edge xs) (val64 x)) as [D|D]; [rewrite Out by (right; exact D); apply fin64_0|]. apply (Fo (conj C D)).
  - exact Out.
  - intros Ev. assert (I : first_edge xs <= last_edge xs) by (apply (e_inc xs (proj1 Hg) 0 n); fold n; lia).
    destruct (h_err xs z (proj1 Hg) Zd Zp x Hx _ (Fo ltac:(lra))) as [A _]. rewrite (A Ev). pose proof (Er 0%nat ltac:(lia)) as E. pose proof (Dp 0%nat ltac:(lia)) as D. rewrite C15 by exact D. simpl (2 ^ 51) in *. lra.
  - intros k Hk Kv. assert (I0 : first_edge xs <= val64 (nth k xs zero64)) by (apply (e_inc xs (proj1 Hg) 0 k); fold n; lia). assert (I1 : val64 (nth (S k) xs zero64) <= last_edge xs) by (apply (e_inc xs (proj1 Hg) (S k) n); fold n; lia).
    destruct (h_err xs z (proj1 Hg) Zd Zp x Hx _ (Fo ltac:(lra))) as [_ A]. destruct (A k ltac:(fold n; lia) Kv) as [B _]. clear A.
    pose proof (Er k ltac:(lia)) as E0. pose proof (Er (S k) ltac:(lia)) as E1. pose proof (Dp k ltac:(lia)) as D0. pose proof (Dp (S k) ltac:(lia)) as D1.
    unfold dens_in. set (q := (val64 x - _) / _) in *. assert (q01 : 0 <= q <= 1) by (apply (lam _ _ (dW xs (proj1 Hg) k ltac:(fold n; lia)) (val64 x)); lra).
    set (f0 := dens_at xs row k) in *. set (f1 := dens_at xs row (S k)) in *. pose proof (Rmax_l f0 f1) as M0. pose proof (Rmax_r f0 f1) as M1. set (M := Rmax f0 f1) in *.
    set (c := (INR n + 11) / 2 ^ 51) in *. assert (c0 : 0 <= c <= / 2 ^ 10) by (unfold c; simpl (2 ^ 51); simpl (2 ^ 10); lra).
    assert (c1 : c * f0 <= c * M) by (apply Rmult_le_compat_l; lra). assert (c2 : c * f1 <= c * M) by (apply Rmult_le_compat_l; lra). assert (c3 : c * M <= / 2 ^ 10 * M) by (apply Rmult_le_compat_r; lra).
    assert (Mz : Rmax (z k) (z (S k)) <= (1 + / 2 ^ 10) * M + t6) by (apply Rabs_le_inv in E0, E1; apply Rmax_lub; lra).
    assert (F : Rabs (z k + (z (S k) - z k) * q - (f0 + (f1 - f0) * q)) <= c * M + t6).
    { replace (z k + (z (S k) - z k) * q - (f0 + (f1 - f0) * q)) with ((1 - q) * (z k - f0) + q * (z (S k) - f1)) by ring. eapply Rle_trans; [apply Rabs_triang|]. rewrite !Rabs_mult, (Rabs_pos_eq (1 - q)), (Rabs_pos_eq q) by lra.
      assert ((1 - q) * Rabs (z k - f0) <= (1 - q) * (c * M + t6)) by (apply Rmult_le_compat_l; lra). assert (q * Rabs (z (S k) - f1) <= q * (c * M + t6)) by (apply Rmult_le_compat_l; lra). lra. }
    rewrite C15 by lra. fold c. replace (4 / 2 ^ 600) with (4 * t6) in B by reflexivity. apply Rabs_le_inv in B, F. apply Rabs_le. simpl (2 ^ 50) in *. simpl (2 ^ 51) in *. simpl (2 ^ 10) in *. lra.
Qed.

(** Where the stored values do not fall, the answer is not negative. *)
Lemma c144_rising : forall xs rows chk i x v k r, good_grid xs -> roomy xs -> rows <> [] -> (forall row, In row rows -> good_values xs row) ->
  interp_ctor (N := SFNum) xs (nd2 (length xs) rows) chk = Ok i -> double x ->
  answers (interp_ens_pdf (N := SFNum) i (PScalar x)) (length rows) v -> (r < length rows)%nat -> (S k < length xs)%nat ->
  val64 (nth k xs zero64) < val64 x <= val64 (nth (S k) xs zero64) ->
  val64 (nth k (nth r (i_yvals i) []) zero64) <= val64 (nth (S k) (nth r (i_yvals i) []) zero64) -> 0 <= val64 (v r).
Proof.
  intros xs rows chk i x v k r Hg Hroom Hne Hr Hi Hx A Hl Hk Kv St. rewrite (answers_inj _ _ _ _ A (p_answers xs rows chk i Hg Hne Hr Hi x Hx) r Hl).
  pose proof (m_len xs Hg) as Le. set (n := pred (length xs)) in *.
  assert (I0 : first_edge xs <= val64 (nth k xs zero64)) by (apply (e_inc xs (proj1 Hg) 0 k); fold n; lia). assert (I1 : val64 (nth (S k) xs zero64) <= last_edge xs) by (apply (e_inc xs (proj1 Hg) (S k) n); fold n; lia).
  pose proof (p_found xs rows chk i Hg Hroom Hr Hi x Hx r Hl ltac:(lra)) as Fo. rewrite (p_tab xs rows chk i Hg Hr Hi r Hl) in St.
  rewrite (proj2 (p_vals xs rows chk Hg Hr r Hl k ltac:(fold n; lia))), (proj2 (p_vals xs rows chk Hg Hr r Hl (S k) ltac:(fold n; lia))) in St.
  refine (proj2 (proj2 (h_err xs _ (proj1 Hg) _ _ x Hx _ Fo) k ltac:(fold n; lia) Kv) St).
  - intros j Hj. apply rd_dbl.
  - apply (p_high xs rows chk Hg Hroom Hr r Hl).
Qed.

(** An ensemble with one PDF returns the stored value at every grid point. *)
Lemma c144_single : forall xs row chk i x k, good_grid xs -> roomy xs -> good_values xs row ->
  interp_ctor (N := SFNum) xs (nd2 (length xs) [row]) chk = Ok i -> double x -> (k < length xs)%nat -> val64 x = val64 (nth k xs zero64) ->
  interp_ens_pdf (N := SFNum) i (PScalar x) = Ok [[Fin (nth k (nth 0 (i_yvals i) []) zero64)]].
Proof.
  intros xs row chk i x k Hg Hroom Hv Hi Hx Hk Ev. assert (Hr : forall w, In w [row] -> good_values xs w) by (intros w [<-|[]]; exact Hv). pose proof (m_len xs Hg) as Le.
  pose proof (p_answers xs [row] chk i Hg ltac:(discriminate) Hr Hi x Hx) as A. unfold answers in A. cbn [length seq map] in A. rewrite A.
  rewrite (p_single xs [row] chk i Hg Hroom Hr Hi x Hx 0 ltac:(simpl; lia) k ltac:(reflexivity) ltac:(lia) Ev). reflexivity.
Qed.

(** Two triangles on the grid 0, 0.2, 0.3 have a negative density at 0.3; one of them alone has the density 0 there. *)
Definition t_grid : list spec_float := [S754_zero false; f64 7205759403792794 (-55); f64 5404319552844595 (-54)].
Definition t_row : list spec_float := [S754_zero false; f64 6755399441055744 (-51); S754_zero false].
Lemma c144_negative : exists i j x v w,
  interp_ctor (N := SFNum) t_grid (nd2 3 [t_row; t_row]) true = Ok i /\ interp_ctor (N := SFNum) t_grid (nd2 3 [t_row]) true = Ok j /\
  answers (interp_ens_pdf (N := SFNum) i (PScalar x)) 2 v /\ answers (interp_ens_pdf (N := SFNum) j (PScalar x)) 1 w /\
  val64 x = last_edge t_grid /\ val64 (v 0%nat) = - / 2 ^ 50 /\ val64 (w 0%nat) = 0.
Proof.
  eexists. eexists. exists (f64 5404319552844595 (-54)), (fun _ => S754_finite true 4503599627370496 (-102)), (fun _ => S754_zero false).
  split; [vm_compute; reflexivity|]. split; [vm_compute; reflexivity|]. split; [vm_compute; reflexivity|]. split; [vm_compute; reflexivity|]. split; [reflexivity|]. split; [|reflexivity].
  change (val64 (SFopp (f64 4503599627370496 (-102))) = - / 2 ^ 50). rewrite (proj2 (opp64 (f64 4503599627370496 (-102)) ltac:(split; reflexivity))), val_f64. simpl bpow. simpl (2 ^ 50). lra.
Qed.
Example c144_example : good_grid t_grid /\ roomy t_grid /\ good_values t_grid t_row /\ first_edge t_grid = 0 /\ dens_at t_grid t_row 1 = 2 / last_edge t_grid /\ dens_in t_grid t_row 0 (val64 (nth 1 t_grid zero64) / 2) = / last_edge t_grid.
Proof.
  assert (V2 : val64 (f64 7205759403792794 (-55)) = 7205759403792794 / 36028797018963968) by (rewrite val_f64; simpl bpow; lra). assert (V3 : val64 (f64 5404319552844595 (-54)) = 5404319552844595 / 18014398509481984) by (rewrite val_f64; simpl bpow; lra).
  assert (V : val64 (f64 6755399441055744 (-51)) = 3) by (rewrite val_f64; simpl bpow; lra). assert (V0 : val64 (S754_zero false) = 0) by reflexivity.
  assert (P : forall k, (3 <= k)%nat -> 8 <= 2 ^ k) by (intros k Hk; replace k with (3 + (k - 3))%nat by lia; rewrite pow_add; pose proof (pow_R1_Rle 2 (k - 3) ltac:(lra)); simpl (2 ^ 3); lra).
  assert (Q : forall k, (10 <= k)%nat -> / 2 ^ k <= / 1024) by (intros k Hk; apply Rinv_le_contravar; [lra|]; replace k with (10 + (k - 10))%nat by lia; rewrite pow_add; pose proof (pow_R1_Rle 2 (k - 10) ltac:(lra)); simpl (2 ^ 10); lra).
  pose proof (P 200%nat ltac:(lia)) as P2. pose proof (Q 500%nat ltac:(lia)) as P5. pose proof (Q 400%nat ltac:(lia)) as P4. pose proof (Q 1000%nat ltac:(lia)) as P10. set (c2 := 2 ^ 200) in *. set (c5 := / 2 ^ 500) in *. set (c4 := / 2 ^ 400) in *. set (c10 := / 2 ^ 1000) in *.
  assert (A : all_cells t_grid t_row = 3 / 2 * (5404319552844595 / 18014398509481984)).
  { unfold all_cells, cell, zero64, t_grid, t_row. cbn [length pred rsum nth]. rewrite V2, V3, V, V0. lra. }
  assert (L : last_edge t_grid = 5404319552844595 / 18014398509481984) by exact V3.
  split; [|split; [|split; [|split; [|split]]]].
  - split; [split; [simpl; lia|]; split; [simpl; lra|]; split|].
    + intros b H. cbn [t_grid In] in H. destruct H as [<-|[<-|[<-|[]]]]; try (apply modest_0); apply modest_f64_8; try reflexivity; simpl bpow; lra.
    + intros i Hi. cbn [t_grid length] in Hi. fold c10. destruct i as [|[|i]]; [| |lia]; cbn [t_grid nth]; rewrite ?V2, ?V3, ?V0; lra.
    + intros b H. fold c2. cbn [t_grid In] in H. destruct H as [<-|[<-|[<-|[]]]]; rewrite ?V2, ?V3, ?V0, Rabs_pos_eq by lra; lra.
  - intros i Hi. cbn [t_grid length] in Hi. fold c4. destruct i as [|[|i]]; [| |lia]; cbn [t_grid nth]; rewrite ?V2, ?V3, ?V0; lra.
  - split; [reflexivity|]. split; [|split; [left; reflexivity|fold c5; rewrite A; lra]].
    intros y H. fold c2. assert (D : modest y /\ 0 <= val64 y) by (cbn [t_row In] in H; destruct H as [<-|[<-|[<-|[]]]]; try (apply modest_0); apply modest_f64_8; try reflexivity; simpl bpow; lra).
    split; [apply D|]. cbn [t_row In] in H. destruct H as [<-|[<-|[<-|[]]]]; rewrite ?V, ?V0; lra.
  - reflexivity.
  - unfold dens_at. rewrite A, L. cbn [t_row nth]. rewrite V. lra.
  - unfold dens_in, dens_at. rewrite A, L. cbn [t_row t_grid nth]. rewrite V, V0, V2. lra.
Qed.
