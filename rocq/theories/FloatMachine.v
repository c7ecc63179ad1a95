(** Histograms on the machine's own numbers ([SFNum]): evaluation and lookup agree with the rounded reals ([DNum]). *)
From Coq Require Import List Arith ZArith Bool Sorted Lia Reals Lra Psatz Floats.SpecFloat.
From Flocq Require Import Core.Zaux Core.Raux.
From Verif Require Import Num NumProofs Py NdArray NumpyLib Utils ScipyWrap SortProofs InterpProofs BinProofs EvalProofs HistPdf HistProofs Spec Float FloatProofs FloatHist.
Import ListNotations.
Local Open Scope R_scope.

Lemma size_nd1 {A} (l : list A) : np_size (nd1 l) = length l. Proof. unfold np_size. cbn. lia. Qed.
(** ** Evaluation at one point, for any kind of numbers *)
Section AnyNumbers.
  Context {T : Type} {N : Num T}.
  Variable x : T.
  Hypothesis Hx : nleb x x = true.
  Lemma sort_repeat n : sort_by nleb (repeat x n) = repeat x n.
  Proof. unfold sort_by. induction n; [reflexivity|]. cbn [repeat fold_right]. rewrite IHn. destruct n; [reflexivity|]. cbn [repeat insert_by]. rewrite Hx. reflexivity. Qed.
  Lemma dedup_repeat n : dedup_by nleb (repeat x (S n)) = [x].
  Proof. induction n; [reflexivity|]. cbn [repeat dedup_by] in *. rewrite Hx. cbn [andb]. exact IHn. Qed.
  Lemma unique_repeat n : np_unique (repeat x (S n)) = [x].
  Proof. unfold np_unique, unique_by. rewrite sort_repeat. apply dedup_repeat. Qed.

  Lemma concat_single n : concat (repeat [x] n) = repeat x n.
  Proof. induction n; simpl; [reflexivity|f_equal; assumption]. Qed.
  Lemma flat_rows_one rows : flat_rows (repeat [x] (length rows)) rows = rows.
  Proof. unfold flat_rows. induction rows; simpl; auto. f_equal; auto. Qed.
  Lemma chunk_ones (g : nat -> T) n : forall s, chunks n 1 (place (fun _ => true) (fun _ => NaN) (repeat x n) (map g (seq s n))) = map (fun r => [Fin (g r)]) (seq s n).
  Proof. induction n as [|n IH]; intros s; [reflexivity|]. cbn [repeat seq map place chunks firstn skipn]. f_equal. apply IH. Qed.
  Lemma hist_scalar (h : hist T) : (0 < h_npdf h)%nat ->
    hist_ens_pdf h (PScalar x) = Ok (map (fun r => [Fin (hist_point (h_bins h) (h_pdfs h) x r)]) (seq 0 (h_npdf h))).
  Proof.
    intros Hk. unfold hist_ens_pdf, rv_pdf, rv_eval. cbn [broadcast_points bind]. rewrite concat_single.
    replace (flat_rows (repeat [x] (h_npdf h)) (seq 0 (h_npdf h))) with (seq 0 (h_npdf h)) by (rewrite <- (seq_length (h_npdf h) 0) at 2; symmetry; apply flat_rows_one).
    set (n := h_npdf h) in *. set (g := hist_point (h_bins h) (h_pdfs h) x).
    assert (C : forallb (fun _ : T => true) (repeat x n) = true) by (apply forallb_forall; auto). rewrite C, repeat_length.
    destruct (Nat.eqb_spec n 0); [lia|].
    assert (E : hist_pdf h (nd1 (repeat x n)) (nd1 (seq 0 n)) = Ok (map g (seq 0 n))).
    { unfold hist_pdf, evaluate_hist_x_multi_y, dispatch, get_eval_case. change (np_ndim (nd1 (repeat x n))) with 1%nat. change (np_ndim (nd1 (seq 0 n))) with 1%nat. cbn [Nat.leb andb negb Nat.eqb].
      rewrite !size_nd1, repeat_length, seq_length. change (dat (nd1 (repeat x n))) with (repeat x n). change (dat (nd1 (seq 0 n))) with (seq 0 n). destruct (Nat.eqb_spec n 1) as [E1|E1].
      - rewrite E1. reflexivity.
      - cbn [orb]. assert (V : np_unique (repeat x n) = [x]) by (replace n with (S (pred n)) by lia; apply unique_repeat). rewrite V.
        assert (U : np_unique_nat (seq 0 n) = seq 0 n) by apply np_unique_nat_sorted_id, seq_sorted. rewrite U. rewrite ?seq_length. cbn [length]. 
        destruct (Nat.eqb_spec 1 n); [lia|]. rewrite Nat.eqb_refl. rewrite ?size_nd1, ?seq_length. cbn [length]. rewrite ?seq_length, ?Nat.mul_1_l, Nat.eqb_refl. cbn [negb bind].
        f_equal. unfold evaluate_hist_x_multi_y_product, per_row, expand_last. cbn [dat nd1 map].
        assert (L : forall r, In r (seq 0 n) -> (r < length (h_pdfs h))%nat) by (intros r Hr; apply in_seq in Hr; unfold n, h_npdf in Hr; lia).
        revert L. generalize (seq 0 n). intros l L. induction l as [|r l IH]; [reflexivity|]. cbn [flat_map map]. rewrite IH by (intros; apply L; right; assumption).
        rewrite nth_map_in with (d' := []) by (apply L; left; reflexivity). cbn [map2 app fst snd]. f_equal.
        }
    rewrite E. cbn [bind]. f_equal.
    assert (W : match repeat [x] n with [] => 0%nat | l :: _ => length l end = 1%nat) by (destruct n; [lia|reflexivity]). rewrite W.
    rewrite repeat_length. apply chunk_ones.
  Qed.
End AnyNumbers.

(** ** The lookup *)
Lemma rd_le_bpow e z : (-1074 <= e)%Z -> Rabs z <= bpow radix2 e -> Rabs (rd z) <= bpow radix2 e.
Proof. intros He H. rewrite <- rd_abs, <- (rd_id (bpow radix2 e)) by (apply dbl_bpow, He). apply rd_mono, H. Qed.
Lemma small_le e z : (e < 1024)%Z -> Rabs z <= bpow radix2 e -> small z.
Proof. intros He H. eapply Rle_lt_trans; [exact H|]. apply bpow_lt, He. Qed.
Lemma bpow_add1 e : bpow radix2 e + bpow radix2 e = bpow radix2 (e + 1).
Proof. rewrite bpow_plus. simpl (bpow radix2 1). lra. Qed.
Lemma dbl64 x : fin64 x -> dbl (val64 x).
Proof.
  intros Hx. destruct (to_B x Hx) as (b & <- & Fb & V). rewrite <- V. unfold dbl. apply (BinarySingleNaN.generic_format_B2R 53 1024).
Qed.
Lemma val64_0 : val64 (S754_zero false) = 0. Proof. reflexivity. Qed.
Lemma fin64_0 : fin64 (S754_zero false). Proof. split; reflexivity. Qed.
Lemma nth64 l i : val64 (nth i l (S754_zero false)) = nth i (map val64 l) 0.
Proof. rewrite <- val64_0. symmetry. apply map_nth. Qed.
Lemma fin_nth l i : (forall b, In b l -> fin64 b) -> fin64 (nth i l (S754_zero false)).
Proof. intros H. destruct (nth_in_or_default i l (S754_zero false)) as [Hi| ->]; [apply H, Hi|apply fin64_0]. Qed.

(** numbers of moderate size *)
Definition moderate (e : Z) (x : spec_float) : Prop := fin64 x /\ Rabs (val64 x) <= bpow radix2 e.
Lemma mod_sub e x y : (-1074 <= e < 1023)%Z -> moderate e x -> moderate e y -> moderate (e + 1) (SFsub 53 1024 x y) /\ val64 (SFsub 53 1024 x y) = rd (val64 x - val64 y).
Proof.
  intros He [Fx Bx] [Fy By].
  assert (B : Rabs (rd (val64 x - val64 y)) <= bpow radix2 (e + 1)).
  { apply rd_le_bpow; [lia|]. rewrite <- bpow_add1. unfold Rminus. eapply Rle_trans; [apply Rabs_triang|]. rewrite Rabs_Ropp. lra. }
  destruct (sub64 x y Fx Fy (small_le _ _ (ltac:(lia) : (e + 1 < 1024)%Z) B)) as [F V]. split; [split|]; auto. rewrite V. exact B.
Qed.
Lemma mod_add e x y : (-1074 <= e < 1023)%Z -> moderate e x -> moderate e y -> moderate (e + 1) (SFadd 53 1024 x y) /\ val64 (SFadd 53 1024 x y) = rd (val64 x + val64 y).
Proof.
  intros He [Fx Bx] [Fy By].
  assert (B : Rabs (rd (val64 x + val64 y)) <= bpow radix2 (e + 1)).
  { apply rd_le_bpow; [lia|]. rewrite <- bpow_add1. eapply Rle_trans; [apply Rabs_triang|]. lra. }
  destruct (add64 x y Fx Fy (small_le _ _ (ltac:(lia) : (e + 1 < 1024)%Z) B)) as [F V]. split; [split|]; auto. rewrite V. exact B.
Qed.
Lemma mod_mul e1 e2 x y : (-1074 <= e1 + e2 < 1024)%Z -> moderate e1 x -> moderate e2 y -> moderate (e1 + e2) (SFmul 53 1024 x y) /\ val64 (SFmul 53 1024 x y) = rd (val64 x * val64 y).
Proof.
  intros He [Fx Bx] [Fy By].
  assert (B : Rabs (rd (val64 x * val64 y)) <= bpow radix2 (e1 + e2)).
  { apply rd_le_bpow; [lia|]. rewrite Rabs_mult, bpow_plus. apply Rmult_le_compat; auto using Rabs_pos. }
  destruct (mul64 x y Fx Fy (small_le _ _ (ltac:(lia) : (e1 + e2 < 1024)%Z) B)) as [F V]. split; [split|]; auto. rewrite V. exact B.
Qed.
Lemma mod_le e e' x : (e <= e')%Z -> moderate e x -> moderate e' x.
Proof. intros He [F B]. split; auto. eapply Rle_trans; [exact B|]. apply bpow_le, He. Qed.
Lemma mod_abs e x : moderate e x -> moderate e (nabs (N := SFNum) x) /\ val64 (nabs (N := SFNum) x) = Rabs (val64 x).
Proof.
  intros [F B]. unfold nabs. cbn [nleb n0 nopp SFNum]. rewrite (leb64 _ _ fin64_0 F), val64_0. destruct (Rleb 0 (val64 x)) eqn:E.
  - apply Rleb_true in E. rewrite (Rabs_pos_eq _ E). split; [split|]; auto.
  - assert (val64 x < 0) by (apply Rnot_le_lt; intros H; apply Rleb_true in H; congruence).
    destruct (opp64 x F) as [F' V]. rewrite V, Rabs_left by lra. split; [split|]; auto. rewrite V, Rabs_Ropp. exact B.
Qed.
Lemma frac64 q : (1 <= q <= 2 ^ 53)%Z -> moderate 0 (nfrac (N := SFNum) 1 q) /\ val64 (nfrac (N := SFNum) 1 q) = rd (rd 1 / rd (IZR q)).
Proof.
  intros Hq. unfold nfrac. cbn [nofZ ndiv SFNum].
  assert (R1 : rd 1 = 1) by (apply (rd_IZR 1); cbv; discriminate). assert (Rq : rd (IZR q) = IZR q) by (apply rd_IZR; lia).
  assert (S1 : small (rd 1)) by (rewrite R1; apply (small_le 0); [lia|]; rewrite Rabs_pos_eq; simpl; lra).
  assert (Hq' : 1 <= IZR q <= bpow radix2 53) by (split; [apply IZR_le; lia|]; change (bpow radix2 53) with (IZR (2 ^ 53)); apply IZR_le; lia).
  assert (Sq : small (rd (IZR q))) by (rewrite Rq; apply (small_le 53); [lia|]; rewrite Rabs_pos_eq; lra).
  destruct (ofZ64 1 S1) as [F1 V1]. destruct (ofZ64 q Sq) as [Fq Vq].
  assert (B : Rabs (rd (1 / IZR q)) <= bpow radix2 0).
  { apply rd_le_bpow; [lia|]. rewrite Rabs_pos_eq by (apply Rlt_le, Rdiv_lt_0_compat; lra). simpl. apply Rmult_le_reg_r with (IZR q); [lra|]. field_simplify; lra. }
  destruct (div64 _ _ F1 Fq) as [F V].
  - rewrite Vq, Rq. lra.
  - rewrite V1, Vq, R1, Rq. exact (small_le 0 _ ltac:(lia) B).
  - rewrite V, V1, Vq, R1, Rq. split; [split|]; auto. rewrite V, V1, Vq, R1, Rq. exact B.
Qed.
Lemma isclose64 a b : moderate 1001 a -> moderate 1001 b -> np_isclose (N := SFNum) a b = np_isclose (N := DNum) (val64 a) (val64 b).
Proof.
  intros Ma Mb. rewrite isclose_d. unfold np_isclose. change nsub with (SFsub 53 1024). cbn [nleb nadd nmul nsub SFNum].
  destruct (mod_sub 1001 a b ltac:(lia) Ma Mb) as [M1 V1]. destruct (mod_abs _ _ M1) as [M2 V2].
  destruct (mod_abs _ _ Mb) as [M3 V3]. destruct (frac64 100000000 ltac:(lia)) as [M4 V4]. destruct (frac64 100000 ltac:(lia)) as [M5 V5].
  destruct (mod_mul 0 1001 _ _ ltac:(lia) M5 M3) as [M6 V6]. destruct (mod_add 1001 _ _ ltac:(lia) (mod_le 0 1001 _ ltac:(lia) M4) M6) as [M7 V7].
  rewrite (leb64 _ _ (proj1 M2) (proj1 M7)), V7, V6, V5, V4, V3, V2, V1. reflexivity.
Qed.
Lemma ndiff_nth_64 l i : (S i < length l)%nat -> nth i (ndiff (N := SFNum) l) (S754_zero false) = SFsub 53 1024 (nth (S i) l (S754_zero false)) (nth i l (S754_zero false)).
Proof.
  intros. unfold ndiff. rewrite map2_nth with (a := S754_zero false) (b := S754_zero false); [|rewrite tl_length; lia|rewrite removelast_length; lia].
  rewrite tl_nth, removelast_nth by auto. reflexivity.
Qed.
Lemma ndiff_length_64 l : length (ndiff (N := SFNum) l) = pred (length l).
Proof. unfold ndiff. rewrite map2_len, tl_length, removelast_length. lia. Qed.
Lemma list_by_nth {A} (l1 l2 : list A) d : length l1 = length l2 -> (forall i, (i < length l1)%nat -> nth i l1 d = nth i l2 d) -> l1 = l2.
Proof. intros L H. apply (nth_ext _ _ d d L H). Qed.
Lemma ndiff64 l : (forall b, In b l -> moderate 1000 b) -> map val64 (ndiff (N := SFNum) l) = ndiff (N := DNum) (map val64 l) /\ forall v, In v (ndiff (N := SFNum) l) -> moderate 1001 v.
Proof.
  intros H.
  assert (P : forall i, (S i < length l)%nat -> moderate 1001 (nth i (ndiff (N := SFNum) l) (S754_zero false)) /\ val64 (nth i (ndiff (N := SFNum) l) (S754_zero false)) = rd (nth (S i) (map val64 l) 0 - nth i (map val64 l) 0)).
  { intros i Hi. rewrite ndiff_nth_64 by exact Hi. destruct (mod_sub 1000 (nth (S i) l (S754_zero false)) (nth i l (S754_zero false)) ltac:(lia) ltac:(apply H, nth_In; lia) ltac:(apply H, nth_In; lia)) as [M V].
    split; [exact M|]. rewrite V, !nth64. reflexivity. }
  split.
  - apply list_by_nth with (d := 0); rewrite map_length, ndiff_length_64; [rewrite ndiff_length_d, map_length; reflexivity|].
    intros i Hi. rewrite <- nth64. rewrite ndiff_nth_d by (rewrite map_length; lia). apply P. lia.
  - intros v Hv. apply In_nth with (d := S754_zero false) in Hv. destruct Hv as (i & Hi & <-). rewrite ndiff_length_64 in Hi. apply P. lia.
Qed.
Lemma allclose64 l b : (forall v, In v l -> moderate 1001 v) -> moderate 1001 b -> np_allclose_scalar (N := SFNum) l b = np_allclose_scalar (N := DNum) (map val64 l) (val64 b).
Proof.
  intros H Hb. unfold np_allclose_scalar. induction l as [|a l IH]; [reflexivity|]. cbn [forallb map]. rewrite IH by (intros; apply H; right; assumption). f_equal. apply isclose64; [apply H; left; reflexivity|exact Hb].
Qed.
Lemma search64 l x : (forall b, In b l -> fin64 b) -> fin64 x -> searchsorted_left (N := SFNum) l x = searchsorted_left (N := DNum) (map val64 l) (val64 x).
Proof.
  intros H Hx. induction l as [|a l IH]; [reflexivity|]. cbn [searchsorted_left map]. unfold nltb. cbn [nleb SFNum DNum]. rewrite leb64 by (auto; apply H; left; reflexivity).
  rewrite IH by (intros; apply H; right; assumption). reflexivity.
Qed.
Lemma head64 l : val64 (nhead (N := SFNum) l) = nhead (N := DNum) (map val64 l).
Proof. destruct l; reflexivity. Qed.
Lemma head_mod e l : (forall v, In v l -> moderate e v) -> moderate e (nhead (N := SFNum) l).
Proof. intros H. destruct l; [|apply H; left; reflexivity]. split; [apply fin64_0|]. cbn [nhead n0 SFNum]. change (Rabs 0 <= bpow radix2 e). rewrite Rabs_R0. apply bpow_ge_0. Qed.

(** The machine's lookup is the one of the rounded reals. *)
Lemma lookup64 bins x : (2 <= length bins)%nat -> (forall b, In b bins -> moderate 1000 b) -> moderate 1000 x ->
  let w := rd (nth 1 (map val64 bins) 0 - nth 0 (map val64 bins) 0) in 0 < w -> Rabs (val64 x - nth 0 (map val64 bins) 0) <= bpow radix2 1000 * w ->
  get_bin_indices (N := SFNum) bins x = get_bin_indices (N := DNum) (map val64 bins) (val64 x).
Proof.
  intros Hn Hb Hx w Hw Hq. unfold get_bin_indices.
  assert (R : get_bin_index_raw (N := SFNum) bins x = get_bin_index_raw (N := DNum) (map val64 bins) (val64 x)).
  { unfold get_bin_index_raw, bin_widths. destruct (ndiff64 bins Hb) as [Ed Hd].
    rewrite allclose64 by (auto; apply head_mod, Hd). rewrite head64, Ed. destruct (np_allclose_scalar _ _).
    - cbn [nfloor SFNum DNum ndiv nsub].
      destruct (mod_sub 1000 x (nhead (N := SFNum) bins) ltac:(lia) Hx (head_mod _ _ Hb)) as [M1 V1].
      pose proof (head_mod _ _ Hd) as Mw. assert (Vw : val64 (nhead (N := SFNum) (ndiff (N := SFNum) bins)) = w).
      { rewrite head64, Ed, nhead_d, ndiff_nth_d by (rewrite map_length; lia). reflexivity. }
      assert (B : Rabs (rd (val64 x - nth 0 (map val64 bins) 0) / w) <= bpow radix2 1001).
      { unfold Rdiv. rewrite Rabs_mult, (Rabs_pos_eq (/ w)) by (apply Rlt_le, Rinv_0_lt_compat, Hw). apply Rmult_le_reg_r with w; [exact Hw|]. rewrite Rmult_assoc, Rinv_l, Rmult_1_r by lra.
        pose proof (sub_near (val64 x) (nth 0 (map val64 bins) 0)) as S. specialize (S ltac:(apply dbl64, Hx)). rewrite <- nth64 in S. specialize (S ltac:(apply dbl64, fin_nth; intros; apply Hb; assumption)). rewrite nth64 in S.
        change 1001%Z with (1000 + 1)%Z. rewrite <- (bpow_add1 1000). set (t := val64 x - nth 0 (map val64 bins) 0) in *. replace (rd t) with ((rd t - t) + t) by ring. eapply Rle_trans; [apply Rabs_triang|]. pose proof (Rabs_pos t). lra. }
      destruct (div64 _ _ (proj1 M1) (proj1 Mw)) as [F V].
      + rewrite Vw. lra.
      + rewrite Vw, V1, head64, nhead_d. apply (small_le 1001); [lia|]. apply rd_le_bpow; [lia|exact B].
      + rewrite (floor64 _ F), V, V1, Vw, head64. do 3 f_equal. rewrite nhead_d, ndiff_nth_d by (rewrite map_length; lia). reflexivity.
    - rewrite search64 by (try (intros; apply Hb; assumption); apply Hx). reflexivity. }
  rewrite R, map_length. reflexivity.
Qed.
