(** Lemmas on the Brier score, the conditional density loss and chunked evaluation. *)
From Coq Require Import String List Arith ZArith Bool Lia Reals Lra Sorted.
From Verif Require Import Num NumProofs Py NdArray NumpyLib Utils ScipyWrap Spec Values Ensemble Classes
  HistPdf InterpPdf QuantPdf MixmodPdf Packing PackedPdf
  SortProofs BinProofs EvalProofs NdProofs InterpProofs HistProofs InterpPdfProofs HistTheorems GridTheorems IrrTheorems
  QuantTheorems MixmodTheorems PackingTheorems PackedTheorems Kinds KindProofs EnsembleProofs KindInputs ReachProofs AppendProofs
  RowProofs EnsembleTheorems IntegrateTheorems Hdf5 Hdf5Proofs WriteProofs Hdf5Theorems Metrics MetricsProofs.
Import ListNotations.
Local Open Scope string_scope.
Local Open Scope list_scope.
Local Open Scope R_scope.

(** ** Arrays *)
(** The array with [n] rows and [k] columns and entries [a i j] *)
Definition matrix (n k : nat) (a : nat -> nat -> R) : nd R := nd2 k (map (fun i => map (a i) (seq 0 k)) (seq 0 n)).
Lemma map2_app {A B C} (f : A -> B -> C) l1 l2 : forall k1 k2, length l1 = length k1 -> map2 f (l1 ++ l2) (k1 ++ k2) = map2 f l1 k1 ++ map2 f l2 k2.
Proof. induction l1 as [|x l1 IH]; intros [|y k1] k2 H; try discriminate; [reflexivity|]. cbn [app map2]. f_equal. apply IH. simpl in H. lia. Qed.
Lemma map2_concat {A B C D} (f : A -> B -> C) (g : D -> list A) (h : D -> list B) l : (forall x, In x l -> length (g x) = length (h x)) ->
  map2 f (concat (map g l)) (concat (map h l)) = concat (map (fun x => map2 f (g x) (h x)) l).
Proof.
  induction l as [|x l IH]; intros H; [reflexivity|]. cbn [map concat]. rewrite map2_app by (apply H; left; reflexivity). rewrite IH; [reflexivity|]. intros y Hy. apply H. right. exact Hy.
Qed.
Lemma nsum_concat (L : list (list R)) : nsum (concat L) = nsum (map nsum L).
Proof. induction L as [|l L IH]; [reflexivity|]. cbn [concat map]. rewrite nsum_app, nsum_cons, IH. reflexivity. Qed.
Definition sq (x : R) : R := x * x.
Lemma sq_diff_rows n k (a b : nat -> nat -> R) sp st :
  nsum (sq_diff (mknd sp (concat (map (fun i => map (a i) (seq 0 k)) (seq 0 n)))) (mknd st (concat (map (fun i => map (b i) (seq 0 k)) (seq 0 n)))))
  = rsum n (fun i => rsum k (fun j => sq (a i j - b i j))).
Proof.
  unfold sq_diff. cbn [dat]. rewrite map2_concat by (intros; rewrite !map_length; reflexivity). rewrite nsum_concat, map_map, nsum_seq. apply rsum_ext. intros i _.
  rewrite map2_map, nsum_seq. reflexivity.
Qed.
Lemma matrix_shape n k a : shp (matrix n k a) = [n; k].
Proof. unfold matrix, nd2. cbn [shp]. rewrite map_length, seq_length. reflexivity. Qed.
Lemma shape_refl s : shape_eqb s s = true.
Proof. apply shape_eqb_spec. reflexivity. Qed.
Definition brier_sum (n k : nat) (a b : nat -> nat -> R) : R := rsum n (fun i => rsum k (fun j => sq (a i j - b i j))).
Lemma brier_matrix n k a b : (0 < n)%nat -> brier_evaluate (matrix n k a) (matrix n k b) = Ok (Fin (brier_sum n k a b / INR n)).
Proof.
  intros Hn. unfold brier_evaluate, brier_valid. rewrite !matrix_shape, shape_refl. cbn [negb bind]. unfold brier_count. rewrite matrix_shape. cbn [prod fold_right]. rewrite Nat.mul_1_r.
  destruct (Nat.eqb_spec n 0); [lia|]. unfold matrix, nd2 at 1 2. rewrite sq_diff_rows. cbn [ndiv nofZ RNum]. rewrite <- INR_IZR_INZ. reflexivity.
Qed.
Lemma brier_matrix_sum n k a b : brier_accumulate (matrix n k a) (matrix n k b) = Ok (brier_sum n k a b).
Proof.
  unfold brier_accumulate, brier_valid. rewrite !matrix_shape, shape_refl. cbn [negb bind]. unfold matrix, nd2. rewrite sq_diff_rows. reflexivity.
Qed.
Lemma brier_vector k (a b : nat -> R) : (0 < k)%nat -> brier_evaluate (nd1 (map a (seq 0 k))) (nd1 (map b (seq 0 k))) = Ok (Fin (rsum k (fun j => sq (a j - b j)))).
Proof.
  intros Hk. unfold brier_evaluate, brier_valid, nd1. cbn [shp]. rewrite !map_length, seq_length, shape_refl. cbn [negb bind brier_count shp].
  unfold sq_diff. cbn [dat Nat.eqb]. rewrite map2_map, nsum_seq. cbn [ndiv nofZ RNum]. do 2 f_equal. change (IZR (Z.of_nat 1)) with 1. unfold Rdiv. rewrite Rinv_1, Rmult_1_r. reflexivity.
Qed.
Lemma brier_rejects (p t : nd R) : shp p <> shp t -> brier_evaluate p t = Err ValueError /\ brier_accumulate p t = Err ValueError.
Proof.
  intros H. unfold brier_evaluate, brier_accumulate, brier_valid. destruct (shape_eqb (shp p) (shp t)) eqn:E; [apply shape_eqb_spec in E; congruence|]. split; reflexivity.
Qed.
(** Rows of probabilities against certain outcomes *)
Definition one_hot (h : nat -> nat) (i j : nat) : R := if Nat.eqb j (h i) then 1 else 0.
Lemma rsum_delta n h (c : R) : rsum n (fun j => if Nat.eqb j h then c else 0) = if (h <? n)%nat then c else 0.
Proof.
  induction n as [|n IH]; cbn [rsum]; [reflexivity|]. rewrite IH. destruct (Nat.ltb_spec h n), (Nat.ltb_spec h (S n)), (Nat.eqb_spec n h); try lia; lra.
Qed.
Lemma rsum_plus n f g : rsum n (fun i => f i + g i) = rsum n f + rsum n g.
Proof. induction n as [|n IH]; cbn [rsum]; [lra|]. rewrite IH. ring. Qed.
Lemma row_range k (a : nat -> R) h : (h < k)%nat -> (forall j, (j < k)%nat -> 0 <= a j) -> rsum k a = 1 ->
  rsum k (fun j => sq (a j - (if Nat.eqb j h then 1 else 0))) <= 2 - 2 * a h.
Proof.
  intros Hh Hp Hs. assert (H1 : forall j, (j < k)%nat -> a j <= 1) by (intros j Hj; rewrite <- Hs; apply rsum_term; auto).
  assert (E : rsum k (fun j => sq (a j - (if Nat.eqb j h then 1 else 0))) = rsum k (fun j => sq (a j)) + rsum k (fun j => if Nat.eqb j h then 1 - 2 * a h else 0)).
  { rewrite <- rsum_plus. apply rsum_ext. intros j _. unfold sq. destruct (Nat.eqb_spec j h) as [->|]; ring. }
  rewrite E, rsum_delta. destruct (Nat.ltb_spec h k); [|lia].
  assert (rsum k (fun j => sq (a j)) <= rsum k a).
  { apply rsum_le. intros j Hj. unfold sq. pose proof (Hp j Hj). pose proof (H1 j Hj). nra. }
  lra.
Qed.
Lemma sum_zero n (f : nat -> R) : (forall i, (i < n)%nat -> 0 <= f i) -> rsum n f = 0 <-> forall i, (i < n)%nat -> f i = 0.
Proof.
  intros Hp. split.
  - intros H i Hi. pose proof (rsum_term n f i Hp Hi). pose proof (Hp i Hi). lra.
  - intros H. clear Hp. induction n as [|n IH]; cbn [rsum]; [reflexivity|]. rewrite IH by (intros; apply H; lia). rewrite H by lia. ring.
Qed.
Lemma sq_pos x : 0 <= sq x.
Proof. apply Rle_0_sqr. Qed.
Lemma sq_zero x : sq x = 0 <-> x = 0.
Proof. unfold sq. split; [intros H; destruct (Rmult_integral _ _ H); auto|intros ->; ring]. Qed.
Lemma brier_sum_pos n k a b : 0 <= brier_sum n k a b.
Proof. apply rsum_nonneg. intros. apply rsum_nonneg. intros. apply sq_pos. Qed.
Lemma brier_sum_zero n k a b : brier_sum n k a b = 0 <-> forall i j, (i < n)%nat -> (j < k)%nat -> a i j = b i j.
Proof.
  unfold brier_sum. rewrite sum_zero by (intros; apply rsum_nonneg; intros; apply sq_pos). split.
  - intros H i j Hi Hj. specialize (H i Hi). rewrite sum_zero in H by (intros; apply sq_pos). specialize (H j Hj). cbn beta in H. apply (proj1 (sq_zero _)) in H. lra.
  - intros H i Hi. apply sum_zero; [intros; apply sq_pos|]. intros j Hj. apply sq_zero. rewrite H by auto. lra.
Qed.

(** ** calculate_brier *)
Definition in_limits (lo hi : R) (truth : list R) : Prop := forall t, In t truth -> lo <= t <= hi.
Lemma limits_check lo hi truth : in_limits lo hi truth <-> existsb (fun t => nltb t lo) truth || existsb (fun t => nltb hi t) truth = false.
Proof.
  unfold in_limits. induction truth as [|t l IH]; cbn [existsb]; [cbn; split; [reflexivity|intros _ t []]|].
  destruct (nltb_reflect t lo) as [H1|H1]; cbn [orb]; [split; [intros H; specialize (H t (or_introl eq_refl)); lra|discriminate]|].
  destruct (nltb_reflect hi t) as [H2|H2]; cbn [orb]; [rewrite orb_true_r; split; [intros H; specialize (H t (or_introl eq_refl)); lra|discriminate]|].
  rewrite <- IH. split; intros H u Hu; [apply H; right; exact Hu|]. destruct Hu as [<-|Hu]; [lra|apply H; exact Hu].
Qed.
(** density of PDF [j] and truth [j] at point [i] of the grid *)
Definition predicted (f : nat -> R -> R) (lo r : R) (j i : nat) : R := f j (gpoint lo r i).
Definition observed (truth : list R) (lo r : R) (j i : nat) : R := hit (gpoint lo r i) r (nth j truth 0).
Lemma map_nth_seq {B} (h : R -> B) (l : list R) : map h l = map (fun j => h (nth j l 0)) (seq 0 (length l)).
Proof. induction l as [|x l IH]; [reflexivity|]. cbn [map length seq nth]. f_equal. rewrite IH, <- seq_shift, map_map. reflexivity. Qed.
Lemma truth_rows lo hi g n truth : grid_laws lo hi g n -> (1 <= n)%nat -> in_limits lo hi truth ->
  map (fun t => map (fun c => nofZ (Z.of_nat c)) (np_histogram [t] (mg_edges g))) truth =
  map (fun j => map (observed truth lo (mg_res g) j) (seq 0 n)) (seq 0 (length truth)).
Proof.
  intros Hg Hn Ht. transitivity (map (fun t => map (fun i => hit (gpoint lo (mg_res g) i) (mg_res g) t) (seq 0 n)) truth).
  - apply map_ext_in. intros t Hin. rewrite (histogram_hits lo hi g n t Hg Hn (Ht t Hin)). apply (grid_line lo hi g n (fun x => hit x (mg_res g) t) Hg).
  - rewrite map_nth_seq. reflexivity.
Qed.
Lemma prepare_eq X p m f truth lo hi dx n r : fill_outside X -> has_density X p m f -> metric_grid lo hi dx n r -> length truth = m -> in_limits lo hi truth ->
  prepare_for_brier p truth lo hi dx = Ok (matrix m n (predicted f lo r), np_squeeze (matrix m n (observed truth lo r))).
Proof.
  intros HX Hp Hg Hl Ht. destruct (metric_grid_ok _ _ _ _ _ Hg) as (g & Eg & Hgl & Er). pose proof Hp as ((M & Hm & HM) & Hn & _).
  destruct (made_shape X M p HX Hm) as [Hs H1]. unfold prepare_for_brier. rewrite Hn, Hl, Nat.eqb_refl. cbn [negb]. rewrite (proj1 (limits_check lo hi truth) Ht), Eg. cbn [bind].
  rewrite (on_grid_eq X p m f _ Hp) by apply Hgl. cbn [bind]. rewrite Hs, Hn. cbn [app]. pose proof Hgl as (Hc & _ & He & _). rewrite Hc. f_equal. f_equal.
  - unfold matrix, nd2. rewrite map_length, seq_length. f_equal. f_equal. apply map_ext. intros j. rewrite (grid_line lo hi g n _ Hgl), Er. reflexivity.
  - destruct Hg as (_ & H2 & _). unfold truth_array. destruct truth as [|t0 tr] eqn:Etr; [simpl in Hl; lia|]. rewrite <- Etr in *.
    rewrite (truth_rows lo hi g n truth Hgl ltac:(lia) Ht), He, Hl, Er. reflexivity.
Qed.
Lemma squeeze_keeps m n a : (2 <= m)%nat -> (2 <= n)%nat -> np_squeeze (matrix m n a) = matrix m n a.
Proof.
  intros Hm Hn. unfold np_squeeze. rewrite matrix_shape. cbn [filter]. destruct (Nat.eqb_spec m 1); [lia|]. destruct (Nat.eqb_spec n 1); [lia|]. cbn [negb].
  rewrite <- (matrix_shape m n a). destruct (matrix m n a); reflexivity.
Qed.
Lemma squeeze_one n a : (2 <= n)%nat -> shp (np_squeeze (matrix 1 n a)) = [n].
Proof. intros Hn. unfold np_squeeze. rewrite matrix_shape. cbn [filter shp Nat.eqb negb]. destruct (Nat.eqb_spec n 1); [lia|]. reflexivity. Qed.
Definition brier_total (f : nat -> R -> R) (truth : list R) (lo r : R) (m n : nat) : R := brier_sum m n (predicted f lo r) (observed truth lo r).
Lemma brier_eq X p m f truth lo hi dx n r : fill_outside X -> has_density X p m f -> metric_grid lo hi dx n r -> length truth = m -> in_limits lo hi truth -> (2 <= m)%nat ->
  calculate_brier p truth lo hi dx = Ok (Fin (brier_total f truth lo r m n / INR m)) /\
  calculate_brier_for_accumulation p truth lo hi dx = Ok (brier_total f truth lo r m n, m).
Proof.
  intros HX Hp Hg Hl Ht Hm. pose proof Hg as (_ & H2 & _). unfold calculate_brier, calculate_brier_for_accumulation. rewrite (prepare_eq X p m f truth lo hi dx n r) by auto. cbn [bind fst snd].
  rewrite squeeze_keeps by auto. rewrite brier_matrix by lia. rewrite brier_matrix_sum. cbn [bind]. destruct Hp as (_ & -> & _). split; reflexivity.
Qed.
Lemma brier_single X p f truth lo hi dx n r : fill_outside X -> has_density X p 1 f -> metric_grid lo hi dx n r -> length truth = 1%nat -> in_limits lo hi truth ->
  calculate_brier p truth lo hi dx = Err ValueError /\ calculate_brier_for_accumulation p truth lo hi dx = Err ValueError.
Proof.
  intros HX Hp Hg Hl Ht. pose proof Hg as (_ & H2 & _). unfold calculate_brier, calculate_brier_for_accumulation. rewrite (prepare_eq X p 1 f truth lo hi dx n r) by auto. cbn [bind fst snd].
  destruct (brier_rejects (matrix 1 n (predicted f lo r)) (np_squeeze (matrix 1 n (observed truth lo r)))) as [-> ->]; [|split; reflexivity].
  rewrite squeeze_one, matrix_shape by exact H2. discriminate.
Qed.
Lemma brier_bad p truth lo hi dx : e_npdf p <> length truth \/ ~ in_limits lo hi truth ->
  calculate_brier p truth lo hi dx = Err ValueError /\ calculate_brier_for_accumulation p truth lo hi dx = Err ValueError.
Proof.
  intros H. assert (E : prepare_for_brier p truth lo hi dx = Err ValueError).
  { unfold prepare_for_brier. destruct (Nat.eqb_spec (e_npdf p) (length truth)) as [El|El]; [|reflexivity]. cbn [negb]. destruct H as [H|H]; [congruence|].
    rewrite limits_check in H. destruct (existsb _ truth || existsb _ truth); [reflexivity|congruence]. }
  unfold calculate_brier, calculate_brier_for_accumulation. rewrite E. split; reflexivity.
Qed.

(** ** Chunks *)
(** [splits X e a refs cs]: the chunks [cs] are consecutive parts of [e] from PDF [a] to the last, each with its
    piece of the reference values *)
Fixpoint splits (X : scipy) (e : ens R) (a : nat) (ref : list R) (cs : list (ens R * list R)) : Prop :=
  match cs with
  | [] => a = e_npdf e
  | (c, t) :: cs' => part_of X e (a, (a + length t)%nat, c) /\ t = firstn (length t) (skipn a ref) /\ splits X e (a + length t)%nat ref cs'
  end.
Lemma part_density X e m f s a b c : fill_outside X -> has_density X e m f -> has_ancil e s -> part_of X e (a, b, c) ->
  has_density X c (b - a) (fun j => f (a + j)%nat) /\ (b <= m)%nat.
Proof.
  intros HX ((M & Hm & HM) & Hn & He & Hg) Hs Hpart. pose proof Hpart as (Hab & Hb & Hc). rewrite Hn in Hb.
  assert (Hk : picks (e_npdf e) (KSlice (Z.of_nat a) (Z.of_nat b)) (seq a (b - a))) by (apply picks_iff; apply slice_positions; lia).
  assert (Hne : seq a (b - a) <> []).
  { intros E. apply (f_equal (@length nat)) in E. rewrite seq_length in E. simpl in E. lia. }
  destruct (c21_slice X M e _ _ s HX Hm Hk Hne Hs) as (c' & Ec & Hm' & Hn' & _ & Hev & _); [discriminate|].
  rewrite Ec in Hc. injection Hc as ->. rewrite seq_length in Hn'. split; [|exact Hb]. split; [eauto|]. split; [exact Hn'|].
  assert (Hsel : forall (h : nat -> list (xnum R)), select [] (map h (seq 0 m)) (seq a (b - a)) = map (fun j => h (a + j)%nat) (seq 0 (b - a))).
  { intros h. unfold select. rewrite <- (Nat.add_0_r a) at 1. generalize (Nat.add_0_r a). intros _.
    apply nth_ext with (d := []) (d' := []); [rewrite !map_length, !seq_length; reflexivity|]. intros i Hi. rewrite map_length, seq_length in Hi.
    rewrite (nth_indep _ [] (nth 0 (map h (seq 0 m)) [])) by (rewrite map_length, seq_length; exact Hi).
    rewrite (map_nth (fun p => nth p (map h (seq 0 m)) []) (seq (a + 0) (b - a)) 0%nat), seq_nth by exact Hi.
    rewrite (nth_indep (map (fun j => h (a + j)%nat) (seq 0 (b - a))) [] (h (a + 0)%nat)) by (rewrite map_length, seq_length; exact Hi).
    rewrite (map_nth (fun j => h (a + j)%nat)), seq_nth by exact Hi. rewrite (nth_indep _ [] (h 0%nat)) by (rewrite map_length, seq_length; lia).
    rewrite (map_nth h), seq_nth by lia. f_equal. lia. }
  split.
  - intros x. destruct (Hev MPdf (PScalar x) HM I) as (t & Et & _ & Ev). cbn [evaluate] in Et, Ev. rewrite He in Et. injection Et as <-. rewrite Ev, Hsel. reflexivity.
  - intros l Hl. destruct (Hev MPdf (PGrid l) HM Hl) as (t & Et & _ & Ev). cbn [evaluate] in Et, Ev. rewrite (Hg l Hl) in Et. unfold table in Et. injection Et as <-. rewrite Ev, Hsel. reflexivity.
Qed.
Lemma rsum_split n k f : rsum (n + k) f = rsum n f + rsum k (fun i => f (n + i)%nat).
Proof. induction k as [|k IH]; [rewrite Nat.add_0_r; cbn; lra|]. rewrite Nat.add_succ_r. cbn [rsum]. rewrite IH. lra. Qed.
(** sums over the chunks: [part_sums A a cs] are the sums of [A] over the PDFs of each chunk *)
Fixpoint part_sums (A : nat -> R) (a : nat) (cs : list (ens R * list R)) : list (R * nat) :=
  match cs with [] => [] | (_, t) :: cs' => (rsum (length t) (fun j => A (a + j)%nat), length t) :: part_sums A (a + length t)%nat cs' end.
Lemma part_sums_total X e ref A cs : forall a, splits X e a ref cs ->
  rsum a A + nsum (map fst (part_sums A a cs)) = rsum (e_npdf e) A /\ (a + list_sum (map snd (part_sums A a cs)) = e_npdf e)%nat.
Proof.
  induction cs as [|[c t] cs IH]; intros a H; cbn [splits part_sums map] in *.
  - subst a. rewrite nsum_nil. cbn. split; [lra|lia].
  - destruct H as (_ & _ & H). destruct (IH _ H) as [H1 H2]. rewrite nsum_cons. cbn [fst snd list_sum fold_right]. rewrite <- H1, rsum_split. split; [lra|].
    change (fold_right Nat.add 0%nat (map snd (part_sums A (a + length t)%nat cs))) with (list_sum (map snd (part_sums A (a + length t)%nat cs))). lia.
Qed.
Lemma splits_bound X e ref cs : forall a, splits X e a ref cs -> (a <= e_npdf e)%nat.
Proof. induction cs as [|[c t] cs IH]; intros a H; cbn [splits] in H; [lia|]. destruct H as (_ & _ & H). apply IH in H. lia. Qed.
Lemma nth_piece (ref t : list R) a j : t = firstn (length t) (skipn a ref) -> (j < length t)%nat -> nth j t 0 = nth (a + j) ref 0.
Proof.
  intros E Hj. rewrite <- (firstn_skipn_nth ref a (a + length t) (a + j) 0) by lia. replace (a + j - a)%nat with j by lia. replace (a + length t - a)%nat with (length t) by lia. rewrite <- E. reflexivity.
Qed.

(** ** Brier score over chunks *)
Lemma in_piece {A} a n (l : list A) u : In u (firstn n (skipn a l)) -> In u l.
Proof.
  intros H. rewrite <- (firstn_skipn a l). apply in_or_app. right. rewrite <- (firstn_skipn n (skipn a l)). apply in_or_app. left. exact H.
Qed.
Definition brier_row (f : nat -> R -> R) (truth : list R) (lo r : R) (n j : nat) : R := rsum n (fun i => sq (predicted f lo r j i - observed truth lo r j i)).
Lemma brier_chunks X e m f s truth lo hi dx n r cs : fill_outside X -> has_density X e m f -> has_ancil e s -> metric_grid lo hi dx n r -> in_limits lo hi truth ->
  (forall c t, In (c, t) cs -> (2 <= length t)%nat) -> forall a, splits X e a truth cs ->
  mapM (fun x => calculate_brier_for_accumulation (fst x) (snd x) lo hi dx) cs = Ok (part_sums (brier_row f truth lo r n) a cs).
Proof.
  intros HX He Hs Hg Ht. induction cs as [|[c t] cs IH]; intros H2 a H; [reflexivity|]. cbn [splits] in H. destruct H as (Hpart & Et & H).
  destruct (part_density X e m f s _ _ _ HX He Hs Hpart) as [Hc Hb]. replace (a + length t - a)%nat with (length t) in Hc by lia.
  assert (Hin : in_limits lo hi t) by (intros u Hu; apply Ht; apply (in_piece a (length t)); rewrite <- Et; exact Hu).
  cbn [mapM fst snd]. rewrite (proj2 (brier_eq X c (length t) _ t lo hi dx n r HX Hc Hg eq_refl Hin (H2 c t (or_introl eq_refl)))). cbn [bind].
  rewrite (IH (fun c' t' Hi => H2 c' t' (or_intror Hi)) _ H). cbn [bind part_sums]. do 3 f_equal.
  unfold brier_total, brier_sum, brier_row. apply rsum_ext. intros j Hj. apply rsum_ext. intros i _. unfold predicted, observed. rewrite (nth_piece truth t a j Et Hj). reflexivity.
Qed.

Lemma xdiv_R a b : b <> 0 -> xdiv a b = Fin (a / b).
Proof. intros H. unfold xdiv. destruct (neqb_reflect b n0) as [E|_]; [cbn in E; contradiction|reflexivity]. Qed.
Lemma brier_chunks_total X e m f s truth lo hi dx n r cs : fill_outside X -> has_density X e m f -> has_ancil e s -> metric_grid lo hi dx n r -> length truth = m -> in_limits lo hi truth ->
  (forall c t, In (c, t) cs -> (2 <= length t)%nat) -> splits X e 0 truth cs ->
  exists ts, mapM (fun x => calculate_brier_for_accumulation (fst x) (snd x) lo hi dx) cs = Ok ts /\ brier_finalize ts = calculate_brier e truth lo hi dx.
Proof.
  intros HX He Hs Hg Hl Ht H2 Hsp. exists (part_sums (brier_row f truth lo r n) 0 cs). split; [apply (brier_chunks X e m f s truth lo hi dx n r cs); auto|].
  pose proof He as ((M & Hm & _) & Hn & _). destruct (made_shape X M e HX Hm) as [_ H1].
  destruct (part_sums_total X e truth (brier_row f truth lo r n) cs 0%nat Hsp) as [E1 E2]. cbn [rsum Nat.add] in E1, E2. rewrite Hn in *.
  destruct cs as [|[c t] cs]; [cbn [splits] in Hsp; lia|].
  assert (Hm2 : (2 <= m)%nat).
  { cbn [splits] in Hsp. destruct Hsp as ((_ & Hb & _) & _ & _). specialize (H2 c t (or_introl eq_refl)). lia. }
  rewrite (proj1 (brier_eq X e m f truth lo hi dx n r HX He Hg Hl Ht Hm2)).
  remember (part_sums (brier_row f truth lo r n) 0 ((c, t) :: cs)) as ts. unfold brier_finalize. destruct ts as [|x ts]; [discriminate Heqts|].
  rewrite E2. cbn [nofZ RNum]. rewrite <- INR_IZR_INZ, xdiv_R by (apply not_0_INR; lia). rewrite Rplus_0_l in E1. rewrite E1. reflexivity.
Qed.

(** ** Conditional density loss *)
Lemma argmin_from_spec (l : list R) : forall best bi i, (bi < i)%nat -> 
  let k := argmin_from best bi i l in
  ((k = bi /\ forall j, (j < length l)%nat -> best <= nth j l 0) \/ (exists q, k = (i + q)%nat /\ (q < length l)%nat /\ nth q l 0 < best /\ forall j, (j < length l)%nat -> nth q l 0 <= nth j l 0)).
Proof.
  induction l as [|x l IH]; intros best bi i Hb; cbn [argmin_from length].
  - left. split; [reflexivity|]. intros j Hj. lia.
  - destruct (nltb_reflect x best) as [Hx|Hx].
    + right. destruct (IH x i (S i) ltac:(lia)) as [[E H]|(q & E & Hq & Hlt & H)]; cbv zeta in E; rewrite E.
      * exists 0%nat. rewrite Nat.add_0_r. repeat split; [lia|exact Hx|]. intros [|j] Hj; cbn [nth]; [lra|apply H; lia].
      * exists (S q). rewrite Nat.add_succ_r. cbn [nth]. repeat split; [lia|lra|]. intros [|j] Hj; cbn [nth]; [lra|apply H; lia].
    + destruct (IH best bi (S i) ltac:(lia)) as [[E H]|(q & E & Hq & Hlt & H)]; cbv zeta in E; rewrite E.
      * left. split; [reflexivity|]. intros [|j] Hj; cbn [nth]; [lra|apply H; lia].
      * right. exists (S q). rewrite Nat.add_succ_r. cbn [nth]. repeat split; [lia|lra|]. intros [|j] Hj; cbn [nth]; [lra|apply H; lia].
Qed.
Lemma argmin_spec (l : list R) : l <> [] -> (np_argmin l < length l)%nat /\ forall j, (j < length l)%nat -> nth (np_argmin l) l 0 <= nth j l 0.
Proof.
  destruct l as [|x l]; [congruence|]. intros _. cbn [np_argmin length]. destruct (argmin_from_spec l x 0 1 ltac:(lia)) as [[E H]|(q & E & Hq & Hlt & H)]; cbv zeta in E; rewrite E.
  - split; [lia|]. intros [|j] Hj; cbn [nth]; [lra|apply H; lia].
  - cbn [Nat.add nth]. split; [lia|]. intros [|j] Hj; cbn [nth]; [lra|apply H; lia].
Qed.
Lemma nearest_spec (xs : list R) z : xs <> [] -> (nearest xs z < length xs)%nat /\ forall j, (j < length xs)%nat -> Rabs (nth (nearest xs z) xs 0 - z) <= Rabs (nth j xs 0 - z).
Proof.
  intros H. unfold nearest. destruct (argmin_spec (map (fun x => nabs (nsub x z)) xs)) as [H1 H2]; [destruct xs; [congruence|discriminate]|].
  rewrite map_length in H1, H2. split; [exact H1|]. intros j Hj. specialize (H2 j Hj).
  assert (G : forall k, (k < length xs)%nat -> nth k (map (fun x => nabs (nsub x z)) xs) 0 = Rabs (nth k xs 0 - z)).
  { intros k Hk. rewrite (nth_indep _ 0 (nabs (nsub 0 z))) by (rewrite map_length; exact Hk). rewrite (map_nth (fun x => nabs (nsub x z))). apply nabs_R. }
  rewrite !G in H2 by auto. exact H2.
Qed.
(** the trapezoidal rule *)
Definition trapezoid (xs : list R) (h : R -> R) : R :=
  rsum (pred (length xs)) (fun i => (nth (S i) xs 0 - nth i xs 0) * (h (nth i xs 0) + h (nth (S i) xs 0)) / 2).
Lemma trapz_eq (h : R -> R) xs : np_trapz (map h xs) xs = trapezoid xs h.
Proof.
  unfold trapezoid. destruct xs as [|x xs]; [reflexivity|]. cbn [length pred]. revert x. induction xs as [|y xs IH]; intros x; [reflexivity|].
  cbn [length map] in *. rewrite rsum_S_l. change (np_trapz (h x :: h y :: map h xs) (x :: y :: xs)) with (nadd (nmul (nmul (nsub y x) (nadd (h x) (h y))) nhalf) (np_trapz (h y :: map h xs) (y :: xs))).
  specialize (IH y). rewrite IH, nhalf_R. cbn [nadd nmul nsub RNum nth]. lra.
Qed.
(** the two terms of PDF [j] *)
Definition cde_square (xs : list R) (f : nat -> R -> R) (j : nat) : R := trapezoid xs (fun x => sq (f j x)).
Definition cde_near (xs : list R) (f : nat -> R -> R) (ref : list R) (j : nat) : R := f j (nth (nearest xs (nth j ref 0)) xs 0).
Lemma map2_seq {B C} (g : nat -> B) (k : nat -> C) {D} (h : B -> C -> D) n : map2 h (map g (seq 0 n)) (map k (seq 0 n)) = map (fun i => h (g i) (k i)) (seq 0 n).
Proof. apply map2_map. Qed.
Lemma cde_terms_eq X e m f xs ref : has_density X e m f -> increasing xs -> xs <> [] -> length ref = m ->
  cde_terms xs e ref = Ok (map (cde_square xs f) (seq 0 m), map (cde_near xs f ref) (seq 0 m)).
Proof.
  intros (_ & Hn & _ & Hg) Hinc Hne Hl. unfold cde_terms. rewrite (Hg xs Hinc). unfold table, fin. cbn [bind].
  destruct (Nat.eqb_spec (length xs) 0) as [E|_]; [destruct xs; [congruence|discriminate]|]. cbn [andb]. rewrite map_length, Hn, Hl, Nat.eqb_refl. f_equal. f_equal.
  - rewrite !map_map. apply map_ext. intros j. rewrite !map_map. cbn [xval]. apply (trapz_eq (fun x => sq (f j x)) xs).
  - rewrite (map_nth_seq (nearest xs) ref), Hl, map_map. rewrite map2_map. apply map_ext. intros j. unfold cde_near. rewrite map_map. cbn [xval].
    destruct (nearest_spec xs (nth j ref 0) Hne) as [Hlt _]. unfold nth0. rewrite (nth_indep _ n0 (f j 0)) by (rewrite map_length; exact Hlt). apply (map_nth (f j)).
Qed.
Lemma xmean_seq (h : nat -> R) m : (0 < m)%nat -> xmean (map h (seq 0 m)) = Fin (rsum m h / INR m).
Proof.
  intros Hm. unfold xmean, np_mean. rewrite nsum_seq, map_length, seq_length. destruct m as [|m]; [lia|]. cbn [seq map ndiv nofZ RNum]. rewrite <- INR_IZR_INZ. reflexivity.
Qed.
Definition cde_loss (xs : list R) (f : nat -> R -> R) (ref : list R) (m : nat) : R := rsum m (cde_square xs f) / INR m - 2 * (rsum m (cde_near xs f ref) / INR m).
Lemma cde_eq X e m f xs ref : fill_outside X -> has_density X e m f -> increasing xs -> xs <> [] -> length ref = m ->
  cde_evaluate xs e ref = Ok (Fin (cde_loss xs f ref m)) /\ cde_accumulate xs e ref = Ok (rsum m (cde_square xs f), rsum m (cde_near xs f ref), m).
Proof.
  intros HX He Hi Hne Hl. unfold cde_evaluate, cde_accumulate. rewrite (cde_terms_eq X e m f xs ref He Hi Hne Hl). cbn [bind fst snd].
  pose proof He as ((M & Hm & _) & Hn & _). destruct (made_shape X M e HX Hm) as [_ H1]. rewrite Hn in H1. rewrite !xmean_seq by lia. rewrite !nsum_seq, Hn. split; reflexivity.
Qed.
Fixpoint part_sums2 (A B : nat -> R) (a : nat) (cs : list (ens R * list R)) : list (R * R * nat) :=
  match cs with [] => [] | (_, t) :: cs' => (rsum (length t) (fun j => A (a + j)%nat), rsum (length t) (fun j => B (a + j)%nat), length t) :: part_sums2 A B (a + length t)%nat cs' end.
Lemma part_sums2_fst A B cs : forall a, map (fun t => fst (fst t)) (part_sums2 A B a cs) = map fst (part_sums A a cs) /\ map (fun t => snd (fst t)) (part_sums2 A B a cs) = map fst (part_sums B a cs) /\
  map snd (part_sums2 A B a cs) = map snd (part_sums A a cs).
Proof.
  induction cs as [|[c t] cs IH]; intros a; [auto|]. cbn [part_sums part_sums2 map fst snd]. destruct (IH (a + length t)%nat) as (-> & -> & ->). auto.
Qed.
Lemma cde_chunks X e m f s xs ref cs : fill_outside X -> has_density X e m f -> has_ancil e s -> increasing xs -> xs <> [] ->
  forall a, splits X e a ref cs ->
  mapM (fun x => cde_accumulate xs (fst x) (snd x)) cs = Ok (part_sums2 (cde_square xs f) (cde_near xs f ref) a cs).
Proof.
  intros HX He Hs Hi Hne. induction cs as [|[c t] cs IH]; intros a H; [reflexivity|]. cbn [splits] in H. destruct H as (Hpart & Et & H).
  destruct (part_density X e m f s _ _ _ HX He Hs Hpart) as [Hc Hb]. replace (a + length t - a)%nat with (length t) in Hc by lia.
  cbn [mapM fst snd]. rewrite (proj2 (cde_eq X c (length t) _ xs t HX Hc Hi Hne eq_refl)). cbn [bind]. rewrite (IH _ H). cbn [bind part_sums2]. do 3 f_equal. f_equal.
  apply rsum_ext. intros j Hj. unfold cde_near. rewrite (nth_piece ref t a j Et Hj). reflexivity.
Qed.
Lemma cde_chunks_total X e m f s xs ref cs : fill_outside X -> has_density X e m f -> has_ancil e s -> increasing xs -> xs <> [] -> length ref = m -> splits X e 0 ref cs ->
  exists ts, mapM (fun x => cde_accumulate xs (fst x) (snd x)) cs = Ok ts /\ cde_finalize ts = cde_evaluate xs e ref.
Proof.
  intros HX He Hs Hi Hne Hl Hsp. exists (part_sums2 (cde_square xs f) (cde_near xs f ref) 0 cs). split; [apply (cde_chunks X e m f s); auto|].
  pose proof He as ((M & Hm & _) & Hn & _). destruct (made_shape X M e HX Hm) as [_ H1]. rewrite (proj1 (cde_eq X e m f xs ref HX He Hi Hne Hl)).
  destruct (part_sums_total X e ref (cde_square xs f) cs 0%nat Hsp) as [E1 E2]. destruct (part_sums_total X e ref (cde_near xs f ref) cs 0%nat Hsp) as [E3 _].
  destruct (part_sums2_fst (cde_square xs f) (cde_near xs f ref) cs 0) as (F1 & F2 & F3). cbn [rsum Nat.add] in E1, E2, E3. rewrite Rplus_0_l in E1, E3. rewrite Hn in *.
  unfold cde_finalize. destruct cs as [|[c t] cs]; [cbn [splits] in Hsp; lia|].
  remember (part_sums2 (cde_square xs f) (cde_near xs f ref) 0 ((c, t) :: cs)) as ts. destruct ts as [|x ts]; [discriminate Heqts|].
  rewrite F1, F2, F3, E1, E2, E3. cbn [nofZ RNum]. rewrite <- INR_IZR_INZ, !xdiv_R by (apply not_0_INR; lia). reflexivity.
Qed.

(** ** Outlier rate *)
Lemma mapM_all {A B} (g : A -> res B) (h : nat -> B) l : (forall i a, nth_error l i = Some a -> g a = Ok (h i)) -> mapM g l = Ok (map h (seq 0 (length l))).
Proof.
  revert h. induction l as [|a l IH]; intros h H; [reflexivity|]. cbn [mapM length seq map]. rewrite (H 0%nat a eq_refl). cbn [bind].
  rewrite (IH (fun i => h (S i))) by (intros i b Hb; apply (H (S i) b Hb)). cbn [bind]. rewrite <- seq_shift, map_map. reflexivity.
Qed.
Lemma outlier_eq X M e s F lo hi fuel : fill_outside X -> made X M e -> has_ancil e s -> anc_plain s -> evaluates (ens_cdf e) (e_npdf e) F -> (e_npdf e < fuel)%nat ->
  calculate_outlier_rate (qp X) e lo hi fuel = Some (Ok (map (fun r => Fin (F r lo + (1 - F r hi))) (seq 0 (e_npdf e)))).
Proof.
  intros HX Hm Hs Hpl HF Hfuel. destruct (c50_iterate X M e s HX Hm Hs Hpl) as (l & El & Hl & Hg). unfold calculate_outlier_rate. rewrite (El fuel Hfuel). f_equal.
  rewrite <- Hl. apply mapM_all. intros i p Hp. assert (Hi : (i < e_npdf e)%nat) by (rewrite <- Hl; apply nth_error_Some; congruence). specialize (Hg i p Hp).
  destruct (made_rep X M e HX Hm) as (k & D & _ & Hk & _). assert (HM : In MCdf M) by (subst M; apply cdf_in).
  destruct (c21_slice X M e (KInt (Z.of_nat i)) [i] s HX Hm) as (p' & Ep & _ & _ & _ & Hev & _); auto; [|discriminate|].
  { exists i. split; [reflexivity|]. split; [exact Hi|]. left. reflexivity. }
  rewrite Ep in Hg. injection Hg as ->.
  assert (G : forall x, ens_cdf p (PScalar x) = Ok [[Fin (F i x)]]).
  { intros x. destruct (Hev MCdf (PScalar x) HM I) as (t & Et & _ & Ev). cbn [evaluate] in Et, Ev. rewrite HF in Et. injection Et as <-. rewrite Ev. unfold select. cbn [map]. do 2 f_equal.
    rewrite (nth_indep _ [] [Fin (F 0%nat x)]) by (rewrite map_length, seq_length; exact Hi). rewrite (map_nth (fun r => [Fin (F r x)])), seq_nth by exact Hi. reflexivity. }
  unfold outlier_of. rewrite !G. reflexivity.
Qed.
