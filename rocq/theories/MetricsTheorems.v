(** Grids, Brier score, conditional density loss, KLD, RMSE and outlier rate: the statements. *)
From Coq Require Import String List Arith ZArith Bool Lia Reals Lra Sorted.
From Verif Require Import Num NumProofs Py NdArray NumpyLib Utils ScipyWrap Spec Values Ensemble Classes
  HistPdf InterpPdf QuantPdf MixmodPdf Packing PackedPdf
  SortProofs BinProofs EvalProofs NdProofs InterpProofs HistProofs InterpPdfProofs HistTheorems GridTheorems IrrTheorems
  QuantTheorems MixmodTheorems PackingTheorems PackedTheorems Kinds KindProofs EnsembleProofs KindInputs ReachProofs AppendProofs
  RowProofs EnsembleTheorems IntegrateTheorems Hdf5 Hdf5Proofs WriteProofs Hdf5Theorems Metrics MetricsProofs BrierProofs KldProofs.
Import ListNotations.
Local Open Scope string_scope.
Local Open Scope list_scope.
Local Open Scope R_scope.

(** ** C49 *)
Lemma c49_grid : forall lo hi dx, 0 < dx -> 2 * dx <= hi - lo ->
  exists g n, grid_parameters lo hi dx = Ok g /\ (2 <= n)%nat /\ INR n * dx <= hi - lo < (INR n + 1) * dx /\ mg_card g = n /\
    length (mg_values g) = n /\ nth 0 (mg_values g) 0 = lo /\ nth (pred n) (mg_values g) 0 = hi /\
    (forall i, (S i < n)%nat -> nth (S i) (mg_values g) 0 - nth i (mg_values g) 0 = mg_res g) /\
    length (mg_edges g) = S n /\
    (forall i, (i < n)%nat -> nth i (mg_edges g) 0 = nth i (mg_values g) 0 - mg_res g / 2 /\ nth (S i) (mg_edges g) 0 = nth i (mg_values g) 0 + mg_res g / 2).
Proof.
  intros lo hi dx Hdx H. destruct (grid_total lo hi dx Hdx H) as (g & n & Eg & Hn & Hb & Hg). exists g, n. destruct Hg as (H1 & H2 & H3 & H4 & H5 & H6 & H7 & _).
  unfold nth0 in H5, H7. cbn [n0 RNum] in H5, H7. repeat (split; [assumption|]).
  split; [rewrite H5 by lia; change (INR 0) with 0; lra|]. split; [rewrite H5 by lia; lra|]. split; [intros i Hi; rewrite !H5 by lia; rewrite S_INR; lra|]. split; [assumption|].
  intros i Hi. rewrite H5, !H7 by lia. rewrite S_INR. lra.
Qed.
Lemma c49_truth : forall lo hi dx g t, 0 < dx -> grid_parameters lo hi dx = Ok g -> lo <= t <= hi ->
  exists i, (i < mg_card g)%nat /\ Rabs (t - nth i (mg_values g) 0) <= mg_res g / 2 /\
    np_histogram [t] (mg_edges g) = map (fun j => if Nat.eqb j i then 1%nat else 0%nat) (seq 0 (mg_card g)).
Proof.
  intros lo hi dx g t Hdx Eg Ht. destruct (grid_inv lo hi dx g Hdx Eg) as (n & Hn & _ & Hg). pose proof Hg as (H1 & H2 & H3 & H4 & H5 & _).
  destruct (falls_exists lo hi g n t Hg ltac:(lia) Ht) as (i & Hi & Hf). exists i. rewrite H1. split; [exact Hi|]. split; [apply Rabs_le; unfold falls, nth0 in Hf; cbn [n0 RNum] in Hf; lra|].
  pose proof (histogram_hits lo hi g n t Hg ltac:(lia) Ht) as E. rewrite (grid_line lo hi g n (fun x => hit x (mg_res g) t) Hg) in E.
  apply nth_ext with (d := 0%nat) (d' := 0%nat).
  { unfold np_histogram. rewrite !map_length, !seq_length, H3. reflexivity. }
  intros j Hj. assert (Hjn : (j < n)%nat) by (unfold np_histogram in Hj; rewrite map_length, seq_length, H3 in Hj; exact Hj).
  apply (f_equal (fun l => nth j l 0)) in E.
  cbn beta in E. rewrite (nth_indep (map (fun c => nofZ (Z.of_nat c)) (np_histogram [t] (mg_edges g))) 0 (nofZ (Z.of_nat 0))) in E by (rewrite map_length; exact Hj). rewrite (map_nth (fun c => nofZ (Z.of_nat c))) in E.
  rewrite (nth_indep (map (fun i => hit (gpoint lo (mg_res g) i) (mg_res g) t) (seq 0 n)) 0 (hit (gpoint lo (mg_res g) 0) (mg_res g) t)) in E by (rewrite map_length, seq_length; exact Hjn).
  rewrite (map_nth (fun i => hit (gpoint lo (mg_res g) i) (mg_res g) t)), seq_nth in E by exact Hjn. cbn [Nat.add nofZ RNum] in E.
  rewrite (nth_indep (map (fun j => if Nat.eqb j i then 1%nat else 0%nat) (seq 0 n)) 0%nat ((fun j => if Nat.eqb j i then 1%nat else 0%nat) 0%nat)) by (rewrite map_length, seq_length; exact Hjn).
  rewrite (map_nth (fun j => if Nat.eqb j i then 1%nat else 0%nat)), seq_nth by exact Hjn. cbn [Nat.add].
  rewrite <- INR_IZR_INZ in E. rewrite H5 in Hf by exact Hi. destruct (Nat.eqb_spec j i) as [->|Hne].
  - rewrite hit_one in E by exact Hf. apply INR_eq. exact E.
  - rewrite hit_zero in E; [apply INR_eq; exact E|]. intros C. apply Hne. apply (falls_unique lo (mg_res g) j i t H4); [exact C|exact Hf].
Qed.
Lemma c49_rejected : forall lo hi dx, 0 < dx ->
  (hi - lo < dx -> grid_parameters lo hi dx = Err ValueError) /\ (dx <= hi - lo < 2 * dx -> grid_parameters lo hi dx = Err ZeroDivisionError) /\ grid_parameters lo hi 0 = Err ZeroDivisionError.
Proof. intros lo hi dx H. split; [apply grid_none; exact H|]. split; [apply grid_one; exact H|apply grid_zero]. Qed.
Lemma c49_example : 0 < 1 / 2 /\ 2 * (1 / 2) <= 3 - 0 /\ 0 <= 7 / 10 <= 3.
Proof. lra. Qed.

(** ** C37 *)
Lemma c37_score : forall n k a b, (0 < n)%nat ->
  brier_evaluate (matrix n k a) (matrix n k b) = Ok (Fin (rsum n (fun i => rsum k (fun j => (a i j - b i j) * (a i j - b i j))) / INR n)).
Proof. intros n k a b Hn. apply (brier_matrix n k a b Hn). Qed.
Definition probability_rows (n k : nat) (a : nat -> nat -> R) : Prop :=
  forall i, (i < n)%nat -> (forall j, (j < k)%nat -> 0 <= a i j) /\ rsum k (a i) = 1.
Lemma c37_range : forall n k a h, (0 < n)%nat -> probability_rows n k a -> (forall i, (i < n)%nat -> (h i < k)%nat) ->
  exists v, brier_evaluate (matrix n k a) (matrix n k (one_hot h)) = Ok (Fin v) /\ 0 <= v <= 2 /\
    (v = 0 <-> forall i j, (i < n)%nat -> (j < k)%nat -> a i j = if Nat.eqb j (h i) then 1 else 0).
Proof.
  intros n k a h Hn Hp Hh. exists (brier_sum n k a (one_hot h) / INR n). split; [apply brier_matrix; exact Hn|].
  pose proof (brier_sum_pos n k a (one_hot h)) as Hpos. assert (HN : 0 < INR n) by (apply lt_0_INR; exact Hn).
  assert (Hub : brier_sum n k a (one_hot h) <= INR n * 2).
  { unfold brier_sum. apply Rle_trans with (rsum n (fun _ => 2)).
    - apply rsum_le. intros i Hi. destruct (Hp i Hi) as [H1 H2]. pose proof (row_range k (a i) (h i) (Hh i Hi) H1 H2). pose proof (H1 (h i) (Hh i Hi)). unfold one_hot. lra.
    - clear. right. induction n as [|n IH]; [simpl; lra|]. rewrite S_INR. cbn [rsum]. rewrite IH. lra. }
  split; [split|].
  - apply Rmult_le_pos; [exact Hpos|left; apply Rinv_0_lt_compat; exact HN].
  - apply Rmult_le_reg_r with (INR n); [exact HN|]. unfold Rdiv. rewrite Rmult_assoc, Rinv_l by lra. lra.
  - rewrite <- (brier_sum_zero n k a (one_hot h)). split; intros H; [|rewrite H; lra]. apply Rmult_eq_reg_r with (/ INR n); [|apply Rinv_neq_0_compat; lra]. unfold Rdiv in H. lra.
Qed.
Lemma c37_range_1d : forall k a h, (h < k)%nat -> (forall j, (j < k)%nat -> 0 <= a j) -> rsum k a = 1 ->
  exists v, brier_evaluate (nd1 (map a (seq 0 k))) (nd1 (map (fun j => if Nat.eqb j h then 1 else 0) (seq 0 k))) = Ok (Fin v) /\ 0 <= v <= 2 /\
    (v = 0 <-> forall j, (j < k)%nat -> a j = if Nat.eqb j h then 1 else 0).
Proof.
  intros k a h Hh Hp Hs. exists (rsum k (fun j => sq (a j - (if Nat.eqb j h then 1 else 0)))). split; [apply (brier_vector k a (fun j => if Nat.eqb j h then 1 else 0)); lia|].
  split; [split|].
  - apply rsum_nonneg. intros. apply sq_pos.
  - pose proof (row_range k a h Hh Hp Hs). pose proof (Hp h Hh). lra.
  - rewrite sum_zero by (intros; apply sq_pos). split; intros H j Hj; specialize (H j Hj); cbn beta in *; [apply (proj1 (sq_zero _)) in H; lra|apply sq_zero; lra].
Qed.
Lemma c37_rejected : forall p t : nd R, shp p <> shp t -> brier_evaluate p t = Err ValueError /\ brier_accumulate p t = Err ValueError.
Proof. exact brier_rejects. Qed.
Lemma c37_example : probability_rows 2 3 (fun i j => nth j (nth i [[1 / 2; 1 / 4; 1 / 4]; [0; 1; 0]] []) 0) /\ shp (matrix 2 3 (fun _ _ => 0)) <> shp (matrix 3 2 (fun _ _ => 0)) /\
  brier_evaluate (matrix 2 3 (fun i j => nth j (nth i [[1 / 2; 1 / 4; 1 / 4]; [0; 1; 0]] []) 0)) (matrix 2 3 (one_hot (fun i => i))) = Ok (Fin (3 / 16)).
Proof.
  split; [|split].
  - intros i Hi. destruct i as [|[|i]]; [| |lia]; (split; [intros j Hj; destruct j as [|[|[|j]]]; [| | |lia]; simpl; lra|simpl; lra]).
  - rewrite !matrix_shape. discriminate.
  - rewrite c37_score by lia. do 2 f_equal. cbn. lra.
Qed.

(** ** C95 *)
(** the sum over the grid of the squared differences between the density and the truth *)
Definition density_distance (f : R -> R) (lo r : R) (n : nat) (t : R) : R :=
  rsum n (fun i => let x := lo + INR i * r in (f x - (if Rle_dec (x - r / 2) t then if Rlt_dec t (x + r / 2) then 1 else 0 else 0)) ^ 2).
Lemma row_distance f truth lo r n j : brier_row f truth lo r n j = density_distance (f j) lo r n (nth j truth 0).
Proof. unfold brier_row, density_distance. apply rsum_ext. intros i _. unfold sq, predicted, observed, hit, gpoint. cbv zeta. ring. Qed.
Lemma c95_score : forall X p m f truth lo hi dx n r, fill_outside X -> has_density X p m f -> metric_grid lo hi dx n r ->
  length truth = m -> in_limits lo hi truth -> (2 <= m)%nat ->
  calculate_brier p truth lo hi dx = Ok (Fin (rsum m (fun j => density_distance (f j) lo r n (nth j truth 0)) / INR m)).
Proof.
  intros X p m f truth lo hi dx n r HX Hp Hg Hl Ht Hm. rewrite (proj1 (brier_eq X p m f truth lo hi dx n r HX Hp Hg Hl Ht Hm)). do 3 f_equal. unfold brier_total, brier_sum.
  apply rsum_ext. intros j _. apply (row_distance f truth lo r n j).
Qed.
Lemma c95_single : forall X p f truth lo hi dx n r, fill_outside X -> has_density X p 1 f -> metric_grid lo hi dx n r -> length truth = 1%nat -> in_limits lo hi truth ->
  calculate_brier p truth lo hi dx = Err ValueError /\ calculate_brier_for_accumulation p truth lo hi dx = Err ValueError.
Proof. exact brier_single. Qed.
Lemma c95_rejected : forall (p : ens R) truth lo hi dx, e_npdf p <> length truth \/ ~ in_limits lo hi truth ->
  calculate_brier p truth lo hi dx = Err ValueError /\ calculate_brier_for_accumulation p truth lo hi dx = Err ValueError.
Proof. exact brier_bad. Qed.

(** ** C38 *)
Lemma c38_brier : forall X e m f s truth lo hi dx n r cs, fill_outside X -> has_density X e m f -> has_ancil e s -> metric_grid lo hi dx n r ->
  length truth = m -> in_limits lo hi truth -> splits X e 0 truth cs -> (forall c t, In (c, t) cs -> (2 <= length t)%nat) ->
  exists ts, mapM (fun x => calculate_brier_for_accumulation (fst x) (snd x) lo hi dx) cs = Ok ts /\ brier_finalize ts = calculate_brier e truth lo hi dx.
Proof. intros X e m f s truth lo hi dx n r cs HX He Hs Hg Hl Ht Hsp H2. apply (brier_chunks_total X e m f s truth lo hi dx n r cs); auto. Qed.
Lemma c38_cde : forall X e m f s xs ref cs, fill_outside X -> has_density X e m f -> has_ancil e s -> increasing xs -> xs <> [] -> length ref = m -> splits X e 0 ref cs ->
  exists ts, mapM (fun x => cde_accumulate xs (fst x) (snd x)) cs = Ok ts /\ cde_finalize ts = cde_evaluate xs e ref.
Proof. exact cde_chunks_total. Qed.
Lemma c97_loss : forall X e m f xs ref, fill_outside X -> has_density X e m f -> increasing xs -> xs <> [] -> length ref = m ->
  exists near, (forall j, (j < m)%nat -> (near j < length xs)%nat /\ forall k, (k < length xs)%nat -> Rabs (nth (near j) xs 0 - nth j ref 0) <= Rabs (nth k xs 0 - nth j ref 0)) /\
  cde_evaluate xs e ref = Ok (Fin (rsum m (fun j => trapezoid xs (fun x => f j x * f j x)) / INR m - 2 * (rsum m (fun j => f j (nth (near j) xs 0)) / INR m))).
Proof.
  intros X e m f xs ref HX He Hi Hne Hl. exists (fun j => nearest xs (nth j ref 0)). split; [intros j _; apply nearest_spec; exact Hne|].
  rewrite (proj1 (cde_eq X e m f xs ref HX He Hi Hne Hl)). reflexivity.
Qed.

(** ** C39, C94 *)
Lemma c39_self : forall X p m f lo hi dx n r, fill_outside X -> has_density X p m f -> metric_grid lo hi dx n r ->
  calculate_kld ln p p lo hi dx = Ok (repeat 0 m).
Proof.
  intros X p m f lo hi dx n r HX Hp Hg. rewrite (proj1 (kld_reported X p p m f f lo hi dx n r HX Hp Hp Hg)).
  - f_equal. clear. generalize 0%nat as a. induction m as [|m IH]; intros a; [reflexivity|]. cbn [seq map repeat]. rewrite IH. f_equal. apply kld_self.
  - intros j _. unfold kld_of. rewrite kld_self. lra.
Qed.
Lemma c39_nonneg : forall p q lo hi dx D, calculate_kld ln p q lo hi dx = Ok D -> List.Forall (fun d => 0 <= d) D.
Proof. exact kld_nonneg. Qed.
Lemma c94_reported : forall X p q m f h lo hi dx n r, fill_outside X -> has_density X p m f -> has_density X q m h -> metric_grid lo hi dx n r ->
  ((forall j, (j < m)%nat -> 0 <= kld_of f h lo r n j) -> calculate_kld ln p q lo hi dx = Ok (map (kld_of f h lo r n) (seq 0 m))) /\
  ((exists j, (j < m)%nat /\ kld_of f h lo r n j < 0) -> calculate_kld ln p q lo hi dx = Ok (repeat eps m)).
Proof.
  intros X p q m f h lo hi dx n r HX Hp Hq Hg. destruct (kld_reported X p q m f h lo hi dx n r HX Hp Hq Hg) as [H1 H2]. split; [exact H1|]. intros H. rewrite (H2 H). f_equal.
  clear. generalize 0%nat. induction m as [|m IH]; intros a; [reflexivity|]. cbn [seq map repeat]. f_equal. apply IH.
Qed.
Lemma c94_gibbs : forall f h lo r n j, 0 <= r -> (forall x, 0 <= f j x) ->
  r * (rsum n (fun i => f j (lo + INR i * r)) - rsum n (fun i => Rmax eps (h j (lo + INR i * r)))) <= kld_of f h lo r n j.
Proof. intros f h lo r n j Hr Hf. unfold kld_of. apply (kld_gibbs n r (fun i => f j (gpoint lo r i)) (fun i => h j (gpoint lo r i))); [exact Hr|]. intros. apply Hf. Qed.
Lemma c94_other_size : forall X p q m k f h lo hi dx, fill_outside X -> has_density X p m f -> has_density X q k h -> m <> k ->
  calculate_kld ln p q lo hi dx = Err ValueError /\ calculate_rmse sqrt p q lo hi dx = Err ValueError.
Proof. intros X p q m k f h lo hi dx HX Hp Hq Hne. unfold calculate_kld, calculate_rmse. rewrite (other_shape X p q m k f h HX Hp Hq Hne). split; reflexivity. Qed.

(** ** C40 *)
Lemma map_seq_nth (h : nat -> R) m j : (j < m)%nat -> nth j (map h (seq 0 m)) 0 = h j.
Proof. intros Hj. rewrite (nth_indep _ 0 (h 0%nat)) by (rewrite map_length, seq_length; exact Hj). rewrite (map_nth h), seq_nth by exact Hj. reflexivity. Qed.
Lemma c40_metric : forall X p q m f h lo hi dx n r, fill_outside X -> has_density X p m f -> has_density X q m h -> metric_grid lo hi dx n r ->
  exists D, calculate_rmse sqrt p q lo hi dx = Ok D /\ calculate_rmse sqrt q p lo hi dx = Ok D /\ length D = m /\
    (forall j, (j < m)%nat -> 0 <= nth j D 0) /\
    (forall j, (j < m)%nat -> nth j D 0 = 0 <-> forall i, (i < n)%nat -> f j (lo + INR i * r) = h j (lo + INR i * r)).
Proof.
  intros X p q m f h lo hi dx n r HX Hp Hq Hg. pose proof Hg as (_ & Hn & _). eexists. split; [apply (rmse_eq X p q m f h lo hi dx n r HX Hp Hq Hg)|]. split.
  - rewrite (rmse_eq X q p m h f lo hi dx n r HX Hq Hp Hg). f_equal. apply map_ext. intros j. apply rmse_sym.
  - split; [rewrite map_length, seq_length; reflexivity|]. split; intros j Hj; rewrite map_seq_nth by exact Hj; [apply rmse_nonneg|apply rmse_zero; lia].
Qed.
Lemma c40_value : forall X p q m f h lo hi dx n r, fill_outside X -> has_density X p m f -> has_density X q m h -> metric_grid lo hi dx n r ->
  calculate_rmse sqrt p q lo hi dx = Ok (map (fun j => sqrt (rsum n (fun i => (f j (lo + INR i * r) - h j (lo + INR i * r)) ^ 2) / INR n)) (seq 0 m)).
Proof.
  intros X p q m f h lo hi dx n r HX Hp Hq Hg. rewrite (rmse_eq X p q m f h lo hi dx n r HX Hp Hq Hg). f_equal. apply map_ext. intros j. unfold rmse. do 2 f_equal. apply rsum_ext. intros i _. unfold gpoint. ring.
Qed.
Lemma c40_triangle : forall X p q s m f h k lo hi dx n r A B C, fill_outside X -> has_density X p m f -> has_density X q m h -> has_density X s m k -> metric_grid lo hi dx n r ->
  calculate_rmse sqrt p q lo hi dx = Ok A -> calculate_rmse sqrt q s lo hi dx = Ok B -> calculate_rmse sqrt p s lo hi dx = Ok C ->
  forall j, (j < m)%nat -> nth j C 0 <= nth j A 0 + nth j B 0.
Proof.
  intros X p q s m f h k lo hi dx n r A B C HX Hp Hq Hs Hg EA EB EC j Hj. pose proof Hg as (_ & Hn & _).
  rewrite (rmse_eq X p q m f h lo hi dx n r HX Hp Hq Hg) in EA. rewrite (rmse_eq X q s m h k lo hi dx n r HX Hq Hs Hg) in EB. rewrite (rmse_eq X p s m f k lo hi dx n r HX Hp Hs Hg) in EC.
  injection EA as <-. injection EB as <-. injection EC as <-. rewrite !map_seq_nth by exact Hj. apply rmse_triangle. lia.
Qed.

(** ** C41 *)
Lemma c41_rate : forall X M e s F lo hi fuel, fill_outside X -> made X M e -> has_ancil e s -> anc_plain s -> evaluates (ens_cdf e) (e_npdf e) F -> (e_npdf e < fuel)%nat ->
  calculate_outlier_rate (qp X) e lo hi fuel = Some (Ok (map (fun r => Fin (1 - (F r hi - F r lo))) (seq 0 (e_npdf e)))).
Proof.
  intros X M e s F lo hi fuel HX Hm Hs Hp HF Hf. rewrite (outlier_eq X M e s F lo hi fuel HX Hm Hs Hp HF Hf). do 2 f_equal. apply map_ext. intros r. f_equal. ring.
Qed.
Lemma c41_probability : forall (F : nat -> R -> R) f r lo hi, distribution (f r) (F r) -> lo <= hi -> 0 <= 1 - (F r hi - F r lo) <= 1.
Proof. intros F f r lo hi (_ & Hmon & Hb) Hle. pose proof (Hmon lo hi Hle). pose proof (Hb lo). pose proof (Hb hi). lra. Qed.
Lemma c41_reachable : forall X M e s lo hi fuel, fill_outside X -> normal_laws (s_phi X) (s_Phi X) -> made X M e -> proper_class e ->
  has_ancil e s -> anc_plain s -> lo <= hi -> (e_npdf e < fuel)%nat ->
  exists F D, computes (ens_cdf e) (e_npdf e) F /\ calculate_outlier_rate (qp X) e lo hi fuel = Some (Ok (map (fun v => Fin v) D)) /\ length D = e_npdf e /\
    forall r, (r < e_npdf e)%nat -> nth r D 0 = 1 - (F r hi - F r lo) /\ 0 <= nth r D 0 <= 1.
Proof.
  intros X M e s lo hi fuel HX HN Hm Hq Hs Hp Hle Hf. destruct (c81_proper X M e HX HN Hm Hq) as (f & F & _ & HF & Hd).
  exists F, (map (fun r => 1 - (F r hi - F r lo)) (seq 0 (e_npdf e))). split; [exact HF|]. split; [|split; [rewrite map_length, seq_length; reflexivity|]].
  - rewrite (c41_rate X M e s F lo hi fuel HX Hm Hs Hp (proj1 HF) Hf). rewrite map_map. reflexivity.
  - intros r Hr. rewrite (map_seq_nth (fun r => 1 - (F r hi - F r lo))) by exact Hr. split; [reflexivity|]. apply (c41_probability F f r lo hi (Hd r Hr) Hle).
Qed.

(** ** C96: a chunk of one PDF makes the accumulation fail *)
Lemma c96_single : forall X e m f s truth lo hi dx n r cs, fill_outside X -> has_density X e m f -> has_ancil e s -> metric_grid lo hi dx n r ->
  length truth = m -> in_limits lo hi truth -> splits X e 0 truth cs -> (exists c t, In (c, t) cs /\ length t = 1%nat) ->
  mapM (fun x => calculate_brier_for_accumulation (fst x) (snd x) lo hi dx) cs = Err ValueError.
Proof.
  intros X e m f s truth lo hi dx n r cs HX He Hs Hg Hl Ht.
  enough (K : forall a, splits X e a truth cs -> (exists c t, In (c, t) cs /\ length t = 1%nat) -> mapM (fun x => calculate_brier_for_accumulation (fst x) (snd x) lo hi dx) cs = Err ValueError) by exact (K 0%nat).
  induction cs as [|[c t] cs IH]; intros a Hsp (c' & t' & Hin & H1); [destruct Hin|].
  cbn [splits] in Hsp. destruct Hsp as (Hp & Et & Hsp). cbn [mapM fst snd].
  destruct (part_density X e m f s a (a + length t)%nat c HX He Hs Hp) as [Hc _]. replace (a + length t - a)%nat with (length t) in Hc by lia.
  assert (Hin' : in_limits lo hi t).
  { intros u Hu. apply Ht. rewrite Et in Hu. rewrite <- (firstn_skipn a truth). apply in_or_app. right. rewrite <- (firstn_skipn (length t) (skipn a truth)). apply in_or_app. left. exact Hu. }
  destruct Hp as (Hlt & _). destruct (Nat.eq_dec (length t) 1) as [E1|E1].
  - rewrite E1 in Hc. rewrite (proj2 (brier_single X c _ t lo hi dx n r HX Hc Hg E1 Hin')). reflexivity.
  - rewrite (proj2 (brier_eq X c (length t) _ t lo hi dx n r HX Hc Hg eq_refl Hin' ltac:(lia))). cbn [bind].
    rewrite (IH (a + length t)%nat Hsp); [reflexivity|]. destruct Hin as [E|Hin]; [exfalso; apply E1; injection E as _ E2; rewrite E2; exact H1|]. exists c', t'. auto.
Qed.
Lemma c94_exact : forall X p q m f h lo hi dx n r, fill_outside X -> has_density X p m f -> has_density X q m h -> metric_grid lo hi dx n r ->
  (forall j x, (j < m)%nat -> 0 <= f j x) ->
  (forall j, (j < m)%nat -> rsum n (fun i => Rmax eps (h j (lo + INR i * r))) <= rsum n (fun i => f j (lo + INR i * r))) ->
  calculate_kld ln p q lo hi dx =
  Ok (map (fun j => r * rsum n (fun i => f j (lo + INR i * r) * (ln (Rmax eps (f j (lo + INR i * r))) - ln (Rmax eps (h j (lo + INR i * r)))))) (seq 0 m)).
Proof.
  intros X p q m f h lo hi dx n r HX Hp Hq Hg Hf Hs. apply (proj1 (c94_reported X p q m f h lo hi dx n r HX Hp Hq Hg)). intros j Hj.
  assert (Hr : 0 <= r) by (left; exact (metric_grid_pos lo hi dx n r Hg)).
  pose proof (c94_gibbs f h lo r n j Hr (fun x => Hf j x Hj)) as H. specialize (Hs j Hj). assert (0 <= r * (rsum n (fun i => f j (lo + INR i * r)) - rsum n (fun i => Rmax eps (h j (lo + INR i * r))))) by (apply Rmult_le_pos; lra). lra.
Qed.
