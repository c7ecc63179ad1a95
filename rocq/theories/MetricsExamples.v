(** Ensembles that meet the hypotheses of the theorems about metrics, and the counterexamples. *)
From Coq Require Import String List Arith ZArith Bool Lia Reals Lra.
From Verif Require Import Num NumProofs PairwiseProofs Py NdArray NumpyLib Utils ScipyWrap Spec Values Ensemble Classes
  HistPdf SortProofs BinProofs EvalProofs NdProofs InterpProofs HistProofs HistTheorems QuantTheorems MixmodTheorems
  Kinds KindProofs EnsembleProofs KindInputs ReachProofs RowProofs EnsembleTheorems IntegrateTheorems ConvertTheorems
  Hdf5 Hdf5Theorems Metrics MetricsProofs BrierProofs KldProofs MetricsTheorems.
Import ListNotations.
Local Open Scope string_scope.
Local Open Scope list_scope.
Local Open Scope R_scope.

Lemma new_density X i : fill_outside X -> input_ok i -> In MPdf (input_methods i) ->
  exists e, ens_new (create_of (qp X) (input_name i)) (input_dict i) None = Ok e /\ made X (input_methods i) e /\ has_ancil e None /\
    has_density X e (input_npdf i) (fun j => pdf_of X (input_kind i) (nth j (input_rows i) [])) /\ g_name (e_obj e) = input_name i.
Proof.
  intros HX Hi HM. destruct (created X i HX Hi) as (e & E & Hm & HD & Hsh & Hn & _). exists e. split; [exact E|]. split; [exact Hm|].
  split; [split; [|exact I]; unfold ens_new in E; destruct (create_of _ _ _); [|discriminate]; cbn [bind] in E; destruct (check_array_shapes _ _); [|discriminate]; injection E as <-; reflexivity|].
  split; [|exact Hn]. assert (En : e_npdf e = input_npdf i) by (unfold e_npdf, g_npdf; rewrite Hsh; unfold prod; simpl; lia).
  split; [exists (input_methods i); split; [exact Hm|exact HM]|]. split; [exact En|]. rewrite <- En.
  apply (rep_computes X (input_kind i) (input_rows i) e MPdf _ HD); [rewrite input_kind_methods; exact HM|apply pdf_fin].
Qed.

Ltac inside := let t := fresh in let H := fresh in intros t H; cbn [In] in H; repeat (destruct H as [<-|H]; [lra|]); destruct H.
Ltac each := repeat (apply Forall_cons; [lra|]); apply Forall_nil.

(** histograms on the bins 0, 1, 2 whose first bin holds the fraction [a j] *)
Definition halves (l : list R) : input := IHist [0; 1; 2] (map (fun a => [a; 1 - a]) l).
Lemma halves_ok l : l <> [] -> List.Forall (fun a => 0 <= a <= 1) l -> input_ok (halves l).
Proof.
  intros Hne Hl. split; [repeat constructor; lra|]. split; [simpl; lia|]. split; [destruct l; [congruence|discriminate]|].
  intros row Hr. apply in_map_iff in Hr. destruct Hr as (a & <- & Ha). rewrite Forall_forall in Hl. specialize (Hl a Ha).
  split; [reflexivity|]. split; [intros [|[|i]] Hi; unfold nth0; simpl in *; try lra; lia|unfold nth0; simpl; lra].
Qed.
Lemma halves_density X l j x : (j < length l)%nat -> 0 <= x < 1 -> pdf_of X (input_kind (halves l)) (nth j (input_rows (halves l)) []) x = nth j l 0.
Proof.
  intros Hj Hx. unfold halves. cbn [input_kind input_rows]. rewrite map_map. set (G := fun a : R => [Nums (hist_norm_row (bin_widths [0; 1; 2]) [a; 1 - a])]).
  rewrite (nth_indep (map G l) [] (G 0)) by (rewrite map_length; exact Hj). rewrite (map_nth G).
  unfold pdf_of, G. cbn [val num_at cell_at nth nums]. unfold hist_point. rewrite (lookup_uniform [0; 1; 2] x 0).
  - rewrite hist_norm_row_R. cbn. unfold at2. cbn. set (a := nth j l 0). replace (a * (1 - 0) + ((1 - a) * (2 - 1) + 0)) with 1 by ring. field.
  - repeat constructor; lra.
  - exists 1. intros [|[|i]] Hi; unfold nth0; simpl in *; try lra; lia.
  - simpl. lia.
  - unfold nth0. simpl. lra.
Qed.
Lemma halves_second X l j x : (j < length l)%nat -> 1 <= x < 2 -> pdf_of X (input_kind (halves l)) (nth j (input_rows (halves l)) []) x = 1 - nth j l 0.
Proof.
  intros Hj Hx. unfold halves. cbn [input_kind input_rows]. rewrite map_map. set (G := fun a : R => [Nums (hist_norm_row (bin_widths [0; 1; 2]) [a; 1 - a])]).
  rewrite (nth_indep (map G l) [] (G 0)) by (rewrite map_length; exact Hj). rewrite (map_nth G).
  unfold pdf_of, G. cbn [val num_at cell_at nth nums]. unfold hist_point. rewrite (lookup_uniform [0; 1; 2] x 1).
  - rewrite hist_norm_row_R. cbn. unfold at2. cbn. set (a := nth j l 0). replace (a * (1 - 0) + ((1 - a) * (2 - 1) + 0)) with 1 by ring. field.
  - repeat constructor; lra.
  - exists 1. intros [|[|i]] Hi; unfold nth0; simpl in *; try lra; lia.
  - simpl. lia.
  - unfold nth0. simpl. lra.
Qed.
Lemma halves_npdf l : input_npdf (halves l) = length l.
Proof. cbn. rewrite map_length. reflexivity. Qed.

(** the grid of the two points 1/4 and 3/4 *)
Lemma grid2 : metric_grid (1/4) (3/4) (1/4) 2 (1/2).
Proof. split; [lra|]. split; [lia|]. simpl. lra. Qed.
Lemma small_eps : eps < 1 / 16.
Proof. unfold eps. replace (2 ^ 52) with 4503599627370496 by (cbn; lra). lra. Qed.
Lemma ln_gap a b : 0 < a -> a < b -> ln b - ln a >= (b - a) / b.
Proof.
  intros Ha Hab. assert (H : ln (a / b) <= a / b - 1).
  { pose proof (exp_ineq1_le (ln (a / b))) as H. rewrite exp_ln in H by (apply Rdiv_lt_0_compat; lra). lra. }
  unfold Rdiv in H. rewrite ln_mult, ln_Rinv in H by (try lra; apply Rinv_0_lt_compat; lra).
  replace ((b - a) / b) with (1 - a * / b) by (field; lra). lra.
Qed.
(** the divergence over two points inside the first bin *)
Lemma halves_kld X l l' j : (j < length l)%nat -> (j < length l')%nat ->
  kld_of (fun j => pdf_of X (input_kind (halves l)) (nth j (input_rows (halves l)) [])) (fun j => pdf_of X (input_kind (halves l')) (nth j (input_rows (halves l')) [])) (1/4) (1/2) 2 j =
  nth j l 0 * (ln (floored (nth j l 0)) - ln (floored (nth j l' 0))).
Proof.
  intros Hj Hj'. unfold kld_of, kld, gpoint. cbn [rsum INR]. rewrite !halves_density by (auto; lra). lra.
Qed.
Lemma floored_id a : 1/16 <= a -> floored a = a.
Proof. intros H. unfold floored. apply Rmax_right. pose proof small_eps. lra. Qed.

(** C39: the divergence reported for one PDF depends on the other PDFs of the ensemble *)
Lemma c39_refuted : exists X p q p0 q0 lo hi dx n r D D0 f h,
  fill_outside X /\ has_density X p 2 f /\ has_density X q 2 h /\ metric_grid lo hi dx n r /\
  getitem (qp X) p (KSlice 0 1) = Ok p0 /\ getitem (qp X) q (KSlice 0 1) = Ok q0 /\
  calculate_kld ln p q lo hi dx = Ok D /\ calculate_kld ln p0 q0 lo hi dx = Ok D0 /\ nth 0 D 0 <> nth 0 D0 0.
Proof.
  set (l := [3/4; 1/4]). set (l' := [1/4; 3/4]).
  assert (Ok1 : input_ok (halves l)) by (apply halves_ok; [discriminate|repeat constructor; lra]).
  assert (Ok2 : input_ok (halves l')) by (apply halves_ok; [discriminate|repeat constructor; lra]).
  pose proof scipy0_fill as HX.
  destruct (new_density scipy0 _ HX Ok1 ltac:(cbn; tauto)) as (p & _ & Mp & Sp & Hp & _). destruct (new_density scipy0 _ HX Ok2 ltac:(cbn; tauto)) as (q & _ & Mq & Sq & Hq & _).
  rewrite halves_npdf in Hp, Hq. change (length l) with 2%nat in Hp. change (length l') with 2%nat in Hq.
  assert (Hpick : picks 2 (KSlice 0 1) [0%nat]) by (apply picks_iff; reflexivity).
  assert (Np : e_npdf p = 2%nat) by apply Hp. assert (Nq : e_npdf q = 2%nat) by apply Hq.
  destruct (c21_slice scipy0 _ p (KSlice 0 1) [0%nat] None HX Mp ltac:(rewrite Np; exact Hpick) ltac:(discriminate) Sp ltac:(discriminate)) as (p0 & Ep & _).
  destruct (c21_slice scipy0 _ q (KSlice 0 1) [0%nat] None HX Mq ltac:(rewrite Nq; exact Hpick) ltac:(discriminate) Sq ltac:(discriminate)) as (q0 & Eq & _).
  destruct (part_density scipy0 p 2 _ None 0 1 p0 HX Hp Sp) as [Hp0 _]; [split; [lia|]; split; [lia|exact Ep]|].
  destruct (part_density scipy0 q 2 _ None 0 1 q0 HX Hq Sq) as [Hq0 _]; [split; [lia|]; split; [lia|exact Eq]|].
  exists scipy0, p, q, p0, q0, (1/4), (3/4), (1/4), 2%nat, (1/2). eexists. eexists. eexists. eexists.
  split; [exact HX|]. split; [exact Hp|]. split; [exact Hq|]. split; [exact grid2|]. split; [exact Ep|]. split; [exact Eq|].
  assert (L : 2/3 <= ln (3/4) - ln (1/4)) by (pose proof (ln_gap (1/4) (3/4) ltac:(lra) ltac:(lra)); lra).
  assert (K0 : kld_of (fun j => pdf_of scipy0 (input_kind (halves l)) (nth j (input_rows (halves l)) [])) (fun j => pdf_of scipy0 (input_kind (halves l')) (nth j (input_rows (halves l')) [])) (1/4) (1/2) 2 0 = 3/4 * (ln (3/4) - ln (1/4))).
  { rewrite halves_kld by (simpl; lia). unfold l, l'. cbn [nth]. rewrite !floored_id by lra. reflexivity. }
  assert (K1 : kld_of (fun j => pdf_of scipy0 (input_kind (halves l)) (nth j (input_rows (halves l)) [])) (fun j => pdf_of scipy0 (input_kind (halves l')) (nth j (input_rows (halves l')) [])) (1/4) (1/2) 2 1 = 1/4 * (ln (1/4) - ln (3/4))).
  { rewrite halves_kld by (simpl; lia). unfold l, l'. cbn [nth]. rewrite !floored_id by lra. reflexivity. }
  split; [apply (proj2 (c94_reported scipy0 p q 2 _ _ _ _ _ 2 _ HX Hp Hq grid2)); exists 1%nat; split; [lia|]; rewrite K1; lra|].
  split; [apply (proj1 (c94_reported scipy0 p0 q0 1 _ _ _ _ _ 2 _ HX Hp0 Hq0 grid2))|].
  - intros j Hj. replace j with 0%nat by lia. change (0 <= kld_of (fun j => pdf_of scipy0 (input_kind (halves l)) (nth j (input_rows (halves l)) [])) (fun j => pdf_of scipy0 (input_kind (halves l')) (nth j (input_rows (halves l')) [])) (1/4) (1/2) 2 0). rewrite K0. lra.
  - cbn [repeat nth seq map]. change (eps <> kld_of (fun j => pdf_of scipy0 (input_kind (halves l)) (nth j (input_rows (halves l)) [])) (fun j => pdf_of scipy0 (input_kind (halves l')) (nth j (input_rows (halves l')) [])) (1/4) (1/2) 2 0).
    rewrite K0. pose proof small_eps. lra.
Qed.

(** an ensemble of three PDFs, its truth and its grid *)
Lemma three_density : exists X p f, fill_outside X /\ has_density X p 3 f /\ has_ancil p None /\ metric_grid (1/4) (3/4) (1/4) 2 (1/2) /\ in_limits (1/4) (3/4) [1/3; 1/2; 3/4] /\
  (forall j x, (j < 3)%nat -> 0 <= x < 1 -> f j x = nth j [3/4; 1/4; 1] 0).
Proof.
  destruct (new_density scipy0 (halves [3/4; 1/4; 1]) scipy0_fill) as (p & _ & _ & Sp & Hp & _); [apply halves_ok; [discriminate|each]|cbn; tauto|].
  eexists scipy0, p, _. split; [exact scipy0_fill|]. split; [exact Hp|]. split; [exact Sp|]. split; [exact grid2|]. split; [inside|].
  intros j x Hj Hx. apply halves_density; [simpl; lia|exact Hx].
Qed.
Lemma c95_example : exists X p f lo hi dx n r truth, fill_outside X /\ has_density X p 3 f /\ metric_grid lo hi dx n r /\ length truth = 3%nat /\ in_limits lo hi truth.
Proof. destruct three_density as (X & p & f & HX & Hp & _ & Hg & Ht & _). exists X, p, f, (1/4), (3/4), (1/4), 2%nat, (1/2), [1/3; 1/2; 3/4]. auto. Qed.
Lemma c95_single_example : exists X p f lo hi dx n r truth, fill_outside X /\ has_density X p 1 f /\ metric_grid lo hi dx n r /\ length truth = 1%nat /\ in_limits lo hi truth.
Proof.
  destruct (new_density scipy0 (halves [3/4]) scipy0_fill) as (p & _ & _ & _ & Hp & _); [apply halves_ok; [discriminate|each]|cbn; tauto|].
  exists scipy0, p. eexists. exists (1/4), (3/4), (1/4), 2%nat, (1/2), [1/2]. split; [exact scipy0_fill|]. split; [exact Hp|]. split; [exact grid2|]. split; [reflexivity|inside].
Qed.
Lemma c95_rejected_example : exists (p : ens R) lo hi truth, e_npdf p <> length truth \/ ~ in_limits lo hi truth.
Proof.
  destruct (new_density scipy0 (halves [3/4]) scipy0_fill) as (p & _ & _ & _ & Hp & _); [apply halves_ok; [discriminate|each]|cbn; tauto|].
  exists p, 0, 1, [2]. right. intros H. specialize (H 2 (or_introl eq_refl)). lra.
Qed.
(** the score of a valid call may exceed any bound: narrow histograms have large densities *)
Definition narrow (w : R) : input := IHist [0; w; 2 * w] [[1; 0]; [1; 0]].
Lemma narrow_ok w : 0 < w -> input_ok (narrow w).
Proof.
  intros Hw. split; [repeat constructor; lra|]. split; [simpl; lia|]. split; [discriminate|].
  intros row [<-|[<-|[]]]; (split; [reflexivity|]; split; [intros [|[|i]] Hi; unfold nth0; simpl in *; try lra; lia|unfold nth0; simpl; lra]).
Qed.
Lemma narrow_density X w j : 0 < w -> (j < 2)%nat -> pdf_of X (input_kind (narrow w)) (nth j (input_rows (narrow w)) []) 0 = / w.
Proof.
  intros Hw Hj. assert (E : nth j (input_rows (narrow w)) [] = [Nums (hist_norm_row (bin_widths [0; w; 2 * w]) [1; 0])]) by (destruct j as [|[|j]]; [reflexivity|reflexivity|lia]).
  rewrite E. unfold pdf_of. cbn [val input_kind narrow num_at cell_at nth nums]. unfold hist_point. rewrite (lookup_uniform [0; w; 2 * w] 0 0).
  - rewrite hist_norm_row_R. cbn. unfold at2. cbn. field. lra.
  - repeat constructor; lra.
  - exists w. intros [|[|i]] Hi; unfold nth0; simpl in *; try lra; lia.
  - simpl. lia.
  - unfold nth0. simpl. lra.
Qed.
Lemma c95_unbounded : forall B, exists X p m f truth lo hi dx n r v, fill_outside X /\ has_density X p m f /\ metric_grid lo hi dx n r /\ length truth = m /\ in_limits lo hi truth /\
  calculate_brier p truth lo hi dx = Ok (Fin v) /\ B < v.
Proof.
  intros B. set (w := / (Rabs B + 2)). pose proof (Rabs_pos B) as HB. pose proof (Rle_abs B) as HB2. assert (Hw : 0 < w) by (apply Rinv_0_lt_compat; lra).
  assert (Ew : / w = Rabs B + 2) by (apply Rinv_inv).
  destruct (new_density scipy0 (narrow w) scipy0_fill (narrow_ok w Hw) ltac:(cbn; tauto)) as (p & _ & _ & Sp & Hp & _). change (input_npdf (narrow w)) with 2%nat in Hp.
  set (f := fun j => pdf_of scipy0 (input_kind (narrow w)) (nth j (input_rows (narrow w)) [])) in Hp.
  assert (Hg : metric_grid 0 2 1 2 2) by (split; [lra|split; [lia|simpl; lra]]).
  assert (Ht : in_limits 0 2 [0; 0]) by (inside).
  exists scipy0, p, 2%nat, f, [0; 0], 0, 2, 1, 2%nat, 2. eexists. split; [exact scipy0_fill|]. split; [exact Hp|]. split; [exact Hg|]. split; [reflexivity|]. split; [exact Ht|].
  split; [apply (c95_score scipy0 p 2 f [0; 0] 0 2 1 2 2 scipy0_fill Hp Hg eq_refl Ht); lia|].
  assert (K : forall j, (j < 2)%nat -> B + 1 <= density_distance (f j) 0 2 2 0).
  { intros j Hj. unfold density_distance. cbn [rsum INR]. cbv zeta. set (R1 := (f j (0 + 1 * 2) - _) ^ 2). assert (HR1 : 0 <= R1) by apply pow2_ge_0.
    replace (0 + 0 * 2) with 0 by ring. unfold f at 1. rewrite narrow_density by auto. rewrite Ew. destruct (Rle_dec (0 - 2 / 2) 0) as [_|C]; [|lra]. destruct (Rlt_dec 0 (0 + 2 / 2)) as [_|C]; [|lra].
    assert (Rabs B + 1 <= (Rabs B + 2 - 1) ^ 2) by nra. lra. }
  cbn [rsum INR nth]. pose proof (K 0%nat ltac:(lia)). pose proof (K 1%nat ltac:(lia)). lra.
Qed.

(** C38: a chunk of one PDF cannot be accumulated *)
Lemma splits_example : exists X e f lo hi dx n r truth, fill_outside X /\ has_density X e 3 f /\ has_ancil e None /\ metric_grid lo hi dx n r /\ length truth = 3%nat /\ in_limits lo hi truth /\
  (exists c d, splits X e 0 truth [(c, firstn 2 truth); (d, skipn 2 truth)]) /\ (exists c, splits X e 0 truth [(c, truth)]).
Proof.
  destruct three_density as (X & e & f & HX & He & Se & Hg & Ht & _). exists X, e, f, (1/4), (3/4), (1/4), 2%nat, (1/2), [1/3; 1/2; 3/4].
  split; [exact HX|]. split; [exact He|]. split; [exact Se|]. split; [exact Hg|]. split; [reflexivity|]. split; [exact Ht|].
  pose proof He as ((M & Hm & _) & En & _).
  assert (Hk : forall a b, (a < b <= 3)%nat -> exists c, getitem (qp X) e (KSlice (Z.of_nat a) (Z.of_nat b)) = Ok c).
  { intros a b Hab. destruct (c21_slice X M e (KSlice (Z.of_nat a) (Z.of_nat b)) (seq a (b - a)) None HX Hm) as (c & E & _); auto; [|destruct (b - a)%nat eqn:Eb; [lia|discriminate]|discriminate|exists c; exact E].
    apply picks_iff. rewrite En. apply slice_positions; lia. }
  split.
  - destruct (Hk 0%nat 2%nat ltac:(lia)) as (c & Ec). destruct (Hk 2%nat 3%nat ltac:(lia)) as (d & Ed). exists c, d. cbn [splits firstn skipn length Nat.add]. rewrite En. repeat split; try lia; assumption.
  - destruct (Hk 0%nat 3%nat ltac:(lia)) as (c & Ec). exists c. cbn [splits firstn skipn length Nat.add]. rewrite En. repeat split; try lia; assumption.
Qed.
Lemma c38_refuted : exists X e f s truth lo hi dx n r cs, fill_outside X /\ has_density X e 3 f /\ has_ancil e s /\ metric_grid lo hi dx n r /\ length truth = 3%nat /\ in_limits lo hi truth /\
  splits X e 0 truth cs /\ (exists v, calculate_brier e truth lo hi dx = Ok v) /\ mapM (fun x => calculate_brier_for_accumulation (fst x) (snd x) lo hi dx) cs = Err ValueError.
Proof.
  destruct splits_example as (X & e & f & lo & hi & dx & n & r & truth & HX & He & Se & Hg & Hl & Ht & (c & d & Hs) & _).
  exists X, e, f, None, truth, lo, hi, dx, n, r, [(c, firstn 2 truth); (d, skipn 2 truth)]. do 7 (split; [assumption|]).
  split; [eexists; apply (c95_score X e 3 f truth lo hi dx n r HX He Hg Hl Ht); lia|].
  assert (L1 : length (firstn 2 truth) = 2%nat) by (rewrite firstn_length; lia). assert (L2 : length (skipn 2 truth) = 1%nat) by (rewrite skipn_length; lia).
  assert (Hin : in_limits lo hi (firstn 2 truth) /\ in_limits lo hi (skipn 2 truth)).
  { split; intros t H; apply Ht; rewrite <- (firstn_skipn 2 truth); apply in_or_app; auto. }
  cbn [splits] in Hs. rewrite L1, L2 in Hs. destruct Hs as (P1 & _ & P2 & _).
  destruct (part_density X e 3 f None _ _ c HX He Se P1) as [Hc _]. destruct (part_density X e 3 f None _ _ d HX He Se P2) as [Hd _].
  cbn [mapM fst snd]. rewrite (proj2 (brier_eq X c _ _ _ lo hi dx n r HX Hc Hg L1 (proj1 Hin) ltac:(lia))). cbn [bind].
  rewrite (proj2 (brier_single X d _ _ lo hi dx n r HX Hd Hg L2 (proj2 Hin))). reflexivity.
Qed.
Lemma c38_brier_example : exists X e f lo hi dx n r truth cs, fill_outside X /\ has_density X e 3 f /\ has_ancil e None /\ metric_grid lo hi dx n r /\ length truth = 3%nat /\ in_limits lo hi truth /\
  splits X e 0 truth cs /\ forall c t, In (c, t) cs -> (2 <= length t)%nat.
Proof.
  destruct splits_example as (X & e & f & lo & hi & dx & n & r & truth & HX & He & Se & Hg & Hl & Ht & _ & (c & Hs)).
  exists X, e, f, lo, hi, dx, n, r, truth, [(c, truth)]. do 7 (split; [assumption|]). intros c' t [E|[]]. injection E as _ <-. lia.
Qed.
Lemma c38_cde_example : exists X e f xs truth cs, fill_outside X /\ has_density X e 3 f /\ has_ancil e None /\ increasing xs /\ xs <> [] /\ length truth = 3%nat /\
  splits X e 0 truth cs /\ length cs = 2%nat.
Proof.
  destruct splits_example as (X & e & f & lo & hi & dx & n & r & truth & HX & He & Se & Hg & Hl & Ht & (c & d & Hs) & _).
  exists X, e, f, [0; 1/2; 2], truth, [(c, firstn 2 truth); (d, skipn 2 truth)]. split; [assumption|]. split; [assumption|]. split; [assumption|]. split; [repeat constructor; lra|]. split; [discriminate|].
  split; [assumption|]. split; [assumption|reflexivity].
Qed.
Lemma pair_example : exists X p q f h lo hi dx n r, fill_outside X /\ has_density X p 2 f /\ has_density X q 2 h /\ metric_grid lo hi dx n r /\
  f 0%nat lo <> h 0%nat lo /\ (exists j, (j < 2)%nat /\ kld_of f h lo r n j < 0) /\ (forall j i, (j < 2)%nat -> (i < n)%nat -> 0 <= f j (lo + INR i * r)).
Proof.
  destruct (new_density scipy0 (halves [3/4; 1/4]) scipy0_fill) as (p & _ & _ & _ & Hp & _); [apply halves_ok; [discriminate|each]|cbn; tauto|].
  destruct (new_density scipy0 (halves [1/4; 3/4]) scipy0_fill) as (q & _ & _ & _ & Hq & _); [apply halves_ok; [discriminate|each]|cbn; tauto|].
  exists scipy0, p, q. eexists. eexists. exists (1/4), (3/4), (1/4), 2%nat, (1/2). split; [exact scipy0_fill|]. split; [exact Hp|]. split; [exact Hq|]. split; [exact grid2|].
  split; [rewrite !halves_density by (simpl; try lia; lra); simpl; lra|]. split.
  - exists 1%nat. split; [lia|]. rewrite halves_kld by (simpl; lia). cbn [nth]. rewrite !floored_id by lra. pose proof (ln_gap (1/4) (3/4) ltac:(lra) ltac:(lra)). lra.
  - intros j i Hj Hi. rewrite halves_density; [|simpl; lia|]; [|destruct i as [|[|i]]; [simpl; lra|simpl; lra|lia]]. destruct j as [|[|j]]; [simpl; lra|simpl; lra|lia].
Qed.
Lemma other_size_example : exists X p q f h, fill_outside X /\ has_density X p 2 f /\ has_density X q 3 h.
Proof.
  destruct pair_example as (_ & p & _ & _ & _ & _). clear p.
  destruct (new_density scipy0 (halves [3/4; 1/4]) scipy0_fill) as (p & _ & _ & _ & Hp & _); [apply halves_ok; [discriminate|each]|cbn; tauto|].
  destruct (new_density scipy0 (halves [1/4; 3/4; 0]) scipy0_fill) as (q & _ & _ & _ & Hq & _); [apply halves_ok; [discriminate|each]|cbn; tauto|].
  exists scipy0, p, q. eexists. eexists. split; [exact scipy0_fill|]. split; [exact Hp|exact Hq].
Qed.
Lemma c40_example : exists X p q s f h k lo hi dx n r A B C, fill_outside X /\ has_density X p 2 f /\ has_density X q 2 h /\ has_density X s 2 k /\ metric_grid lo hi dx n r /\
  calculate_rmse sqrt p q lo hi dx = Ok A /\ calculate_rmse sqrt q s lo hi dx = Ok B /\ calculate_rmse sqrt p s lo hi dx = Ok C.
Proof.
  destruct pair_example as (X & p & q & f & h & lo & hi & dx & n & r & HX & Hp & Hq & Hg & _). exists X, p, q, p, f, h, f, lo, hi, dx, n, r.
  destruct (c40_metric X p q 2 f h lo hi dx n r HX Hp Hq Hg) as (A & EA & EB & _). destruct (c40_metric X p p 2 f f lo hi dx n r HX Hp Hp Hg) as (C & EC & _).
  exists A, A, C. auto 10.
Qed.
Lemma c41_example : exists X M e s, fill_outside X /\ normal_laws (s_phi X) (s_Phi X) /\ made X M e /\ proper_class e /\ has_ancil e s /\ anc_plain s /\ s <> None /\ e_npdf e = 3%nat /\
  exists F, evaluates (ens_cdf e) (e_npdf e) F.
Proof.
  destruct (made_new scipy1 hist0 table0 scipy1_fill hist0_ok (proj1 table0_ok)) as (e & _ & _ & Hm & Hn & Hs & Hname).
  exists scipy1, (input_methods hist0), e, table0. split; [apply scipy1_fill|]. split; [apply logistic_laws|]. split; [exact Hm|]. split; [unfold proper_class; rewrite Hname; split; discriminate|]. split; [exact Hs|]. split; [apply table0_ok|]. split; [discriminate|]. split; [exact Hn|].
  destruct (c81_proper scipy1 _ e scipy1_fill logistic_laws Hm) as (f & F & _ & HF & _); [unfold proper_class; rewrite Hname; split; discriminate|]. exists F. apply HF.
Qed.
Lemma c96_example : exists X e f lo hi dx n r truth cs, fill_outside X /\ has_density X e 3 f /\ has_ancil e None /\ metric_grid lo hi dx n r /\ length truth = 3%nat /\ in_limits lo hi truth /\
  splits X e 0 truth cs /\ length cs = 2%nat /\ exists c t, In (c, t) cs /\ length t = 1%nat.
Proof.
  destruct splits_example as (X & e & f & lo & hi & dx & n & r & truth & HX & He & Se & Hg & Hl & Ht & (c & d & Hs) & _).
  exists X, e, f, lo, hi, dx, n, r, truth, [(c, firstn 2 truth); (d, skipn 2 truth)]. do 7 (split; [assumption|]). split; [reflexivity|]. exists d, (skipn 2 truth). split; [right; left; reflexivity|]. rewrite skipn_length. lia.
Qed.
(** p holds as much as q on the grid *)
Lemma c94_example : exists X p q f h lo hi dx n r, fill_outside X /\ has_density X p 2 f /\ has_density X q 2 h /\ metric_grid lo hi dx n r /\
  (forall j, (j < 2)%nat -> rsum n (fun i => Rmax eps (h j (lo + INR i * r))) <= rsum n (fun i => f j (lo + INR i * r))) /\
  (exists j, (j < 2)%nat /\ f j lo <> h j lo).
Proof.
  destruct (new_density scipy0 (halves [3/4; 1/2]) scipy0_fill) as (p & _ & _ & _ & Hp & _); [apply halves_ok; [discriminate|each]|cbn; tauto|].
  destruct (new_density scipy0 (halves [1/4; 1/2]) scipy0_fill) as (q & _ & _ & _ & Hq & _); [apply halves_ok; [discriminate|each]|cbn; tauto|].
  exists scipy0, p, q. eexists. eexists. exists (1/4), (3/4), (1/4), 2%nat, (1/2). split; [exact scipy0_fill|]. split; [exact Hp|]. split; [exact Hq|]. split; [exact grid2|]. split.
  - intros j Hj. cbn [rsum INR]. rewrite !halves_density by (try lra; simpl; lia). change (Rmax eps ?x) with (floored x). destruct j as [|[|j]]; [| |lia]; cbn [nth]; rewrite !floored_id by lra; lra.
  - exists 0%nat. split; [lia|]. rewrite !halves_density by (try lra; simpl; lia). simpl. lra.
Qed.
