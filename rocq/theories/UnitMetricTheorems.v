(** Metrics under a change of units (C155). *)
From Coq Require Import String List Arith ZArith Bool Lia Reals Lra.
From Verif Require Import Num NumProofs PairwiseProofs Py NdArray NumpyLib Utils ScipyWrap Spec Values Ensemble Classes
  HistPdf SortProofs BinProofs EvalProofs NdProofs InterpProofs HistProofs HistTheorems QuantTheorems MixmodTheorems
  Kinds KindProofs EnsembleProofs KindInputs ReachProofs RowProofs EnsembleTheorems IntegrateTheorems ConvertTheorems
  Hdf5 Hdf5Theorems Metrics MetricsProofs BrierProofs KldProofs MetricsTheorems MetricsExamples Moments MomentGrid Fit FitTheorems FitExamples Pit PitTheorems Profile ProfileTheorems ScaleTheorems UnitTheorems.
Import ListNotations.
Local Open Scope string_scope.
Local Open Scope list_scope.
Local Open Scope R_scope.

(** [e] is made from the input, [e'] from the input in the new units *)
Definition both (X : scipy) (a b : R) (i : input) (e e' : ens R) : Prop :=
  KindInputs.input_ok i /\ movable a b i /\
  ens_new (create_of (qp X) (input_name i)) (input_dict i) None = Ok e /\ ens_new (create_of (qp X) (input_name i)) (input_dict (in_units a b i)) None = Ok e'.
Lemma both_curves X a b i e e' : fill_outside X -> 0 < a -> both X a b i e e' ->
  exists f f' F F', has_density X e (input_npdf i) f /\ has_density X e' (input_npdf i) f' /\ has_cdf X e (input_npdf i) F /\ has_cdf X e' (input_npdf i) F' /\
    has_ancil e None /\ has_ancil e' None /\ (exists M, made X M e) /\ (exists M, made X M e') /\
    forall r x, (r < input_npdf i)%nat -> f' r (unit_of a b x) = f r x / a /\ F' r (unit_of a b x) = F r x.
Proof.
  intros HX Ha (Hi & Hm & E & E'). pose proof (in_units_ok a b i Ha Hi) as Hi'. assert (Hn : input_npdf (in_units a b i) = input_npdf i) by (destruct i; cbn; rewrite ?map_length; reflexivity).
  assert (HM : In MPdf (input_methods i)) by (destruct i; try contradiction; cbn; auto). assert (HM' : In MPdf (input_methods (in_units a b i))) by (destruct i; exact HM).
  destruct (new_density X i HX Hi HM) as (e1 & E1 & M1 & A1 & D1 & _). rewrite E in E1. injection E1 as <-.
  destruct (new_density X _ HX Hi' HM') as (e2 & E2 & M2 & A2 & D2 & _). rewrite in_units_name, E' in E2. injection E2 as <-. rewrite Hn in D2.
  destruct (created X i HX Hi) as (e1 & E1 & _ & R1 & _). rewrite E in E1. injection E1 as <-. destruct (created X _ HX Hi') as (e2 & E2 & _ & R2 & _). rewrite in_units_name, E' in E2. injection E2 as <-.
  exists (fun j => pdf_of X (input_kind i) (nth j (input_rows i) [])), (fun j => pdf_of X (input_kind (in_units a b i)) (nth j (input_rows (in_units a b i)) [])),
    (fun j => cdf_of X (input_kind i) (nth j (input_rows i) [])), (fun j => cdf_of X (input_kind (in_units a b i)) (nth j (input_rows (in_units a b i)) [])).
  split; [exact D1|]. split; [exact D2|].
  split; [split; [eauto|]; split; [apply D1|]; destruct D1 as (_ & <- & _); apply (rep_computes X (input_kind i) (input_rows i) e MCdf _ R1); [apply cdf_in|apply cdf_fin]|].
  split; [split; [eauto|]; split; [apply D2|]; destruct D2 as (_ & <- & _); apply (rep_computes X (input_kind (in_units a b i)) (input_rows (in_units a b i)) e' MCdf _ R2); [apply cdf_in|apply cdf_fin]|].
  split; [exact A1|]. split; [exact A2|]. split; [eauto|]. split; [eauto|].
  intros r x Hr. rewrite in_units_kind, in_units_rows by assumption. rewrite <- (input_rows_length i Hi) in Hr. rewrite (nth_map_in _ (input_rows i) r _ []) by exact Hr. set (d := nth r (input_rows i) []).
  destruct R1 as (Hk & _ & Hgood & _). rewrite List.Forall_forall in Hgood. specialize (Hgood d (nth_In _ _ Hr)). assert (Hkm : kind_movable a b (input_kind i)) by (destruct i; exact Hm).
  split.
  - pose proof (row_moves a b Ha X (input_kind i) MPdf d x Hk Hgood Hkm ltac:(rewrite input_kind_methods; exact HM)) as G. cbn [move_x] in G. rewrite !pdf_fin in G. cbn [moved_answer] in G. injection G as ->. reflexivity.
  - pose proof (row_moves a b Ha X (input_kind i) MCdf d x Hk Hgood Hkm (cdf_in _)) as G. cbn [move_x] in G. rewrite !cdf_fin in G. cbn [moved_answer] in G. injection G as ->. reflexivity.
Qed.
Lemma units_grid a b lo hi dx n r : 0 < a -> metric_grid lo hi dx n r -> metric_grid (unit_of a b lo) (unit_of a b hi) (a * dx) n (a * r).
Proof.
  intros Ha (H1 & H2 & H3 & H4). unfold metric_grid, unit_of. split; [apply Rmult_lt_0_compat; assumption|]. split; [exact H2|]. replace (a * hi + b - (a * lo + b)) with (a * (hi - lo)) by ring. split; [|rewrite <- H4; ring].
  destruct H3. split; nra.
Qed.
Lemma units_point a b lo r i : gpoint (unit_of a b lo) (a * r) i = unit_of a b (gpoint lo r i).
Proof. unfold gpoint, unit_of. ring. Qed.

(** C155: PIT values *)
Lemma c155_pit : forall X a b i e e' truth, fill_outside X -> 0 < a -> both X a b i e e' -> (2 <= input_npdf i)%nat -> length truth = input_npdf i ->
  exists v, gather_pit_samples e truth = Ok v /\ gather_pit_samples e' (map (unit_of a b) truth) = Ok v.
Proof.
  intros X a b i e e' truth HX Ha Hb H2 Ht. destruct (both_curves X a b i e e' HX Ha Hb) as (f & f' & F & F' & _ & _ & C & C' & _ & _ & _ & _ & H). eexists. split; [apply (pit_samples_eq X e _ F truth HX C H2 Ht)|].
  rewrite (pit_samples_eq X e' _ F' _ HX C' H2 ltac:(rewrite map_length; exact Ht)). f_equal. apply map_ext_in. intros r Hr. apply in_seq in Hr. rewrite (nth_map_in _ truth r _ 0) by lia. apply H. lia.
Qed.
(** C155: outlier rates and probabilities of intervals *)
Lemma c155_outlier : forall X a b i e e' lo hi fuel, fill_outside X -> 0 < a -> both X a b i e e' -> (input_npdf i < fuel)%nat ->
  exists v, calculate_outlier_rate (qp X) e lo hi fuel = Some (Ok v) /\ calculate_outlier_rate (qp X) e' (unit_of a b lo) (unit_of a b hi) fuel = Some (Ok v).
Proof.
  intros X a b i e e' lo hi fuel HX Ha Hb Hf. destruct (both_curves X a b i e e' HX Ha Hb) as (f & f' & F & F' & _ & _ & C & C' & A & A' & (M & HM) & (M' & HM') & H).
  destruct C as (_ & N & C). destruct C' as (_ & N' & C'). rewrite <- N in C. rewrite <- N' in C'. eexists. split; [apply (c41_rate X M e None F lo hi fuel HX HM A I); [exact C|lia]|].
  rewrite (c41_rate X M' e' None F' _ _ fuel HX HM' A' I C' ltac:(lia)). do 2 f_equal. rewrite N, N'. apply map_ext_in. intros r Hr. apply in_seq in Hr. destruct (H r lo ltac:(lia)) as [_ ->]. destruct (H r hi ltac:(lia)) as [_ ->]. reflexivity.
Qed.
(** C155: root mean square differences are densities *)
Lemma c155_rmse : forall X a b i j p p' q q' lo hi dx n r, fill_outside X -> 0 < a -> both X a b i p p' -> both X a b j q q' -> input_npdf i = input_npdf j -> metric_grid lo hi dx n r ->
  exists v, calculate_rmse sqrt p q lo hi dx = Ok v /\ calculate_rmse sqrt p' q' (unit_of a b lo) (unit_of a b hi) (a * dx) = Ok (map (fun y => y / a) v).
Proof.
  intros X a b i j p p' q q' lo hi dx n r HX Ha Hp Hq Hn Hg. destruct (both_curves X a b i p p' HX Ha Hp) as (f & f' & F & F' & P & P' & _ & _ & _ & _ & _ & _ & H). destruct (both_curves X a b j q q' HX Ha Hq) as (h & h' & G & G' & Q & Q' & _ & _ & _ & _ & _ & _ & H').
  rewrite <- Hn in Q, Q', H'. eexists. split; [apply (c40_value X p q _ f h lo hi dx n r HX P Q Hg)|]. rewrite (c40_value X p' q' _ f' h' _ _ _ n (a * r) HX P' Q' (units_grid a b lo hi dx n r Ha Hg)). f_equal. rewrite map_map. apply map_ext_in.
  intros k Hk. apply in_seq in Hk. assert (Hpos : 0 < INR n) by (apply lt_0_INR; destruct Hg as (_ & ? & _); lia). assert (Hi : 0 < / a) by (apply Rinv_0_lt_compat; exact Ha).
  rewrite (rsum_ext n _ (fun i0 => (/ a) ^ 2 * (f k (lo + INR i0 * r) - h k (lo + INR i0 * r)) ^ 2)).
  2:{ intros i0 _. change (unit_of a b lo + INR i0 * (a * r)) with (gpoint (unit_of a b lo) (a * r) i0). rewrite units_point. destruct (H k (gpoint lo r i0) ltac:(lia)) as [-> _]. destruct (H' k (gpoint lo r i0) ltac:(lia)) as [-> _]. unfold gpoint, Rdiv. ring. }
  rewrite rsum_scal. unfold Rdiv. rewrite Rmult_assoc, sqrt_mult_alt by nra. rewrite sqrt_pow2 by lra. ring.
Qed.
(** C155: moments about the origin, in units without an offset *)
Lemma c155_moment : forall X a i e e' k lo hi dx n r, fill_outside X -> 0 < a -> both X a 0 i e e' -> metric_grid lo hi dx n r ->
  exists v, calculate_moment e k lo hi dx = Ok v /\ calculate_moment e' k (a * lo) (a * hi) (a * dx) = Ok (map (fun y => a ^ k * y) v).
Proof.
  intros X a i e e' k lo hi dx n r HX Ha Hb Hg. destruct (both_curves X a 0 i e e' HX Ha Hb) as (f & f' & F & F' & P & P' & _ & _ & _ & _ & _ & _ & H). eexists. split; [apply (c104_grid X e _ f k lo hi dx n r P Hg)|].
  pose proof (units_grid a 0 lo hi dx n r Ha Hg) as Hg'. unfold unit_of in Hg'. rewrite !Rplus_0_r in Hg'. destruct (c104_grid X e' _ f' k _ _ _ n (a * r) P' Hg') as [-> _]. f_equal. rewrite map_map. apply map_ext_in.
  intros j Hj. apply in_seq in Hj. rewrite (rsum_ext n _ (fun i0 => (a ^ k / a) * (f j (gpoint lo r i0) * gpoint lo r i0 ^ k))).
  - rewrite rsum_scal. field. lra.
  - intros i0 _. replace (gpoint (a * lo) (a * r) i0) with (unit_of a 0 (gpoint lo r i0)) by (unfold gpoint, unit_of; ring). destruct (H j (gpoint lo r i0) ltac:(lia)) as [-> _]. unfold unit_of. rewrite Rplus_0_r, Rpow_mult_distr. field. lra.
Qed.
Lemma density_unique X p n f g : has_density X p n f -> has_density X p n g -> forall s x, (s < n)%nat -> f s x = g s x.
Proof.
  intros (_ & _ & [E _]) (_ & _ & [E' _]) s x Hs. specialize (E x). rewrite (E' x) in E. injection E as E. apply (f_equal (fun l => nth s l [])) in E. rewrite !(nth_map_in _ (seq 0 n) s _ 0%nat) in E by (rewrite seq_length; exact Hs). rewrite seq_nth in E by exact Hs. injection E as E. symmetry. exact E.
Qed.
(** C155: divergences, where no density is as small as the floor of the logarithm *)
Lemma c155_kld : forall X a b i j p p' q q' lo hi dx n r f h, fill_outside X -> 0 < a -> both X a b i p p' -> both X a b j q q' -> input_npdf i = input_npdf j -> metric_grid lo hi dx n r ->
  has_density X p (input_npdf i) f -> has_density X q (input_npdf i) h ->
  (forall s k, (s < input_npdf i)%nat -> (k < n)%nat -> KldProofs.eps <= f s (gpoint lo r k) /\ KldProofs.eps <= h s (gpoint lo r k) /\ a * KldProofs.eps <= f s (gpoint lo r k) /\ a * KldProofs.eps <= h s (gpoint lo r k)) ->
  exists v, calculate_kld ln p q lo hi dx = Ok v /\ calculate_kld ln p' q' (unit_of a b lo) (unit_of a b hi) (a * dx) = Ok v.
Proof.
  intros X a b i j p p' q q' lo hi dx n r f h HX Ha Hp Hq Hn Hg D1 D2 Hfl. destruct (both_curves X a b i p p' HX Ha Hp) as (f0 & f' & F & F' & P & P' & _ & _ & _ & _ & _ & _ & H). destruct (both_curves X a b j q q' HX Ha Hq) as (h0 & h' & G & G' & Q & Q' & _ & _ & _ & _ & _ & _ & H').
  rewrite <- Hn in Q, Q', H'.
  assert (Ef : forall s x, (s < input_npdf i)%nat -> f0 s x = f s x) by (intros s x Hs; exact (density_unique X p _ f0 f P D1 s x Hs)).
  assert (Eh : forall s x, (s < input_npdf i)%nat -> h0 s x = h s x) by (intros s x Hs; exact (density_unique X q _ h0 h Q D2 s x Hs)).
  pose proof (units_grid a b lo hi dx n r Ha Hg) as Hg'. pose proof KldProofs.eps_pos as He.
  assert (K : forall s, (s < input_npdf i)%nat -> kld_of f' h' (unit_of a b lo) (a * r) n s = kld_of f h lo r n s).
  { intros s Hs. unfold kld_of, kld. rewrite (rsum_ext n _ (fun k => / a * (f s (gpoint lo r k) * (ln (floored (f s (gpoint lo r k))) - ln (floored (h s (gpoint lo r k))))))).
    - rewrite rsum_scal. field. lra.
    - intros k Hk. rewrite units_point. destruct (H s (gpoint lo r k) Hs) as [-> _]. destruct (H' s (gpoint lo r k) Hs) as [-> _]. rewrite Ef, Eh by exact Hs. destruct (Hfl s k Hs Hk) as (B1 & B2 & B3 & B4).
      assert (B5 : forall y, a * KldProofs.eps <= y -> KldProofs.eps <= y / a) by (intros y Hy; apply Rmult_le_reg_l with a; [exact Ha|]; unfold Rdiv; rewrite <- (Rmult_comm (/ a)), <- Rmult_assoc, Rinv_r by lra; lra).
      unfold floored. rewrite !Rmax_right by (try apply B5; assumption). unfold Rdiv. assert (0 < / a) by (apply Rinv_0_lt_compat; exact Ha). rewrite !ln_mult by lra. ring. }
  destruct (c94_reported X p q _ f h lo hi dx n r HX D1 D2 Hg) as [S1 S2]. destruct (c94_reported X p' q' _ f' h' _ _ _ n (a * r) HX P' Q' Hg') as [T1 T2].
  destruct (existsb (fun s => if Rlt_dec (kld_of f h lo r n s) 0 then true else false) (seq 0 (input_npdf i))) eqn:B.
  - apply existsb_exists in B. destruct B as (s & Hs & B). apply in_seq in Hs. destruct (Rlt_dec (kld_of f h lo r n s) 0) as [L|]; [|discriminate]. eexists. split; [apply S2; exists s; split; [lia|exact L]|]. apply T2. exists s. split; [lia|]. rewrite K by lia. exact L.
  - assert (A : forall s, (s < input_npdf i)%nat -> 0 <= kld_of f h lo r n s).
    { intros s Hs. destruct (Rlt_dec (kld_of f h lo r n s) 0) as [L|L]; [|lra]. exfalso. assert (B' : existsb (fun s => if Rlt_dec (kld_of f h lo r n s) 0 then true else false) (seq 0 (input_npdf i)) = true); [|rewrite B in B'; discriminate].
      apply existsb_exists. exists s. split; [apply in_seq; lia|]. destruct (Rlt_dec (kld_of f h lo r n s) 0); [reflexivity|contradiction]. }
    eexists. split; [apply S1; exact A|]. rewrite T1 by (intros s Hs; rewrite K by exact Hs; auto). f_equal. apply map_ext_in. intros s Hs. apply in_seq in Hs. apply K. lia.
Qed.

(** ** Examples *)
Definition some_hist (rows : list (list R)) : input := IHist [0; 1; 3] rows.
Lemma some_ok rows : (rows = [[1; 1]; [2; 1]] \/ rows = [[2; 1]; [1; 1]]) -> KindInputs.input_ok (some_hist rows) /\ movable 2 5 (some_hist rows) /\ movable 2 0 (some_hist rows).
Proof.
  intros Hr. split; [|split; apply unequal_movable; exists 1%nat; (split; [simpl; lia|]); unfold nth0, unit_of; cbn [nth map]; rewrite !Rabs_pos_eq by lra; lra].
  split; [repeat constructor; lra|]. split; [simpl; lia|]. split; [destruct Hr; subst; discriminate|]. intros row Hrow.
  assert (C : row = [1; 1] \/ row = [2; 1]) by (destruct Hr as [-> | ->]; destruct Hrow as [<-|[<-|[]]]; auto).
  destruct C as [-> | ->]; (split; [reflexivity|]; split; [intros [|[|j]] Hj; unfold nth0; simpl in *; try lra; lia|unfold nth0; simpl; lra]).
Qed.
Lemma some_both rows b : (rows = [[1; 1]; [2; 1]] \/ rows = [[2; 1]; [1; 1]]) -> b = 5 \/ b = 0 -> exists e e', both scipy0 2 b (some_hist rows) e e'.
Proof.
  intros Hr Hb. destruct (some_ok rows Hr) as (Hi & H5 & H0). destruct (created scipy0 _ scipy0_fill Hi) as (e & E & _). destruct (created scipy0 _ scipy0_fill (in_units_ok 2 b _ ltac:(lra) Hi)) as (e' & E' & _).
  exists e, e'. split; [exact Hi|]. split; [destruct Hb; subst b; assumption|]. split; [exact E|]. rewrite in_units_name in E'. exact E'.
Qed.
Lemma some_grid : metric_grid (1 / 2) (5 / 2) (1 / 2) 4 (2 / 3).
Proof. unfold metric_grid. split; [lra|]. split; [lia|]. cbn [pred INR]. lra. Qed.
Lemma c155_example : exists X i j p p' q q' a b, fill_outside X /\ 0 < a /\ a <> 1 /\ b <> 0 /\ both X a b i p p' /\ both X a b j q q' /\ input_npdf i = 2%nat /\ input_npdf j = 2%nat /\ p <> q /\ metric_grid (1 / 2) (5 / 2) (1 / 2) 4 (2 / 3).
Proof.
  destruct (some_both _ 5 (or_introl eq_refl) (or_introl eq_refl)) as (p & p' & Hp). destruct (some_both _ 5 (or_intror eq_refl) (or_introl eq_refl)) as (q & q' & Hq).
  exists scipy0, (some_hist [[1; 1]; [2; 1]]), (some_hist [[2; 1]; [1; 1]]), p, p', q, q', 2, 5. split; [exact scipy0_fill|]. split; [lra|]. split; [lra|]. split; [lra|]. split; [exact Hp|]. split; [exact Hq|]. split; [reflexivity|]. split; [reflexivity|]. split; [|exact some_grid].
  intros ->. destruct Hp as (Hi & _ & E & _). destruct Hq as (Hi' & _ & E' & _). destruct (created scipy0 _ scipy0_fill Hi) as (e1 & E1 & _ & R1 & _). rewrite E in E1. injection E1 as <-. destruct (created scipy0 _ scipy0_fill Hi') as (e2 & E2 & _ & R2 & _). rewrite E' in E2. injection E2 as <-.
  pose proof (rep_answers _ _ _ _ MPdf (PScalar (1 / 2)) R1 ltac:(cbn; auto) ltac:(cbn; auto)) as A1. rewrite (rep_answers _ _ _ _ MPdf (PScalar (1 / 2)) R2 ltac:(cbn; auto) ltac:(cbn; auto)) in A1.
  cbn [some_hist input_rows map row_answer input_kind val] in A1. injection A1 as A1 _. revert A1. unfold hist_point. rewrite (lookup_irregular [0; 1; 3] (1 / 2) 0); [|repeat constructor; lra| |simpl; lia|unfold nth0; simpl; lra].
  - unfold at2, num_at, cell_at. cbn [nth nums]. unfold hist_norm_row. rewrite !npsum_R. unfold nth0, bin_widths, ndiff. cbn. lra.
  - exists 1%nat. split; [simpl; lia|]. unfold nth0. cbn [nth]. rewrite !Rabs_pos_eq by lra. lra.
Qed.
Lemma c155_moment_example : exists X i e e' a, fill_outside X /\ 0 < a /\ a <> 1 /\ both X a 0 i e e' /\ input_npdf i = 2%nat /\ metric_grid (1 / 2) (5 / 2) (1 / 2) 4 (2 / 3).
Proof.
  destruct (some_both _ 0 (or_introl eq_refl) (or_intror eq_refl)) as (p & p' & Hp). exists scipy0, (some_hist [[1; 1]; [2; 1]]), p, p', 2. split; [exact scipy0_fill|]. split; [lra|]. split; [lra|]. split; [exact Hp|]. split; [reflexivity|exact some_grid].
Qed.
Lemma some_level rows s x : (rows = [[1; 1]; [2; 1]] \/ rows = [[2; 1]; [1; 1]]) -> (s < 2)%nat -> 0 < x < 3 -> 1 / 4 <= pdf_of scipy0 (input_kind (some_hist rows)) (nth s (input_rows (some_hist rows)) []) x.
Proof.
  intros Hr Hs Hx. unfold pdf_of. cbn [some_hist input_kind val]. unfold hist_point.
  assert (U : clearly_unequal [0; 1; 3]) by (exists 1%nat; split; [simpl; lia|]; unfold nth0; cbn [nth]; rewrite !Rabs_pos_eq by lra; lra).
  assert (L : exists k, (k < 2)%nat /\ get_bin_indices [0; 1; 3] x = (k, true)).
  { destruct (Rle_lt_dec x 1) as [H|H]; [exists 0%nat|exists 1%nat]; (split; [lia|]); apply lookup_irregular; try exact U; try (repeat constructor; lra); try (simpl; lia); unfold nth0; simpl; lra. }
  destruct L as (k & Hk & ->). destruct Hr as [-> | ->]; destruct s as [|[|s]]; try lia; destruct k as [|[|k]]; try lia; unfold at2, num_at, cell_at; cbn [nth nums some_hist input_rows map]; unfold hist_norm_row; rewrite npsum_R; unfold nth0, bin_widths, ndiff; cbn; lra.
Qed.
Lemma c155_kld_example : exists X a b i j p p' q q' f h, fill_outside X /\ 0 < a /\ a <> 1 /\ both X a b i p p' /\ both X a b j q q' /\ input_npdf i = 2%nat /\ input_npdf j = 2%nat /\ metric_grid (1 / 2) (5 / 2) (1 / 2) 4 (2 / 3) /\
  has_density X p 2 f /\ has_density X q 2 h /\
  (forall s k, (s < 2)%nat -> (k < 4)%nat -> KldProofs.eps <= f s (gpoint (1 / 2) (2 / 3) k) /\ KldProofs.eps <= h s (gpoint (1 / 2) (2 / 3) k) /\ a * KldProofs.eps <= f s (gpoint (1 / 2) (2 / 3) k) /\ a * KldProofs.eps <= h s (gpoint (1 / 2) (2 / 3) k)).
Proof.
  destruct (some_both _ 5 (or_introl eq_refl) (or_introl eq_refl)) as (p & p' & Hp). destruct (some_both _ 5 (or_intror eq_refl) (or_introl eq_refl)) as (q & q' & Hq).
  assert (D : forall rows e e', rows = [[1; 1]; [2; 1]] \/ rows = [[2; 1]; [1; 1]] -> both scipy0 2 5 (some_hist rows) e e' -> has_density scipy0 e 2 (fun j => pdf_of scipy0 (input_kind (some_hist rows)) (nth j (input_rows (some_hist rows)) []))).
  { intros rows e e' Hr (Hi & _ & E & _). destruct (new_density scipy0 _ scipy0_fill Hi ltac:(cbn; auto)) as (e1 & E1 & _ & _ & HD & _). rewrite E in E1. injection E1 as <-. destruct Hr as [-> | ->]; exact HD. }
  do 9 eexists. do 2 eexists. split; [exact scipy0_fill|]. split; [|split; [|split; [exact Hp|]; split; [exact Hq|]; split; [reflexivity|]; split; [reflexivity|]; split; [exact some_grid|]; split; [apply (D _ p p' (or_introl eq_refl) Hp)|]; split; [apply (D _ q q' (or_intror eq_refl) Hq)|]]]; [lra|lra|].
  intros s k Hs Hk. pose proof MetricsExamples.small_eps as He. assert (Hx : 0 < gpoint (1 / 2) (2 / 3) k < 3) by (destruct k as [|[|[|[|k]]]]; try lia; unfold gpoint; cbn [INR]; lra).
  pose proof (some_level _ s _ (or_introl eq_refl) Hs Hx). pose proof (some_level _ s _ (or_intror eq_refl) Hs Hx). cbn beta. repeat split; lra.
Qed.
