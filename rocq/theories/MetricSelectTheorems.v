(** Metrics of selected PDFs (C152). *)
From Coq Require Import String List Arith ZArith Bool Lia Reals Lra.
From Verif Require Import Num NumProofs PairwiseProofs Py NdArray NumpyLib Utils ScipyWrap Spec Values Ensemble Classes
  HistPdf SortProofs BinProofs EvalProofs NdProofs InterpProofs HistProofs HistTheorems QuantTheorems MixmodTheorems
  Kinds KindProofs EnsembleProofs KindInputs ReachProofs RowProofs EnsembleTheorems IntegrateTheorems ConvertTheorems CommuteTheorems
  Hdf5 Hdf5Theorems Metrics MetricsProofs BrierProofs KldProofs MetricsTheorems MetricsExamples Fit FitTheorems Pit PitTheorems.
Import ListNotations.
Local Open Scope string_scope.
Local Open Scope list_scope.
Local Open Scope R_scope.

(** the same key for two ensembles with these densities *)
Definition chosen (X : scipy) (e : ens R) (m : nat) (key : pykey) (ps : list nat) (e' : ens R) : Prop :=
  picks m key ps /\ ps <> [] /\ is_int key = false /\ (exists s, has_ancil e s /\ anc_plain s) /\ getitem (qp X) e key = Ok e'.
Lemma chosen_lt X e m key ps e' : chosen X e m key ps e' -> forall p, In p ps -> (p < m)%nat.
Proof. intros (Hp & _). apply (key_positions_lt _ key). apply picks_iff. exact Hp. Qed.
Lemma selected (G : nat -> R) m ps : (forall p, In p ps -> (p < m)%nat) -> select 0 (map G (seq 0 m)) ps = map (fun r => G (nth r ps 0%nat)) (seq 0 (length ps)).
Proof.
  intros H. unfold select. apply (nth_ext _ _ 0 0); [rewrite !map_length, seq_length; reflexivity|]. intros j Hj. rewrite map_length in Hj.
  rewrite (nth_map_in _ ps j _ 0%nat) by auto. rewrite (nth_map_in _ (seq 0 (length ps)) j _ 0%nat) by (rewrite seq_length; auto). rewrite seq_nth by auto. cbn [Nat.add].
  assert (Hp : (nth j ps 0 < m)%nat) by (apply H, nth_In; auto). rewrite (nth_map_in _ (seq 0 m) _ _ 0%nat) by (rewrite seq_length; auto). rewrite seq_nth by auto. reflexivity.
Qed.
Lemma chosen_density X e m f key ps e' : fill_outside X -> has_density X e m f -> chosen X e m key ps e' -> has_density X e' (length ps) (fun r => f (nth r ps 0%nat)).
Proof.
  intros HX ((M & Hm & HM) & Hn & Hf) (Hp & Hne & Hi & (s & Hs & Hpl) & E). rewrite <- Hn in Hp, Hf. pose proof (ConvertTheorems.made_shape X M e HX Hm) as [Hsh _].
  destruct (picked_curves X M e key ps s MPdf f e' HX Hm Hp Hne Hs (fun _ => Hpl) HM (conj Hsh Hf) E) as (Hn' & Hm' & _ & Hf').
  split; [eauto|]. split; [exact Hn'|]. rewrite Hn' in Hf'. exact Hf'.
Qed.
(** C152: root mean square differences *)
Lemma c152_rmse : forall X p q m f h lo hi dx n r key ps p' q', fill_outside X -> has_density X p m f -> has_density X q m h -> metric_grid lo hi dx n r ->
  chosen X p m key ps p' -> chosen X q m key ps q' ->
  exists v, calculate_rmse sqrt p q lo hi dx = Ok v /\ length v = m /\ calculate_rmse sqrt p' q' lo hi dx = Ok (select 0 v ps).
Proof.
  intros X p q m f h lo hi dx n r key ps p' q' HX Hp Hq Hg Cp Cq. eexists. split; [apply (c40_value X p q m f h lo hi dx n r HX Hp Hq Hg)|].
  split; [rewrite map_length, seq_length; reflexivity|].
  rewrite (c40_value X p' q' (length ps) _ _ lo hi dx n r HX (chosen_density X p m f key ps p' HX Hp Cp) (chosen_density X q m h key ps q' HX Hq Cq) Hg).
  rewrite selected by exact (chosen_lt X p m key ps p' Cp). reflexivity.
Qed.
(** C152: divergences, as long as none is negative *)
Lemma c152_kld : forall X p q m f h lo hi dx n r key ps p' q', fill_outside X -> has_density X p m f -> has_density X q m h -> metric_grid lo hi dx n r ->
  chosen X p m key ps p' -> chosen X q m key ps q' -> (forall j, (j < m)%nat -> 0 <= kld_of f h lo r n j) ->
  exists v, calculate_kld ln p q lo hi dx = Ok v /\ length v = m /\ calculate_kld ln p' q' lo hi dx = Ok (select 0 v ps).
Proof.
  intros X p q m f h lo hi dx n r key ps p' q' HX Hp Hq Hg Cp Cq H0. eexists. split; [exact (proj1 (c94_reported X p q m f h lo hi dx n r HX Hp Hq Hg) H0)|].
  split; [rewrite map_length, seq_length; reflexivity|]. pose proof (chosen_lt X p m key ps p' Cp) as Hlt.
  destruct (c94_reported X p' q' (length ps) _ _ lo hi dx n r HX (chosen_density X p m f key ps p' HX Hp Cp) (chosen_density X q m h key ps q' HX Hq Cq) Hg) as [E _].
  rewrite E; [|intros j Hj; apply (H0 (nth j ps 0%nat)); apply Hlt, nth_In; exact Hj].
  rewrite selected by exact Hlt. reflexivity.
Qed.
(** C152: one negative divergence replaces those of all PDFs; selecting the others brings them back *)
Lemma c152_kld_spoiled : forall X p q m f h lo hi dx n r key ps p' q', fill_outside X -> has_density X p m f -> has_density X q m h -> metric_grid lo hi dx n r ->
  chosen X p m key ps p' -> chosen X q m key ps q' -> (exists j, (j < m)%nat /\ kld_of f h lo r n j < 0) -> (forall j, In j ps -> 0 <= kld_of f h lo r n j) ->
  calculate_kld ln p q lo hi dx = Ok (repeat eps m) /\ calculate_kld ln p' q' lo hi dx = Ok (map (kld_of f h lo r n) ps).
Proof.
  intros X p q m f h lo hi dx n r key ps p' q' HX Hp Hq Hg Cp Cq Hneg H0. split; [exact (proj2 (c94_reported X p q m f h lo hi dx n r HX Hp Hq Hg) Hneg)|].
  destruct (c94_reported X p' q' (length ps) _ _ lo hi dx n r HX (chosen_density X p m f key ps p' HX Hp Cp) (chosen_density X q m h key ps q' HX Hq Cq) Hg) as [E _].
  rewrite E; [|intros j Hj; apply (H0 (nth j ps 0%nat)); apply nth_In; exact Hj]. f_equal. exact (by_position (kld_of f h lo r n) 0%nat ps).
Qed.
(** C152: outlier rates *)
Lemma chosen_cdf X M e F key ps e' : fill_outside X -> made X M e -> evaluates (ens_cdf e) (e_npdf e) F -> chosen X e (e_npdf e) key ps e' ->
  made X M e' /\ e_npdf e' = length ps /\ evaluates (ens_cdf e') (length ps) (fun r => F (nth r ps 0%nat)) /\ exists s, has_ancil e' s /\ anc_plain s.
Proof.
  intros HX Hm HF (Hp & Hne & Hi & (s & Hs & Hpl) & E). destruct (c21_slice X M e key ps s HX Hm Hp Hne Hs (fun _ => Hpl)) as (e1 & E1 & Hm1 & Hn1 & _ & Hev & Ha1).
  rewrite E in E1. injection E1 as <-. assert (Hlt : forall p, In p ps -> (p < e_npdf e)%nat) by (apply (key_positions_lt _ key); apply picks_iff; exact Hp).
  split; [exact Hm1|]. split; [exact Hn1|]. split.
  - intros x. destruct (made_rep X M e HX Hm) as (k & D & HD & Hk & _). destruct (Hev MCdf (PScalar x) ltac:(rewrite <- Hk; apply cdf_in) I) as (t & Et & _ & Es).
    change (ens_cdf e (PScalar x) = Ok t) in Et. change (ens_cdf e' (PScalar x) = Ok (select [] t ps)) in Es. rewrite HF in Et. injection Et as <-. rewrite Es. f_equal.
    unfold select. apply (nth_ext _ _ [] []); [rewrite !map_length, seq_length; reflexivity|]. intros j Hj. rewrite map_length in Hj.
    rewrite (nth_map_in _ ps j _ 0%nat) by auto. rewrite (nth_map_in _ (seq 0 (length ps)) j _ 0%nat) by (rewrite seq_length; auto). rewrite seq_nth by auto. cbn [Nat.add].
    assert (Hq : (nth j ps 0 < e_npdf e)%nat) by (apply Hlt, nth_In; auto). rewrite (nth_map_in _ (seq 0 (e_npdf e)) _ _ 0%nat) by (rewrite seq_length; auto). rewrite seq_nth by auto. reflexivity.
  - exists (anc_select ps s). split; [|destruct s as [[A B]|]; exact Hpl]. destruct Hs as (Hs & Hg). destruct s as [[A B]|]; (split; [|rewrite Hn1]).
    + rewrite Ha1. destruct key; try discriminate Hi; reflexivity.
    + destruct Hg as (G1 & G2 & G3). split; [apply select_length|]. split; [eapply select_fits; eauto|exact G3].
    + exact Ha1.
    + exact I.
Qed.
Lemma c152_outlier : forall X M e F lo hi fuel fuel' key ps e', fill_outside X -> made X M e -> evaluates (ens_cdf e) (e_npdf e) F -> chosen X e (e_npdf e) key ps e' ->
  (e_npdf e < fuel)%nat -> (length ps < fuel')%nat ->
  exists v, calculate_outlier_rate (qp X) e lo hi fuel = Some (Ok v) /\ length v = e_npdf e /\ calculate_outlier_rate (qp X) e' lo hi fuel' = Some (Ok (select NaN v ps)).
Proof.
  intros X M e F lo hi fuel fuel' key ps e' HX Hm HF C Hf Hf'. destruct (chosen_cdf X M e F key ps e' HX Hm HF C) as (Hm' & Hn' & HF' & (s' & Hs' & Hpl')).
  pose proof C as (_ & _ & _ & (s & Hs & Hpl) & _). eexists. split; [apply (c41_rate X M e s F lo hi fuel HX Hm Hs Hpl HF Hf)|]. split; [rewrite map_length, seq_length; reflexivity|].
  rewrite <- Hn' in HF'. rewrite (c41_rate X M e' s' _ lo hi fuel' HX Hm' Hs' Hpl' HF' ltac:(lia)). do 2 f_equal. rewrite Hn'.
  pose proof (chosen_lt _ _ _ _ _ _ C) as Hlt. unfold select. apply (nth_ext _ _ NaN NaN); [rewrite !map_length, seq_length; reflexivity|]. intros j Hj. rewrite map_length, seq_length in Hj.
  rewrite (nth_map_in _ ps j _ 0%nat) by auto. rewrite (nth_map_in _ (seq 0 (length ps)) j _ 0%nat) by (rewrite seq_length; auto). rewrite seq_nth by auto. cbn [Nat.add].
  assert (Hq : (nth j ps 0 < e_npdf e)%nat) by (apply Hlt, nth_In; auto). rewrite (nth_map_in _ (seq 0 (e_npdf e)) _ _ 0%nat) by (rewrite seq_length; auto). rewrite seq_nth by auto. reflexivity.
Qed.
(** C152: PIT values *)
Lemma c152_pit : forall X M e F truth key ps e', fill_outside X -> made X M e -> evaluates (ens_cdf e) (e_npdf e) F -> chosen X e (e_npdf e) key ps e' ->
  length truth = e_npdf e -> (2 <= e_npdf e)%nat -> (2 <= length ps)%nat ->
  exists v, gather_pit_samples e truth = Ok v /\ length v = e_npdf e /\ gather_pit_samples e' (select 0 truth ps) = Ok (select 0 v ps).
Proof.
  intros X M e F truth key ps e' HX Hm HF C Ht H2 H2'. destruct (chosen_cdf X M e F key ps e' HX Hm HF C) as (Hm' & Hn' & HF' & _). pose proof (chosen_lt _ _ _ _ _ _ C) as Hlt.
  assert (C1 : has_cdf X e (e_npdf e) F) by (split; [eauto|split; [reflexivity|exact HF]]).
  assert (C2 : has_cdf X e' (length ps) (fun r => F (nth r ps 0%nat))) by (split; [eauto|split; [exact Hn'|exact HF']]).
  eexists. split; [apply (pit_samples_eq X e (e_npdf e) F truth HX C1 H2 Ht)|]. split; [rewrite map_length, seq_length; reflexivity|].
  rewrite (pit_samples_eq X e' (length ps) _ (select 0 truth ps) HX C2 H2' (select_length _ _ _)). f_equal. rewrite selected by exact Hlt.
  apply map_ext_in. intros j Hj. apply in_seq in Hj. unfold select. rewrite (nth_map_in _ ps j _ 0%nat) by lia. reflexivity.
Qed.

(** ** Examples *)
Lemma c152_example : exists X p q f h lo hi dx n r key ps p' q', fill_outside X /\ has_density X p 2 f /\ has_density X q 2 h /\ metric_grid lo hi dx n r /\
  chosen X p 2 key ps p' /\ chosen X q 2 key ps q' /\ (exists j, (j < 2)%nat /\ kld_of f h lo r n j < 0) /\ (forall j, In j ps -> eps < kld_of f h lo r n j).
Proof.
  destruct (new_density scipy0 (halves [3/4; 1/4]) scipy0_fill) as (p & _ & Mp & Ap & Hp & _); [apply halves_ok; [discriminate|each]|cbn; tauto|].
  destruct (new_density scipy0 (halves [1/4; 3/4]) scipy0_fill) as (q & _ & Mq & Aq & Hq & _); [apply halves_ok; [discriminate|each]|cbn; tauto|].
  assert (Hk : picks 2 (KSlice 0 1) [0%nat]) by (apply picks_iff; reflexivity).
  assert (Np : e_npdf p = 2%nat) by apply Hp. assert (Nq : e_npdf q = 2%nat) by apply Hq.
  destruct (c21_slice scipy0 _ p (KSlice 0 1) [0%nat] None scipy0_fill Mp ltac:(rewrite Np; exact Hk) ltac:(discriminate) Ap ltac:(discriminate)) as (p' & Ep & _).
  destruct (c21_slice scipy0 _ q (KSlice 0 1) [0%nat] None scipy0_fill Mq ltac:(rewrite Nq; exact Hk) ltac:(discriminate) Aq ltac:(discriminate)) as (q' & Eq & _).
  exists scipy0, p, q. eexists. eexists. exists (1/4), (3/4), (1/4), 2%nat, (1/2), (KSlice 0 1), [0%nat], p', q'. split; [exact scipy0_fill|]. split; [exact Hp|]. split; [exact Hq|]. split; [exact grid2|].
  assert (Hn0 : [0%nat] <> []) by discriminate.
  split; [split; [exact Hk|split; [exact Hn0|split; [reflexivity|split; [exists None; split; [exact Ap|exact I]|exact Ep]]]]|].
  split; [split; [exact Hk|split; [exact Hn0|split; [reflexivity|split; [exists None; split; [exact Aq|exact I]|exact Eq]]]]|]. pose proof small_eps as He. split.
  - exists 1%nat. split; [lia|]. rewrite halves_kld by (simpl; lia). cbn [nth]. rewrite !floored_id by lra. pose proof (ln_gap (1/4) (3/4) ltac:(lra) ltac:(lra)). lra.
  - intros j [<-|[]]. rewrite halves_kld by (simpl; lia). cbn [nth]. rewrite !floored_id by lra. pose proof (ln_gap (1/4) (3/4) ltac:(lra) ltac:(lra)). lra.
Qed.
Lemma c152_kld_example : exists X p q f h lo hi dx n r key ps p' q', fill_outside X /\ has_density X p 2 f /\ has_density X q 2 h /\ metric_grid lo hi dx n r /\
  chosen X p 2 key ps p' /\ chosen X q 2 key ps q' /\ (forall j, (j < 2)%nat -> 0 < kld_of f h lo r n j).
Proof.
  destruct (new_density scipy0 (halves [3/4; 1/2]) scipy0_fill) as (p & _ & Mp & Ap & Hp & _); [apply halves_ok; [discriminate|each]|cbn; tauto|].
  destruct (new_density scipy0 (halves [1/4; 1/4]) scipy0_fill) as (q & _ & Mq & Aq & Hq & _); [apply halves_ok; [discriminate|each]|cbn; tauto|].
  assert (Hk : picks 2 (KSlice 0 1) [0%nat]) by (apply picks_iff; reflexivity).
  assert (Np : e_npdf p = 2%nat) by apply Hp. assert (Nq : e_npdf q = 2%nat) by apply Hq.
  destruct (c21_slice scipy0 _ p (KSlice 0 1) [0%nat] None scipy0_fill Mp ltac:(rewrite Np; exact Hk) ltac:(discriminate) Ap ltac:(discriminate)) as (p' & Ep & _).
  destruct (c21_slice scipy0 _ q (KSlice 0 1) [0%nat] None scipy0_fill Mq ltac:(rewrite Nq; exact Hk) ltac:(discriminate) Aq ltac:(discriminate)) as (q' & Eq & _).
  exists scipy0, p, q. eexists. eexists. exists (1/4), (3/4), (1/4), 2%nat, (1/2), (KSlice 0 1), [0%nat], p', q'. split; [exact scipy0_fill|]. split; [exact Hp|]. split; [exact Hq|]. split; [exact grid2|].
  assert (Hn0 : [0%nat] <> []) by discriminate.
  split; [split; [exact Hk|split; [exact Hn0|split; [reflexivity|split; [exists None; split; [exact Ap|exact I]|exact Ep]]]]|].
  split; [split; [exact Hk|split; [exact Hn0|split; [reflexivity|split; [exists None; split; [exact Aq|exact I]|exact Eq]]]]|].
  intros [|[|j]] Hj; [| |lia]; rewrite halves_kld by (simpl; lia); cbn [nth]; pose proof small_eps as He; rewrite !floored_id by lra;
    pose proof (ln_gap (1/4) (3/4) ltac:(lra) ltac:(lra)); pose proof (ln_gap (1/4) (1/2) ltac:(lra) ltac:(lra)); lra.
Qed.
Lemma c152_cdf_example : exists X M e F key ps e', fill_outside X /\ made X M e /\ evaluates (ens_cdf e) (e_npdf e) F /\ chosen X e (e_npdf e) key ps e' /\ e_npdf e = 3%nat /\ ps = [1; 2]%nat.
Proof.
  destruct c41_example as (X & M & e & s & HX & _ & Hm & _ & Hs & Hpl & _ & Hn & F & HF).
  assert (Hk : picks (e_npdf e) (KSlice 1 3) [1; 2]%nat) by (rewrite Hn; apply picks_iff; reflexivity). assert (Hne : [1; 2]%nat <> []) by discriminate.
  destruct (c21_slice X M e (KSlice 1 3) [1; 2]%nat s HX Hm Hk Hne Hs (fun _ => Hpl)) as (e' & E & _).
  exists X, M, e, F, (KSlice 1 3), [1; 2]%nat, e'. split; [exact HX|]. split; [exact Hm|]. split; [exact HF|].
  split; [split; [exact Hk|split; [exact Hne|split; [reflexivity|split; [exists s; split; [exact Hs|exact Hpl]|exact E]]]]|]. split; [exact Hn|reflexivity].
Qed.
