(** Modes (C159). *)
From Coq Require Import String List Arith ZArith Bool Lia Reals Lra.
From Verif Require Import Num NumProofs PairwiseProofs Py NdArray NumpyLib Utils ScipyWrap Spec Values Ensemble Classes
  HistPdf SortProofs BinProofs EvalProofs NdProofs InterpProofs HistProofs HistTheorems QuantTheorems MixmodTheorems
  Kinds KindProofs EnsembleProofs KindInputs ReachProofs RowProofs EnsembleTheorems IntegrateTheorems ConvertTheorems
  Hdf5 Hdf5Theorems Metrics MetricsProofs MetricsTheorems MetricsExamples Profile ProfileTheorems UnitTheorems UnitMetricTheorems MetricSelectTheorems.
Import ListNotations.
Local Open Scope string_scope.
Local Open Scope list_scope.
Local Open Scope R_scope.

(** [v] is the first point of the grid at which [f] is largest on the grid *)
Definition is_mode (f : R -> R) (grid : list R) (v : R) : Prop :=
  exists i, (i < length grid)%nat /\ v = nth0 i grid /\ (forall j, (j < length grid)%nat -> f (nth0 j grid) <= f v) /\ (forall j, (j < i)%nat -> f (nth0 j grid) < f v).
Definition first_max (l : list R) (k : nat) : Prop :=
  (k < length l)%nat /\ (forall j, (j < length l)%nat -> nth0 j l <= nth0 k l) /\ (forall j, (j < k)%nat -> nth0 j l < nth0 k l).
Lemma argmax_from_spec : forall l pre bi, first_max pre bi -> first_max (pre ++ l) (argmax_from (nth0 bi pre) bi (length pre) l).
Proof.
  induction l as [|x l IH]; intros pre bi H; [rewrite app_nil_r; exact H|]. destruct H as (Hb & Hm & Hf).
  assert (Eq : pre ++ x :: l = (pre ++ [x]) ++ l) by (rewrite <- app_assoc; reflexivity). rewrite Eq. assert (Ln : length (pre ++ [x]) = S (length pre)) by (rewrite app_length; cbn; lia).
  assert (Lo : forall j, (j < length pre)%nat -> nth0 j (pre ++ [x]) = nth0 j pre) by (intros; unfold nth0; apply app_nth1; lia).
  assert (La : nth0 (length pre) (pre ++ [x]) = x) by (unfold nth0; rewrite app_nth2, Nat.sub_diag by lia; reflexivity).
  cbn [argmax_from]. destruct (nltb_reflect (nth0 bi pre) x) as [L|L]; revert L; numR; intros L.
  - pose proof (IH (pre ++ [x]) (length pre)) as G. rewrite La, Ln in G. apply G. split; [lia|]. rewrite La, ?Ln. split; intros j Hj.
    + destruct (Nat.eq_dec j (length pre)) as [->|]; [rewrite La; lra|]. rewrite Lo by lia. pose proof (Hm j ltac:(lia)). lra.
    + rewrite Lo by lia. pose proof (Hm j ltac:(lia)). lra.
  - pose proof (IH (pre ++ [x]) bi) as G. rewrite (Lo bi), Ln in G by lia. apply G. split; [lia|]. rewrite (Lo bi), ?Ln by lia. split; intros j Hj.
    + destruct (Nat.eq_dec j (length pre)) as [->|]; [rewrite La; lra|]. rewrite Lo by lia. apply Hm. lia.
    + rewrite Lo by lia. apply Hf. lia.
Qed.
Lemma argmax_spec (l : list R) : l <> [] -> first_max l (np_argmax l).
Proof.
  destruct l as [|x l]; [congruence|]. intros _. apply (argmax_from_spec l [x] 0%nat). split; [cbn; lia|]. split; [intros [|j] Hj; [lra|cbn in Hj; lia]|lia].
Qed.
Lemma first_max_unique l k k' : first_max l k -> first_max l k' -> k = k'.
Proof.
  intros (H1 & H2 & H3) (K1 & K2 & K3). destruct (lt_eq_lt_dec k k') as [[H|H]|H]; [|exact H|].
  - pose proof (K3 k H). pose proof (H2 k' K1). lra.
  - pose proof (H3 k' H). pose proof (K2 k H1). lra.
Qed.
Lemma mode_eq X fn d anc e cs e' n f grid : ens_new fn d anc = Ok e -> history e cs e' -> has_density X e' n f -> increasing grid -> grid <> [] ->
  fst (mode e' grid) = Ok (map (fun r => nth0 (np_argmax (map (f r) grid)) grid) (seq 0 n)).
Proof.
  intros E H (_ & _ & [_ Hg]) Hi Hne. specialize (Hg grid Hi). unfold table in Hg. rewrite (c29_mode fn d anc e cs e' grid _ E H Hg Hne). f_equal. rewrite map_map. apply map_ext. intros r. rewrite map_map. reflexivity.
Qed.
(** C159 *)
Lemma c159_mode : forall X fn d anc e cs e' n f grid, ens_new fn d anc = Ok e -> history e cs e' -> has_density X e' n f -> increasing grid -> grid <> [] ->
  exists v, fst (mode e' grid) = Ok v /\ length v = n /\ forall r, (r < n)%nat -> is_mode (f r) grid (nth0 r v).
Proof.
  intros X fn d anc e cs e' n f grid E H Hd Hi Hne. eexists. split; [apply (mode_eq X fn d anc e cs e' n f grid); assumption|]. split; [rewrite map_length, seq_length; reflexivity|].
  intros r Hr. unfold nth0 at 1. rewrite (nth_map_in _ (seq 0 n) r _ 0%nat) by (rewrite seq_length; exact Hr). rewrite seq_nth by exact Hr. cbn [plus].
  destruct (argmax_spec (map (f r) grid)) as (H1 & H2 & H3); [destruct grid; [congruence|discriminate]|]. rewrite map_length in *. set (k := np_argmax (map (f r) grid)) in *. exists k. split; [exact H1|]. split; [reflexivity|].
  split; intros j Hj; [specialize (H2 j Hj)|specialize (H3 j Hj)]; rewrite !nth0_map in * by lia; assumption.
Qed.
(** C159: in other units *)
Lemma c159_units : forall X a b i e e' grid, fill_outside X -> 0 < a -> both X a b i e e' -> increasing grid -> grid <> [] ->
  exists v, fst (mode e grid) = Ok v /\ fst (mode e' (map (unit_of a b) grid)) = Ok (map (unit_of a b) v).
Proof.
  intros X a b i e e' grid HX Ha Hb Hi Hne. destruct (both_curves X a b i e e' HX Ha Hb) as (f & f' & F & F' & P & P' & _ & _ & _ & _ & _ & _ & H). destruct Hb as (_ & _ & E & E').
  eexists. split; [apply (mode_eq X _ _ _ e [] e (input_npdf i) f grid E); [constructor|exact P|exact Hi|exact Hne]|].
  assert (Hi' : increasing (map (unit_of a b) grid)).
  { apply IntegralProofs.step_increasing. intros j Hj. rewrite map_length in Hj. rewrite !nth0_map by lia. assert (nth0 j grid < nth0 (S j) grid) by (apply inc_lt; auto; lia). unfold unit_of. nra. }
  rewrite (mode_eq X _ _ _ e' [] e' (input_npdf i) f' _ E'); [|constructor|exact P'|exact Hi'|destruct grid; [congruence|discriminate]]. f_equal. rewrite map_map. apply map_ext_in. intros r Hr. apply in_seq in Hr. rewrite map_map.
  assert (Ek : np_argmax (map (fun x => f' r (unit_of a b x)) grid) = np_argmax (map (f r) grid)).
  { apply (first_max_unique (map (f r) grid)); [|apply argmax_spec; destruct grid; [congruence|discriminate]]. destruct (argmax_spec (map (fun x => f' r (unit_of a b x)) grid)) as (H1 & H2 & H3); [destruct grid; [congruence|discriminate]|]. rewrite map_length in *. set (k := np_argmax _) in *.
    assert (G : forall y z, y / a <= z / a -> y <= z) by (intros y z Hyz; unfold Rdiv in Hyz; apply Rmult_le_reg_r in Hyz; [exact Hyz|apply Rinv_0_lt_compat; exact Ha]). assert (G' : forall y z, y / a < z / a -> y < z) by (intros y z Hyz; unfold Rdiv in Hyz; apply Rmult_lt_reg_r in Hyz; [exact Hyz|apply Rinv_0_lt_compat; exact Ha]).
    split; [rewrite map_length; exact H1|]. rewrite map_length. split; intros j Hj; [specialize (H2 j Hj); rewrite !nth0_map in * by lia|specialize (H3 j Hj); rewrite !nth0_map in * by lia].
    - destruct (H r (nth0 j grid) ltac:(lia)) as [E1 _]. destruct (H r (nth0 k grid) ltac:(lia)) as [E2 _]. rewrite E1, E2 in H2. apply G. exact H2.
    - destruct (H r (nth0 j grid) ltac:(lia)) as [E1 _]. destruct (H r (nth0 k grid) ltac:(lia)) as [E2 _]. rewrite E1, E2 in H3. apply G'. exact H3. }
  rewrite Ek. apply nth0_map. destruct (argmax_spec (map (f r) grid)) as (H1 & _); [destruct grid; [congruence|discriminate]|]. rewrite map_length in H1. exact H1.
Qed.
(** C159: modes of selected PDFs *)
Lemma getitem_new X e key e' : getitem (qp X) e key = Ok e' -> exists fn d anc, ens_new fn d anc = Ok e'.
Proof. unfold getitem. intros E. destruct (slice_dict (objdata e) key) as [dd|]; [cbn [bind] in E|discriminate]. destruct (e_ancil e) as [a|]; [destruct (slice_dict a key); [|discriminate]|]; cbn [bind] in E; eauto. Qed.
Lemma c159_select : forall X fn d anc e0 cs e m f key ps e' grid, fill_outside X -> ens_new fn d anc = Ok e0 -> history e0 cs e -> has_density X e m f -> chosen X e m key ps e' -> increasing grid -> grid <> [] ->
  exists v, fst (mode e grid) = Ok v /\ fst (mode e' grid) = Ok (select 0 v ps).
Proof.
  intros X fn d anc e0 cs e m f key ps e' grid HX E H Hd Hc Hi Hne. eexists. split; [apply (mode_eq X fn d anc e0 cs e m f grid); assumption|].
  pose proof (chosen_density X e m f key ps e' HX Hd Hc) as Hd'. pose proof (chosen_lt X e m key ps e' Hc) as Hlt. destruct Hc as (_ & _ & _ & _ & Eg). destruct (getitem_new X e key e' Eg) as (fn' & d' & anc' & E').
  rewrite (mode_eq X fn' d' anc' e' [] e' _ _ grid E' (h_start e') Hd' Hi Hne). f_equal. symmetry. apply (selected (fun r => nth0 (np_argmax (map (f r) grid)) grid)). exact Hlt.
Qed.

(** ** Examples *)
Lemma c159_example : exists X fn d anc e cs e' n f (grid : list R), fill_outside X /\ ens_new fn d anc = Ok e /\ history e cs e' /\ has_density X e' n f /\ increasing grid /\ grid <> [] /\ n = 2%nat /\ length grid = 3%nat /\ cs <> [].
Proof.
  destruct (some_both _ 5 (or_introl eq_refl) (or_introl eq_refl)) as (p & p' & Hp). destruct (both_curves scipy0 2 5 _ _ _ scipy0_fill Rlt_0_2 Hp) as (f & f' & F & F' & P & _). destruct Hp as (_ & _ & E & _).
  exists scipy0. do 3 eexists. exists p, ([] ++ [CSetAncil None]). eexists. do 2 eexists. exists [0; 1; 2]. split; [exact scipy0_fill|]. split; [exact E|]. split; [eapply h_call; [apply h_start|cbn; reflexivity|discriminate]|].
  split; [|split; [repeat constructor; lra|]; split; [discriminate|]; split; [|split; [reflexivity|discriminate]]]; [|].
  - destruct p as [fu ob an gr]. cbn in *. assert (an = None) as -> by (apply ens_new_inv in E; destruct E as (g & _ & _ & E); injection E as _ _ -> _; reflexivity). exact P.
  - reflexivity.
Qed.
Lemma c159_units_example : exists X a b i e e' (grid : list R), fill_outside X /\ 0 < a /\ both X a b i e e' /\ increasing grid /\ grid <> [] /\ a <> 1 /\ b <> 0 /\ input_npdf i = 2%nat.
Proof.
  destruct (some_both _ 5 (or_introl eq_refl) (or_introl eq_refl)) as (p & p' & Hp). exists scipy0, 2, 5. do 3 eexists. exists [0; 1; 2]. split; [exact scipy0_fill|]. split; [lra|]. split; [exact Hp|]. split; [repeat constructor; lra|]. split; [discriminate|]. split; [lra|]. split; [lra|reflexivity].
Qed.
Lemma c159_select_example : exists X fn d anc e0 cs e m f key ps e', fill_outside X /\ ens_new fn d anc = Ok e0 /\ history e0 cs e /\ has_density X e m f /\ chosen X e m key ps e' /\ m = 2%nat /\ ps = [0%nat].
Proof.
  destruct (new_density scipy0 (halves [3/4; 1/4]) scipy0_fill) as (p & E & Mp & Ap & Hp & _); [apply halves_ok; [discriminate|each]|cbn; tauto|].
  assert (Hk : picks 2 (KSlice 0 1) [0%nat]) by (apply picks_iff; reflexivity). assert (Np : e_npdf p = 2%nat) by apply Hp.
  destruct (c21_slice scipy0 _ p (KSlice 0 1) [0%nat] None scipy0_fill Mp ltac:(rewrite Np; exact Hk) ltac:(discriminate) Ap ltac:(discriminate)) as (p' & Ep & _).
  exists scipy0. do 3 eexists. exists p, [], p, 2%nat. eexists. exists (KSlice 0 1), [0%nat], p'. split; [exact scipy0_fill|]. split; [exact E|]. split; [apply h_start|]. split; [exact Hp|]. split; [|split; reflexivity].
  split; [exact Hk|]. split; [discriminate|]. split; [reflexivity|]. split; [exists None; split; [exact Ap|exact I]|exact Ep].
Qed.
