(** Moments summed over a metric grid: calculate_moment and Ensemble.moment_partial (C48, C104). *)
From Coq Require Import String List Arith ZArith Bool Lia Reals Lra.
From Verif Require Import Num NumProofs Py NdArray NumpyLib Utils ScipyWrap Spec Values Ensemble Classes
  HistPdf SortProofs BinProofs EvalProofs NdProofs InterpProofs HistProofs HistTheorems QuantTheorems MixmodTheorems
  Kinds KindProofs EnsembleProofs KindInputs ReachProofs RowProofs EnsembleTheorems IntegrateTheorems ConvertTheorems
  Metrics MetricsProofs BrierProofs KldProofs MetricsTheorems MetricsExamples.
Import ListNotations.
Local Open Scope string_scope.
Local Open Scope list_scope.
Local Open Scope R_scope.

Lemma grid_same (lo hi dx : R) g : grid_parameters lo hi dx = Ok g ->
  (@int_trunc R RNum ((hi - lo) / dx)%R <? 0)%Z = false /\ np_linspace lo hi (Z.to_nat (int_trunc ((hi - lo) / dx))) = mg_values g.
Proof.
  unfold grid_parameters. cbv zeta. change (ndiv (nsub hi lo) dx) with ((hi - lo) / dx).
  destruct (neqb dx n0); [discriminate|]. destruct (int_trunc ((hi - lo) / dx)%R <? 0)%Z; [discriminate|]. destruct (_ =? 1)%Z; [discriminate|]. destruct (_ =? 0)%Z; [discriminate|].
  intros E. injection E as <-. split; reflexivity.
Qed.
(** [moment_partial] multiplies by the requested spacing [dx], [calculate_moment] by the spacing [r] of the same points. *)
Lemma c104_grid : forall X p m f k lo hi dx n r, has_density X p m f -> metric_grid lo hi dx n r ->
  calculate_moment p k lo hi dx = Ok (map (fun j => rsum n (fun i => f j (gpoint lo r i) * gpoint lo r i ^ k) * r) (seq 0 m)) /\
  fst (moment_partial p k lo hi dx) = Ok (map (fun j => rsum n (fun i => f j (gpoint lo r i) * gpoint lo r i ^ k) * dx) (seq 0 m)).
Proof.
  intros X p m f k lo hi dx n r Hp Hg. split; [apply (moment_eq X); assumption|].
  destruct (metric_grid_ok _ _ _ _ _ Hg) as (g & Eg & Hl & Er). destruct (grid_same _ _ _ _ Eg) as [E1 E2]. unfold moment_partial. cbv zeta. change (ndiv (nsub hi lo) dx) with ((hi - lo) / dx).
  rewrite E1, E2. pose proof (on_grid_eq X p m f (mg_values g) Hp ltac:(apply Hl)) as Ho. unfold on_grid in Ho.
  destruct (gridded p (mg_values g)) as [[[g' v]|x] p']; cbn [fst] in Ho |- *; [|discriminate]. injection Ho as Ho. f_equal.
  transitivity (map (fun line => quick_moment line (map (fun x => npow x k) (mg_values g)) dx) (map (map xval) v)); [rewrite map_map; reflexivity|]. rewrite Ho, map_map. apply map_ext. intros j. unfold quick_moment.
  rewrite !(grid_line lo hi g n _ Hl), map2_map, nsum_seq, Er. cbn [nmul RNum]. f_equal. apply rsum_ext. intros i _. rewrite npow_R. reflexivity.
Qed.
Lemma c104_ratio : forall X p m f k lo hi dx n r v, has_density X p m f -> metric_grid lo hi dx n r ->
  calculate_moment p k lo hi dx = Ok v -> 0 < r /\ dx < r /\ fst (moment_partial p k lo hi dx) = Ok (map (fun x => x * (dx / r)) v).
Proof.
  intros X p m f k lo hi dx n r v Hp Hg E. destruct (c104_grid X p m f k lo hi dx n r Hp Hg) as [E1 E2]. rewrite E1 in E. injection E as <-. destruct Hg as (Hdx & Hn & Hb & Hr).
  assert (Hpos : 0 < INR (pred n)) by (apply lt_0_INR; lia). assert (Hn1 : INR n = INR (pred n) + 1) by (rewrite <- S_INR; f_equal; lia).
  assert (dx < r). { apply Rmult_lt_reg_l with (INR (pred n)); [exact Hpos|]. rewrite Hr, Hn1 in *. nra. }
  split; [lra|]. split; [assumption|]. rewrite E2, map_map. f_equal. apply map_ext. intros j. field. lra.
Qed.
(** A PDF uniform on [0,1], summed at 0 and 3/2 *)
Lemma c48_refuted_grid : exists X p f lo hi dx n r v, fill_outside X /\ has_density X p 3 f /\ metric_grid lo hi dx n r /\ lo <= 0 /\ 1 <= hi /\ (forall x, 0 <= x < 1 -> f 2%nat x = 1) /\
  calculate_moment p 0 lo hi dx = Ok v /\ nth 2 v 0 = 3 / 2 /\ fst (moment_partial p 0 lo hi dx) = Ok (map (fun x => x / 2) v).
Proof.
  destruct (new_density scipy0 (halves [3/4; 1/4; 1]) scipy0_fill) as (p & _ & _ & Sp & Hp & _); [apply halves_ok; [discriminate|each]|cbn; tauto|].
  assert (Hg : metric_grid 0 (3/2) (3/4) 2 (3/2)) by (split; [lra|split; [lia|cbn; lra]]). rewrite halves_npdf in Hp. change (length [3/4; 1/4; 1]) with 3%nat in Hp.
  destruct (c104_grid _ _ _ _ 0%nat _ _ _ _ _ Hp Hg) as [E1 E2]. eexists scipy0, p, _, 0, (3/2), (3/4), 2%nat, (3/2), _. split; [exact scipy0_fill|]. split; [exact Hp|]. split; [exact Hg|]. split; [lra|]. split; [lra|].
  split; [intros x Hx; rewrite halves_density by (first [lra | cbn; lia]); reflexivity|]. split; [exact E1|]. split.
  - cbn [seq map nth rsum]. rewrite !pow_O. unfold gpoint. cbn [INR]. rewrite halves_density, halves_second by (first [lra | cbn; lia]). cbn [nth]. field.
  - rewrite E2, map_map. f_equal. apply map_ext. intros j. field.
Qed.
Lemma c104_grid_example : exists X p f lo hi dx n r, has_density X p 3 f /\ metric_grid lo hi dx n r.
Proof. destruct three_density as (X & p & f & _ & Hp & _ & Hg & _). exists X, p, f. do 5 eexists. split; [exact Hp|exact Hg]. Qed.
