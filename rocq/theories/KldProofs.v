(** Lemmas on the Kullback-Leibler divergence. *)
From Coq Require Import String List Arith ZArith Bool Lia Reals Lra Sorted.
From Verif Require Import Num NumProofs Py NdArray NumpyLib Utils ScipyWrap Spec Values Ensemble Classes
  HistPdf InterpPdf QuantPdf MixmodPdf Packing PackedPdf
  SortProofs BinProofs EvalProofs NdProofs InterpProofs HistProofs InterpPdfProofs HistTheorems GridTheorems IrrTheorems
  QuantTheorems MixmodTheorems PackingTheorems PackedTheorems Kinds KindProofs EnsembleProofs KindInputs ReachProofs AppendProofs
  RowProofs EnsembleTheorems IntegrateTheorems Metrics MetricsProofs.
Import ListNotations.
Local Open Scope string_scope.
Local Open Scope list_scope.
Local Open Scope R_scope.

Definition eps : R := / 2 ^ 52.
Lemma float_eps_R : (float_eps : R) = eps.
Proof. unfold float_eps, nfrac, eps. cbn [ndiv nofZ RNum]. replace (2 ^ 52)%Z with 4503599627370496%Z by reflexivity. replace (2 ^ 52) with 4503599627370496 by (cbn; lra). lra. Qed.
Lemma eps_pos : 0 < eps.
Proof. unfold eps. apply Rinv_0_lt_compat. apply pow_lt. lra. Qed.
(** the divergence on the grid before the check for negative values *)
Definition floored (x : R) : R := Rmax eps x.
Definition kld (n : nat) (r : R) (a b : nat -> R) : R := r * rsum n (fun i => a i * (ln (floored (a i)) - ln (floored (b i)))).
Definition kld_of (f h : nat -> R -> R) (lo r : R) (n j : nat) : R := kld n r (fun i => f j (gpoint lo r i)) (fun i => h j (gpoint lo r i)).
Lemma safelog_R x : safelog ln x = ln (floored x).
Proof. unfold safelog, floored. rewrite nmax_R, float_eps_R. reflexivity. Qed.
Lemma kld_eq X p q m f h lo hi dx n r : fill_outside X -> has_density X p m f -> has_density X q m h -> metric_grid lo hi dx n r ->
  calculate_kld ln p q lo hi dx =
  Ok (if existsb (fun d => nltb d n0) (map (kld_of f h lo r n) (seq 0 m)) then map (fun _ => eps) (seq 0 m) else map (kld_of f h lo r n) (seq 0 m)).
Proof.
  intros HX Hp Hq Hg. destruct (metric_grid_ok _ _ _ _ _ Hg) as (g & Eg & Hl & Er). unfold calculate_kld.
  rewrite (same_shape X p q m f h HX Hp Hq). cbn [negb]. rewrite Eg. cbn [bind].
  rewrite (on_grid_eq X p m f _ Hp) by apply Hl. rewrite (on_grid_eq X q m h _ Hq) by apply Hl. cbn [bind]. rewrite map2_map.
  assert (E : map (fun j => quick_kld ln (map (f j) (mg_values g)) (map (h j) (mg_values g)) (mg_res g)) (seq 0 m) = map (kld_of f h lo r n) (seq 0 m)).
  { apply map_ext. intros j. unfold quick_kld, kld_of, kld. rewrite !(grid_line lo hi g n _ Hl), map2_map, nsum_seq, Er. cbn [nmul nsub RNum]. f_equal. apply rsum_ext. intros i _. rewrite !safelog_R. reflexivity. }
  rewrite E. destruct (existsb _ _); [|reflexivity]. rewrite map_map. f_equal. apply map_ext. intros _. apply float_eps_R.
Qed.
Lemma kld_reported X p q m f h lo hi dx n r : fill_outside X -> has_density X p m f -> has_density X q m h -> metric_grid lo hi dx n r ->
  ((forall j, (j < m)%nat -> 0 <= kld_of f h lo r n j) -> calculate_kld ln p q lo hi dx = Ok (map (kld_of f h lo r n) (seq 0 m))) /\
  ((exists j, (j < m)%nat /\ kld_of f h lo r n j < 0) -> calculate_kld ln p q lo hi dx = Ok (map (fun _ => eps) (seq 0 m))).
Proof.
  intros HX Hp Hq Hg. rewrite (kld_eq X p q m f h lo hi dx n r HX Hp Hq Hg). split.
  - intros H. destruct (existsb _ _) eqn:E; [|reflexivity]. exfalso. apply existsb_exists in E. destruct E as (d & Hd & Hneg). apply in_map_iff in Hd. destruct Hd as (j & <- & Hj).
    apply in_seq in Hj. specialize (H j ltac:(lia)). destruct (nltb_reflect (kld_of f h lo r n j) n0) as [C|C]; [cbn in C; lra|discriminate].
  - intros (j & Hj & Hneg). replace (existsb (fun d => nltb d n0) (map (kld_of f h lo r n) (seq 0 m))) with true; [reflexivity|]. symmetry. apply existsb_exists.
    exists (kld_of f h lo r n j). split; [apply in_map; apply in_seq; lia|]. destruct (nltb_reflect (kld_of f h lo r n j) n0) as [C|C]; [reflexivity|cbn in C; lra].
Qed.
Lemma kld_self n r a : kld n r a a = 0.
Proof. unfold kld. rewrite (rsum_ext n _ (fun _ => 0)) by (intros; ring). replace (rsum n (fun _ => 0)) with 0; [ring|]. induction n as [|n IH]; cbn [rsum]; [reflexivity|]. rewrite <- IH. ring. Qed.
(** never a negative number, whatever the ensembles *)
Lemma kld_nonneg p q lo hi dx D : calculate_kld ln p q lo hi dx = Ok D -> List.Forall (fun d => 0 <= d) D.
Proof.
  unfold calculate_kld. destruct (negb _); [discriminate|]. unfold bind. destruct (grid_parameters lo hi dx) as [g|]; [|discriminate].
  destruct (on_grid p (mg_values g)) as [pn|]; [|discriminate]. destruct (on_grid q (mg_values g)) as [qn|]; [|discriminate].
  destruct (existsb _ _) eqn:E; intros H; injection H as <-; apply List.Forall_forall; intros d Hd.
  - apply in_map_iff in Hd. destruct Hd as (u & <- & _). pose proof eps_pos as He. rewrite <- float_eps_R in He. left. exact He.
  - destruct (Rle_lt_dec 0 d) as [|Hneg]; [auto|]. exfalso. assert (C : existsb (fun d => nltb d n0) (map2 (fun a b => quick_kld ln a b (mg_res g)) pn qn) = true); [|congruence].
    apply existsb_exists. exists d. split; [exact Hd|]. destruct (nltb_reflect d n0) as [C|C]; [reflexivity|cbn in C; lra].
Qed.
(** Gibbs' inequality *)
Lemma ln_diff a b : 0 < a -> 0 < b -> a - b <= a * (ln a - ln b).
Proof.
  intros Ha Hb. assert (Hq : 0 < b / a) by (apply Rdiv_lt_0_compat; auto). pose proof (exp_ineq1_le (ln (b / a))) as H. rewrite exp_ln in H by exact Hq.
  unfold Rdiv in H. rewrite ln_mult in H by (auto; apply Rinv_0_lt_compat; auto). rewrite ln_Rinv in H by exact Ha.
  assert (H2 : a * (1 + (ln b + - ln a)) <= a * (b * / a)) by (apply Rmult_le_compat_l; lra).
  replace (a * (b * / a)) with b in H2 by (field; lra). lra.
Qed.
Lemma kld_term a b : 0 <= a -> a - floored b <= a * (ln (floored a) - ln (floored b)).
Proof.
  intros Ha. pose proof eps_pos as He. assert (HB : 0 < floored b) by (unfold floored; pose proof (Rmax_l eps b); lra).
  destruct (Rle_lt_dec eps a) as [H|H].
  - assert (E : floored a = a) by (unfold floored; apply Rmax_right; exact H). rewrite E. apply ln_diff; [lra|exact HB].
  - assert (E : floored a = eps) by (unfold floored; apply Rmax_left; lra). rewrite E. assert (HL : ln eps - ln (floored b) <= 0).
    { assert (ln eps <= ln (floored b)); [|lra]. destruct (Rle_lt_or_eq_dec eps (floored b) (Rmax_l eps b)) as [Hl|<-]; [left; apply ln_increasing; auto|lra]. }
    pose proof (ln_diff eps (floored b) He HB). nra.
Qed.
Lemma kld_gibbs n r a b : 0 <= r -> (forall i, (i < n)%nat -> 0 <= a i) -> r * (rsum n a - rsum n (fun i => floored (b i))) <= kld n r a b.
Proof.
  intros Hr Ha. unfold kld. apply Rmult_le_compat_l; [exact Hr|]. assert (E : rsum n a - rsum n (fun i => floored (b i)) = rsum n (fun i => a i - floored (b i))).
  { clear. induction n as [|n IH]; cbn [rsum]; [lra|]. rewrite <- IH. ring. }
  rewrite E. apply rsum_le. intros i Hi. apply kld_term. apply Ha. exact Hi.
Qed.
