(** A digest that keeps everything; examples for C111 - C113. *)
From Coq Require Import QArith String List Arith ZArith Bool Sorted Permutation Lia Reals Lra.
From Verif Require Import Num NumProofs Py NdArray NumpyLib ScipyWrap Spec Values SortProofs EvalProofs InterpProofs MixmodTheorems KindInputs NdProofs
  HistProofs QuantPdf FitProofs PointMetrics PointProofs PointTheorems Digest DigestTheorems.
Import ListNotations.
Local Open Scope list_scope.
Local Open Scope R_scope.

(** digests are the lists of values *)
Definition exact_view (l : list R) : digest R :=
  mkdigest (INR (length l)) (fun x => INR (count (at_most x) l) / INR (length l)) (fun p => match np_quantile l p with Ok v => v | Err _ => 0 end) (map (fun x => (x, 1)) l).
Lemma exact_summary a l : summarises 0 (exact_view a) l <-> Permutation a l.
Proof.
  split.
  - intros (_ & Hp & _). cbn [exact_view d_centroids] in Hp. apply (Permutation_map fst) in Hp. rewrite !map_map in Hp. cbn [fst] in Hp. rewrite !map_id in Hp. exact Hp.
  - intros H. split; [cbn; rewrite (Permutation_length H); reflexivity|]. split; [apply Permutation_map; exact H|]. intros Hl p v Hp Hv. cbn [exact_view d_inv]. rewrite (quantile_perm a l p H). destruct (quantile_some l p Hl Hp) as (v' & E). rewrite E.
    rewrite (lin_quantile_unique l p v v' Hv (quantile_lin l p v' Hl Hp E)). replace (v' - v') with 0 by lra. rewrite Rabs_R0. lra.
Qed.
Lemma exact_laws : digest_laws (fun l => l) (fun d => d) (fun c => c) (@app R) (fun d l => summarises 0 (exact_view d) l).
Proof. split; [|split]; intros; rewrite ?exact_summary in *; [apply Permutation_refl|assumption|apply Permutation_app; assumption]. Qed.
Lemma stable_sorts : sorts stable_argsort.
Proof.
  intros l. unfold stable_argsort. set (le := fun a b : R * nat => nleb (fst a) (fst b)). set (c := combine l (seq 0 (length l))).
  assert (Hp : Permutation c (sort_by le c)) by apply sort_by_perm. assert (Ec : map snd c = seq 0 (length l)) by (unfold c; apply map_snd_combine; rewrite seq_length; reflexivity).
  assert (Hle : forall a b, le a b = true <-> fst a <= fst b) by (intros a b; unfold le; destruct (nleb_reflect (fst a) (fst b)) as [A|A]; revert A; numR; intros; split; intros; try reflexivity; try discriminate; lra).
  split; [rewrite <- Ec; symmetry; apply Permutation_map; exact Hp|]. rewrite map_map.
  assert (Hn : forall x, In x (sort_by le c) -> nth (snd x) l 0 = fst x).
  { intros x Hx. apply (Permutation_in _ (Permutation_sym Hp)) in Hx. unfold c in Hx. destruct (In_nth _ _ (0, 0%nat) Hx) as (i & Hi & <-). rewrite combine_length, seq_length, Nat.min_id in Hi.
    rewrite combine_nth by (rewrite seq_length; reflexivity). cbn [fst snd]. rewrite seq_nth by exact Hi. reflexivity. }
  rewrite (map_ext_in _ fst _ Hn).
  assert (Hs : StronglySorted (fun a b => le a b = true) (sort_by le c)).
  { apply sort_by_sorted; intros; rewrite !Hle in *; lra. }
  clear - Hs Hle. induction Hs as [|x q _ IH Hf]; cbn [map]; constructor; [exact IH|]. rewrite List.Forall_forall in *. intros y Hy. apply in_map_iff in Hy. destruct Hy as (z & <- & Hz). apply Hle, Hf, Hz.
Qed.
(** two chunks with residuals 1, 1, 1/2, 5 *)
Lemma c111_example : digest_laws (fun l => l) (fun d => d) (fun c => c) (@app R) (fun d l => summarises 0 (exact_view d) l) /\
  all_usable [([1; 3], [0; 1]); ([2; 5], [1; 0])] /\ all_residuals [([1; 3], [0; 1]); ([2; 5], [1; 0])] = [1; 1; 1/2; 5].
Proof.
  split; [apply exact_laws|]. split; [repeat constructor; cbn; try reflexivity; intros r Hr; repeat destruct Hr as [<-|Hr]; try lra; destruct Hr|].
  unfold all_residuals, residuals, residual. cbn [map concat combine app fst snd]. repeat f_equal; lra.
Qed.
(** the uniform distribution on [0, 4] *)
Definition uniform4 : digest R := mkdigest 100 (fun x => clamp 0 4 x / 4) (fun p => 4 * p) [].
Lemma c112_example : sorts stable_argsort /\ monotone (d_cdf uniform4) /\ d_inv uniform4 0 <= d_inv uniform4 (1 / 2) <= d_inv uniform4 1 /\
  1 / 2 <= d_cdf uniform4 (d_inv uniform4 1) - d_cdf uniform4 (d_inv uniform4 0) /\
  mad_digest stable_argsort 9 (mkdigest 100 (fun x => x / (4 # 1)) (fun p => (4 # 1) * p) [])%Q = Ok (22239 # 20000)%Q.
Proof.
  split; [apply stable_sorts|]. cbn [uniform4 d_inv d_cdf]. split.
  - intros x y H. unfold clamp, Rmax, Rmin. repeat destruct (Rle_dec _ _); lra.
  - split; [lra|]. split; [unfold clamp, Rmax, Rmin; repeat destruct (Rle_dec _ _); lra|]. vm_compute. reflexivity.
Qed.
Lemma count_mono l x y : x <= y -> (count (at_most x) l <= count (at_most y) l)%nat.
Proof. intros H. unfold count, at_most. induction l as [|a l IH]; [cbn; lia|]. cbn [filter]. destruct (Rle_dec a x), (Rle_dec a y); cbn [length]; try lia. exfalso. lra. Qed.
(** perfect estimates *)
Lemma c112_perfect : forall est num_bins, est <> [] -> (forall r, In r est -> r <> -1) ->
  sigma_mad est est = Ok (Fin 0) /\
  (let* cs := mapM (fun c => accumulate (fun l => l) (fun d => d) (fst c) (snd c)) [(est, est)] in
   let* r := finalize_digests (fun c => c) (@app R) (fun d => mad_digest stable_argsort num_bins (exact_view d)) cs in r) = Err IndexError.
Proof.
  intros est n Hne Hr. assert (Hu : usable est est) by (split; [reflexivity|exact Hr]).
  assert (E0 : residuals est est = repeat 0 (length est)). { unfold residuals. clear Hne Hr Hu. induction est as [|a est IH]; [reflexivity|]. cbn [combine map length repeat]. rewrite IH. f_equal. unfold residual. cbn [fst snd]. unfold Rdiv. replace (a - a) with 0 by lra. ring. }
  assert (Hq : forall q v, 0 <= q <= 1 -> np_quantile (repeat 0 (length est)) q = Ok v -> v = 0).
  { intros q v Hq E. assert (Hn : repeat 0 (length est) <> []) by (destruct est; [congruence|discriminate]). destruct (quantile_lin _ _ _ Hn Hq E) as (s & i & t & Hp & _ & _ & _ & _ & ->).
    assert (Z : forall k, nth k s 0 = 0). { intros k. destruct (Nat.lt_ge_cases k (length s)) as [H|H]; [|apply nth_overflow; lia]. apply (repeat_spec (length est)). apply (Permutation_in _ (Permutation_sym Hp)). apply nth_In. exact H. }
    rewrite !Z. lra. }
  split.
  - destruct (c45_mad est est Hu Hne) as (s & E & (m & d & H1 & H2 & ->) & _). rewrite E. do 2 f_equal.
    rewrite E0 in H1, H2. assert (Hn : repeat 0 (length est) <> []) by (destruct est; [congruence|discriminate]).
    destruct (quantile_some _ (1 / 2) Hn ltac:(lra)) as (m' & Em). rewrite (lin_quantile_unique _ _ _ _ H1 (quantile_lin _ (1 / 2) _ Hn ltac:(lra) Em)) in H2. rewrite (Hq (1 / 2) _ ltac:(lra) Em) in H2.
    replace (map (fun x => Rabs (x - 0)) (repeat 0 (length est))) with (repeat 0 (length est)) in H2. 2:{ rewrite map_repeat. f_equal. rewrite Rminus_0_r, Rabs_R0. reflexivity. }
    rewrite (lin_quantile_unique _ _ _ _ H2 (quantile_lin _ (1 / 2) _ Hn ltac:(lra) Em)), (Hq (1 / 2) _ ltac:(lra) Em). lra.
  - cbn [mapM fst snd]. unfold accumulate. rewrite (ez_residuals est est Hu). cbn [bind finalize_digests map fold_left]. rewrite E0. apply c112_constant; [apply stable_sorts| |].
    + intros x y H. cbn [exact_view d_cdf]. rewrite repeat_length. apply Rmult_le_compat_r; [left; apply Rinv_0_lt_compat, lt_0_INR; destruct est; [congruence|cbn; lia]|]. apply le_INR, count_mono, H.
    + assert (Hn : repeat 0 (length est) <> []) by (destruct est; [congruence|discriminate]). cbn [exact_view d_inv]. destruct (quantile_some _ 0 Hn ltac:(lra)) as (a & Ea), (quantile_some _ 1 Hn ltac:(lra)) as (b & Eb). rewrite Ea, Eb, (Hq 0 _ ltac:(lra) Ea), (Hq 1 _ ltac:(lra) Eb). reflexivity.
Qed.
