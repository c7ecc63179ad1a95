(** The two-sample Anderson-Darling statistic: proofs. *)
From Coq Require Import String List Arith ZArith Bool Sorted Permutation Lia Reals Lra.
From Verif Require Import Num NumProofs Py NumpyLib Spec SortProofs HistProofs InterpProofs InterpPdfProofs MixmodTheorems MetricsProofs Fit FitProofs PointProofs Pit PitVariance PitMeta.
Import ListNotations.
Local Open Scope R_scope.

(** How many values of [l] are less than [z] *)
Definition less (z : R) (l : list R) : nat := length (filter (fun y => if Rlt_dec y z then true else false) l).
(** How many values of [l] are [z] *)
Notation occ l z := (count_occ Req_EM_T l z).
(** How many are less than [z], ties counted half *)
Definition mid (z : R) (l : list R) : R := INR (less z l) + INR (occ l z) / 2.

(** ** Counting *)
Lemma less_cons z y l : less z (y :: l) = ((if Rlt_dec y z then 1 else 0) + less z l)%nat.
Proof. unfold less. cbn. destruct (Rlt_dec y z); reflexivity. Qed.
Lemma occ_cons z y l : occ (y :: l) z = ((if Req_EM_T y z then 1 else 0) + occ l z)%nat.
Proof. cbn. destruct (Req_EM_T y z); reflexivity. Qed.
Lemma less_app z p q : less z (p ++ q) = (less z p + less z q)%nat.
Proof. unfold less. rewrite filter_app, app_length. reflexivity. Qed.
Lemma mid_app z p q : mid z (p ++ q) = mid z p + mid z q.
Proof. unfold mid. rewrite less_app, count_occ_app, !plus_INR. lra. Qed.
Lemma less_perm z p q : Permutation p q -> less z p = less z q.
Proof. induction 1; rewrite ?less_cons in *; try lia. Qed.
Lemma occ_perm z p q : Permutation p q -> occ p z = occ q z.
Proof. intros H. apply (Permutation_count_occ Req_EM_T). exact H. Qed.
Lemma mid_perm z p q : Permutation p q -> mid z p = mid z q.
Proof. intros H. unfold mid. rewrite (less_perm z p q H), (occ_perm z p q H). reflexivity. Qed.
Lemma less_none z l : (forall y, In y l -> z <= y) -> less z l = 0%nat.
Proof. induction l as [|y l IH]; intros H; [reflexivity|]. rewrite less_cons, IH by (intros; apply H; right; auto). destruct (Rlt_dec y z); [|reflexivity]. specialize (H y (or_introl eq_refl)). lra. Qed.
Lemma occ_none z l : (forall y, In y l -> z < y) -> occ l z = 0%nat.
Proof. intros H. apply count_occ_not_In. intros I. specialize (H z I). lra. Qed.
Lemma less_occ_le z l : (less z l + occ l z <= length l)%nat.
Proof. induction l as [|y l IH]; [reflexivity|]. rewrite less_cons, occ_cons. cbn [length]. destruct (Rlt_dec y z), (Req_EM_T y z); try lra; lia. Qed.

Lemma search_left l z : StronglySorted Rle l -> searchsorted_left l z = less z l.
Proof.
  induction 1 as [|y l Hs IH Hf]; [reflexivity|]. rewrite less_cons. cbn [searchsorted_left]. rewrite List.Forall_forall in Hf.
  destruct (nltb_reflect y z) as [L|L]; destruct (Rlt_dec y z); try lra; [rewrite IH; reflexivity|].
  rewrite less_none; [reflexivity|]. intros x Hx. specialize (Hf x Hx). lra.
Qed.
Lemma search_right l z : StronglySorted Rle l -> searchsorted_right l z = (less z l + occ l z)%nat.
Proof.
  induction 1 as [|y l Hs IH Hf]; [reflexivity|]. rewrite less_cons, occ_cons. cbn [searchsorted_right]. rewrite List.Forall_forall in Hf.
  destruct (nleb_reflect y z) as [L|L].
  - rewrite IH. destruct (Rlt_dec y z), (Req_EM_T y z); try lra; lia.
  - rewrite less_none, occ_none; [destruct (Rlt_dec y z), (Req_EM_T y z); try lra; reflexivity| |]; intros x Hx; specialize (Hf x Hx); lra.
Qed.

(** ** One summand *)
(** the summand of one value in the sum of one sample *)
Definition ad_term (s P : list R) (z : R) : R :=
  INR (occ P z) / INR (length P) * ((INR (length P) * mid z s - mid z P * INR (length s)) * (INR (length P) * mid z s - mid z P * INR (length s))) /
  (mid z P * (INR (length P) - mid z P) - INR (length P) * INR (occ P z) / 4).

Lemma unique_of_sorted (P : list R) : np_unique (np_sort P) = np_unique P.
Proof. apply np_unique_ext. intros x. split; apply Permutation_in; [apply Permutation_sym|]; apply np_sort_perm. Qed.
Lemma lj_occ P z : In z P -> ksamp_lj (np_sort P) (np_unique P) z = INR (occ P z).
Proof.
  intros Hz. unfold ksamp_lj. rewrite np_sort_length. destruct (Nat.eqb_spec (length P) (length (np_unique P))) as [E|E].
  - symmetry in E. apply np_unique_length_nodup in E. rewrite (proj1 (NoDup_count_occ' Req_EM_T P) E z Hz). reflexivity.
  - rewrite of_nat_INR, search_left, search_right by apply np_sort_sorted. rewrite !(less_perm z (np_sort P) P), (occ_perm z (np_sort P) P) by (apply Permutation_sym, np_sort_perm).
    f_equal. lia.
Qed.
Lemma inner_term s P z : In z P -> ksamp_inner (np_sort P) (np_unique P) (np_sort s) z = ad_term s P z.
Proof.
  intros Hz. unfold ksamp_inner. cbv zeta. rewrite lj_occ by exact Hz. rewrite !of_nat_INR, !np_sort_length.
  rewrite !search_left, !search_right by apply np_sort_sorted.
  rewrite !(less_perm z (np_sort P) P), !(less_perm z (np_sort s) s), !(occ_perm z (np_sort s) s) by (apply Permutation_sym, np_sort_perm).
  replace (less z s + occ s z - less z s)%nat with (occ s z) by lia. rewrite plus_INR. numR. unfold ad_term.
  replace (INR (less z P) + INR (occ P z) / INR 2) with (mid z P) by (unfold mid; simpl; lra).
  replace (INR (less z s) + INR (occ s z) - INR (occ s z) / INR 2) with (mid z s) by (unfold mid; simpl; lra).
  replace (INR 4) with 4 by (simpl; lra). reflexivity.
Qed.

(** ** The sum *)
(** The two-sample statistic with mid-ranks (Scholz and Stephens 1987, equation 7): the sum over the distinct values [zs] of both samples *)
Definition is_ad2 (p q : list R) (A : R) : Prop :=
  let P := p ++ q in let N := INR (length P) in
  exists zs, NoDup zs /\ (forall z, In z zs <-> In z P) /\
    A = (N - 1) / (N * N) * rsum (length zs) (fun j => let z := nth j zs 0 in
          INR (occ P z) / (mid z P * (N - mid z P) - N * INR (occ P z) / 4) *
          ((N * mid z p - INR (length p) * mid z P) ^ 2 / INR (length p) + (N * mid z q - INR (length q) * mid z P) ^ 2 / INR (length q))).

Lemma nsum_map_nth (f : R -> R) l : nsum (map f l) = rsum (length l) (fun j => f (nth j l 0)).
Proof.
  rewrite nsum_rsum, map_length. apply rsum_ext. intros j Hj. unfold nth0. numR. rewrite (nth_indep (map f l) 0 (f 0)) by (rewrite map_length; exact Hj).
  apply map_nth.
Qed.
Lemma midrank_value (p q : list R) : (0 < length p)%nat -> (0 < length q)%nat -> is_ad2 p q (ksamp_midrank [p; q] (np_sort (p ++ q)) (np_unique (np_sort (p ++ q)))).
Proof.
  intros Hp Hq. unfold is_ad2. cbv zeta. exists (np_unique (p ++ q)). split; [apply np_unique_nodup|]. split; [intros; apply np_unique_in|].
  set (P := p ++ q). rewrite unique_of_sorted. unfold ksamp_midrank. cbv zeta. cbn [fold_left]. rewrite !of_nat_INR, np_sort_length. numR.
  assert (HN : 0 < INR (length P)) by (unfold P; rewrite app_length; apply lt_0_INR; lia).
  assert (Hp' : 0 < INR (length p)) by (apply lt_0_INR; lia). assert (Hq' : 0 < INR (length q)) by (apply lt_0_INR; lia).
  assert (E : forall s, map (ksamp_inner (np_sort P) (np_unique P) (np_sort s)) (np_unique P) = map (ad_term s P) (np_unique P)).
  { intros s. apply map_ext_in. intros z Hz. apply inner_term. apply np_unique_in. exact Hz. }
  rewrite !E, !nsum_map_nth. set (n := length (np_unique P)).
  transitivity ((INR (length P) - 1) / INR (length P) * (/ INR (length p) * rsum n (fun j => ad_term p P (nth j (np_unique P) 0)) + / INR (length q) * rsum n (fun j => ad_term q P (nth j (np_unique P) 0)))).
  { field. repeat split; lra. }
  rewrite <- rsum_comb. transitivity ((INR (length P) - 1) / INR (length P) * (/ INR (length P) * rsum n (fun j => let z := nth j (np_unique P) 0 in
          INR (occ P z) / (mid z P * (INR (length P) - mid z P) - INR (length P) * INR (occ P z) / 4) *
          ((INR (length P) * mid z p - INR (length p) * mid z P) ^ 2 / INR (length p) + (INR (length P) * mid z q - INR (length q) * mid z P) ^ 2 / INR (length q))))).
  2:{ cbv zeta. field. lra. }
  f_equal. rewrite (Rmult_comm (/ INR (length P))), <- rsum_scale. apply rsum_ext. intros j Hj. cbv zeta. set (z := nth j (np_unique P) 0). unfold ad_term.
  unfold Rdiv. set (D := / (mid z P * (INR (length P) - mid z P) - INR (length P) * INR (occ P z) * / 4)). ring.
Qed.

(** ** The smallest value *)
Lemma spread_pos P z : In z P -> (exists y, In y P /\ y <> z) -> 0 < mid z P * (INR (length P) - mid z P) - INR (length P) * INR (occ P z) / 4.
Proof.
  intros Hz (y & Hy & Hyz). pose proof (less_occ_le z P) as HL. apply (count_occ_In Req_EM_T) in Hz. set (L := less z P) in *. set (o := occ P z) in *.
  assert (Ho : (o < length P)%nat).
  { apply Nat.lt_le_trans with (occ P z + occ P y)%nat; [apply (count_occ_In Req_EM_T) in Hy; unfold o; lia|]. clear -Hyz.
    induction P as [|x P IH]; [reflexivity|]. rewrite !occ_cons. cbn [length]. destruct (Req_EM_T x z), (Req_EM_T x y); try lia. congruence. }
  unfold mid. fold L o. apply le_INR in HL. rewrite plus_INR in HL. apply lt_INR in Hz, Ho. simpl (INR 0) in Hz.
  assert (H0 : 0 <= INR L) by apply pos_INR. set (l := INR L) in *. set (w := INR o) in *. set (N := INR (length P)) in *.
  replace ((l + w / 2) * (N - (l + w / 2)) - N * w / 4) with (l * (N - (l + w)) + w * (N - w) / 4) by field.
  assert (0 <= l * (N - (l + w))) by (apply Rmult_le_pos; lra). assert (0 < w * (N - w)) by (apply Rmult_lt_0_compat; lra). lra.
Qed.
Lemma less_lt y z P : y < z -> In y P -> (less y P < less z P)%nat.
Proof.
  intros Hyz. assert (M : forall l, (less y l <= less z l)%nat).
  { induction l as [|x l IH]; [reflexivity|]. rewrite !less_cons. destruct (Rlt_dec x y), (Rlt_dec x z); try lra; lia. }
  induction P as [|x P IH]; [intros []|]. rewrite !less_cons. intros [->|H].
  - destruct (Rlt_dec y y), (Rlt_dec y z); try lra. specialize (M P). lia.
  - specialize (IH H). destruct (Rlt_dec x y), (Rlt_dec x z); try lra; lia.
Qed.
Lemma less_same z p q : (forall y, y < z -> occ p y = occ q y) -> less z p = less z q.
Proof.
  intros H. unfold less. apply Permutation_length. apply (Permutation_count_occ Req_EM_T). intros y.
  assert (F : forall l, occ (filter (fun y => if Rlt_dec y z then true else false) l) y = if Rlt_dec y z then occ l y else 0%nat).
  { induction l as [|x l IH]; [destruct (Rlt_dec y z); reflexivity|]. cbn [filter]. destruct (Rlt_dec x z) as [L|L].
    - rewrite !occ_cons, IH. destruct (Rlt_dec y z), (Req_EM_T x y); try lia; subst; lra.
    - rewrite IH, occ_cons. destruct (Rlt_dec y z), (Req_EM_T x y); try lia; subst; lra. }
  rewrite !F. destruct (Rlt_dec y z); [apply H; assumption|reflexivity].
Qed.
Lemma mids_same p q : (forall z, In z (p ++ q) -> mid z p = mid z q) -> Permutation p q.
Proof.
  intros H. apply (Permutation_count_occ Req_EM_T).
  assert (I : forall k z, (less z (p ++ q) < k)%nat -> occ p z = occ q z).
  { induction k as [|k IH]; [lia|]. intros z Hk. destruct (in_dec Req_EM_T z (p ++ q)) as [Hz|Hz].
    - pose proof (H z Hz) as E. unfold mid in E. rewrite (less_same z p q) in E.
      + apply INR_eq. lra.
      + intros y Hy. destruct (in_dec Req_EM_T y (p ++ q)) as [Iy|Iy].
        * apply IH. pose proof (less_lt y z (p ++ q) Hy Iy). lia.
        * rewrite in_app_iff in Iy. rewrite !(proj1 (count_occ_not_In Req_EM_T _ _)) by tauto. reflexivity.
    - rewrite in_app_iff in Hz. rewrite !(proj1 (count_occ_not_In Req_EM_T _ _)) by tauto. reflexivity. }
  intros z. apply (I (S (less z (p ++ q)))). lia.
Qed.
Lemma rsum_zero_terms n f : (forall i, (i < n)%nat -> 0 <= f i) -> rsum n f = 0 -> forall i, (i < n)%nat -> f i = 0.
Proof.
  induction n as [|n IH]; intros H E i Hi; [lia|]. cbn in E.
  assert (0 <= rsum n f) by (apply rsum_nonneg; intros; apply H; lia). pose proof (H n ltac:(lia)).
  destruct (Nat.eq_dec i n) as [->|]; [lra|]. apply IH; [intros; apply H; lia|lra|lia].
Qed.

Lemma ad2_smallest p q A : length p = length q -> (exists y z, In y (p ++ q) /\ In z (p ++ q) /\ y <> z) -> is_ad2 p q A ->
  0 <= A /\ (A = 0 <-> Permutation p q).
Proof.
  intros Hl (y & y' & Hy & Hy' & Hne) (zs & Hnd & Hin & E). set (P := p ++ q) in *. set (N := INR (length P)) in *.
  assert (Hdist : forall z, exists x, In x P /\ x <> z).
  { intros z. destruct (Req_EM_T y z); [exists y'; split; [assumption|congruence]|exists y; tauto]. }
  assert (Hn : (0 < length p)%nat). { destruct p; [|cbn; lia]. destruct q; [|discriminate Hl]. destruct Hy. }
  assert (EN : N = 2 * INR (length p)) by (unfold N, P; rewrite app_length, <- Hl, plus_INR; lra).
  assert (Hn' : 1 <= INR (length p)) by (apply (le_INR 1); lia).
  set (f := fun j => let z := nth j zs 0 in INR (occ P z) / (mid z P * (N - mid z P) - N * INR (occ P z) / 4) *
          ((N * mid z p - INR (length p) * mid z P) ^ 2 / INR (length p) + (N * mid z q - INR (length q) * mid z P) ^ 2 / INR (length q))) in E.
  change (A = (N - 1) / (N * N) * rsum (length zs) f) in E.
  assert (Hc : 0 < (N - 1) / (N * N)) by (apply Rdiv_lt_0_compat; [lra|apply Rmult_lt_0_compat; lra]).
  assert (Hw : forall z, In z P -> 0 < INR (occ P z) / (mid z P * (N - mid z P) - N * INR (occ P z) / 4)).
  { intros z Hz. apply Rdiv_lt_0_compat; [apply (lt_INR 0); apply count_occ_In; exact Hz|apply spread_pos; auto]. }
  assert (Hsq : forall z, N * mid z p - INR (length p) * mid z P = INR (length p) * (mid z p - mid z q) /\ N * mid z q - INR (length q) * mid z P = - (INR (length p) * (mid z p - mid z q))).
  { intros z. unfold P. rewrite mid_app, EN, <- Hl. split; ring. }
  assert (Ef : forall j, (j < length zs)%nat -> f j = INR (occ P (nth j zs 0)) / (mid (nth j zs 0) P * (N - mid (nth j zs 0) P) - N * INR (occ P (nth j zs 0)) / 4) * (2 * INR (length p) * (mid (nth j zs 0) p - mid (nth j zs 0) q) ^ 2)).
  { intros j Hj. unfold f. cbv zeta. destruct (Hsq (nth j zs 0)) as [-> ->]. rewrite <- Hl. f_equal. field. lra. }
  assert (Hz : forall j, (j < length zs)%nat -> In (nth j zs 0) P) by (intros j Hj; apply Hin, nth_In, Hj).
  assert (Hf : forall j, (j < length zs)%nat -> 0 <= f j).
  { intros j Hj. rewrite Ef by exact Hj. apply Rmult_le_pos; [left; apply Hw, Hz, Hj|]. apply Rmult_le_pos; [lra|apply pow2_ge_0]. }
  assert (Hs : 0 <= rsum (length zs) f) by (apply rsum_nonneg, Hf).
  split; [rewrite E; apply Rmult_le_pos; lra|]. split.
  - intros EA. rewrite EA in E. assert (Er : rsum (length zs) f = 0) by (destruct (Rmult_integral _ _ (eq_sym E)); lra).
    apply mids_same. fold P. intros z Iz. apply Hin in Iz. destruct (In_nth zs z 0 Iz) as (j & Hj & <-).
    pose proof (rsum_zero_terms _ _ Hf Er j Hj) as Ej. rewrite Ef in Ej by exact Hj. apply Rmult_integral in Ej. destruct Ej as [Ej|Ej]; [pose proof (Hw _ (Hz j Hj)); lra|].
    apply Rmult_integral in Ej. destruct Ej as [Ej|Ej]; [lra|]. replace ((mid (nth j zs 0) p - mid (nth j zs 0) q) ^ 2) with ((mid (nth j zs 0) p - mid (nth j zs 0) q) * (mid (nth j zs 0) p - mid (nth j zs 0) q)) in Ej by ring.
    apply Rmult_integral in Ej. lra.
  - intros Hp. rewrite E. rewrite (rsum_ext _ f (fun _ => 0 * 0)).
    + rewrite rsum_scale. ring.
    + intros j Hj. rewrite Ef by exact Hj. rewrite (mid_perm _ p q Hp). ring.
Qed.

(** ** The variance *)
Lemma cumsum_nth (l : list R) : forall acc i, (i < length l)%nat -> nth i (ncumsum_from acc l) 0 = acc + rsum (S i) (fun t => nth t l 0).
Proof.
  induction l as [|x l IH]; intros acc i Hi; [cbn in Hi; lia|]. cbn [ncumsum_from]. destruct i as [|i].
  - cbn. lra.
  - cbn [nth]. rewrite IH by (cbn in Hi; lia). rewrite (rsum_S_l (S i)). cbn [nth]. numR. lra.
Qed.
Lemma inverses_length N : length (ksamp_inverses (T := R) N) = (N - 2)%nat.
Proof. unfold ksamp_inverses. rewrite map_length, seq_length. reflexivity. Qed.
Lemma inverses_nth N t : (t < N - 2)%nat -> nth t (ksamp_inverses N) 0 = / INR (N - 1 - t).
Proof.
  intros H. unfold ksamp_inverses. rewrite (nth_indep _ 0 ((fun i => n1 / of_nat (N - 1 - i))%num 0%nat)) by (rewrite map_length, seq_length; exact H).
  rewrite (map_nth (fun i => n1 / of_nat (N - 1 - i))%num), seq_nth by exact H. rewrite of_nat_INR. numR. unfold Rdiv. rewrite Rmult_1_l. reflexivity.
Qed.
Lemma hs_nth N i : (i < N - 2)%nat -> nth i (ncumsum (ksamp_inverses N)) 0 = rsum (S i) (fun t => / INR (N - 1 - t)).
Proof.
  intros H. unfold ncumsum. rewrite cumsum_nth by (rewrite inverses_length; exact H). numR. rewrite Rplus_0_l. apply rsum_ext. intros t Ht. apply inverses_nth. lia.
Qed.
Lemma hs_length N : length (ncumsum (ksamp_inverses (T := R) N)) = (N - 2)%nat.
Proof. unfold ncumsum. rewrite IntegralProofs.cumsum_length, inverses_length. reflexivity. Qed.
Lemma harmonic_last N : (3 <= N)%nat -> nth (N - 3) (ncumsum (ksamp_inverses N)) 0 + 1 = harmonic (N - 1).
Proof.
  intros H. rewrite hs_nth by lia. rewrite inner_harmonic by lia. replace (N - 1 - S (N - 3))%nat with 1%nat by lia. unfold harmonic at 2. simpl. lra.
Qed.
Lemma sigma_value n : (2 <= n)%nat -> ksamp_sigmasq [n; n] (2 * n) = Ok (ad_variance n).
Proof.
  intros Hn. unfold ksamp_sigmasq. cbv zeta. set (hs := ncumsum (ksamp_inverses (T := R) (2 * n))).
  assert (Hlen : length hs = (2 * n - 2)%nat) by apply hs_length.
  assert (Hr : exists r, rev hs = nth (2 * n - 3) hs 0 :: r).
  { destruct (rev hs) as [|x r] eqn:E; [apply (f_equal (@length R)) in E; rewrite rev_length in E; cbn [length] in E; lia|]. exists r. f_equal.
    assert (Eh : hs = rev r ++ [x]) by (rewrite <- (rev_involutive hs), E; reflexivity). rewrite Eh, app_nth2; rewrite rev_length.
    - assert (L : length hs = S (length r)) by (rewrite Eh, app_length, rev_length; cbn; lia). replace (2 * n - 3 - length r)%nat with 0%nat by lia. reflexivity.
    - assert (L : length hs = S (length r)) by (rewrite Eh, app_length, rev_length; cbn; lia). lia. }
  destruct Hr as (r & ->). destruct (Nat.eqb_spec (2 * n) 3) as [|_]; [lia|]. f_equal.
  assert (Eg : nsum (map2 (fun i x => x / of_nat (i + 2))%num (seq 0 (length hs)) hs) = double_harmonic (2 * n)).
  { rewrite map2_seq_map. rewrite nsum_seq, Hlen. unfold double_harmonic. apply rsum_ext. intros i Hi. rewrite of_nat_INR. numR. f_equal. apply hs_nth. exact Hi. }
  rewrite Eg. unfold hs. pose proof (harmonic_last (2 * n) ltac:(lia)) as Eh. numR. rewrite Eh. rewrite !of_nat_INR. unfold ad_variance. cbv zeta.
  set (h := harmonic (2 * n - 1)). set (g := double_harmonic (2 * n)). cbn [map length]. rewrite ?nsum_cons, ?nsum_nil, ?of_nat_INR. numR.
  assert (EN : INR (2 * n) = 2 * INR n) by (rewrite mult_INR; simpl; lra). rewrite EN.
  assert (Hx : 2 <= INR n) by (replace 2 with (INR 2) by (simpl; lra); apply le_INR; lia). set (x := INR n) in *.
  replace (INR 2) with 2 by (simpl; lra). field. lra.
Qed.
