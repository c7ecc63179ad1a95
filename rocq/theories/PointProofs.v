(** Lemmas on quantiles, medians and the point-estimate metrics. *)
From Coq Require Import String List Arith ZArith Bool Lia Reals Lra Sorted Permutation.
From Verif Require Import Num NumProofs Py NdArray NumpyLib ScipyWrap Spec Values SortProofs EvalProofs QuantPdf FitProofs PointMetrics.
Import ListNotations.
Local Open Scope list_scope.
Local Open Scope R_scope.

(** How many entries satisfy a test *)
Definition count (p : R -> bool) (l : list R) : nat := length (filter p l).
Definition at_most (v x : R) : bool := if Rle_dec x v then true else false.
Definition at_least (v x : R) : bool := if Rle_dec v x then true else false.
(** [v] splits the list [l] at the fraction [q]. *)
Definition splits (l : list R) (q v : R) : Prop :=
  q * (INR (length l) - 1) < INR (count (at_most v) l) /\ (1 - q) * (INR (length l) - 1) < INR (count (at_least v) l).

Lemma np_sort_length (l : list R) : length (np_sort l) = length l.
Proof. symmetry. apply Permutation_length, np_sort_perm. Qed.
Lemma IZR_len n : IZR (Z.of_nat n - 1) = INR n - 1.
Proof. rewrite minus_IZR, <- INR_IZR_INZ. reflexivity. Qed.

Lemma count_at_most (l : list R) v : forall k, (k < length l)%nat -> nth k (np_sort l) 0 <= v -> (S k <= count (at_most v) l)%nat.
Proof.
  intros k Hk Hv. unfold count. rewrite (count_perm (at_most v) l (np_sort l) (np_sort_perm l)).
  apply (upto_sorted (np_sort l) v k); [apply np_sort_sorted|rewrite np_sort_length; exact Hk|exact Hv].
Qed.
Lemma count_split (l : list R) v : count (at_least v) l = (length l - length (filter (fun y => if Rlt_dec y v then true else false) l))%nat.
Proof.
  unfold count. induction l as [|a l' IH]; [reflexivity|]. cbn [filter]. unfold at_least at 1. destruct (Rle_dec v a), (Rlt_dec a v); try lra; cbn [length]; rewrite IH; [|lia].
  pose proof (filter_len (fun y => if Rlt_dec y v then true else false) l'). lia.
Qed.
Lemma count_at_least (l : list R) v : forall k, (k < length l)%nat -> v <= nth k (np_sort l) 0 -> (length l - k <= count (at_least v) l)%nat.
Proof.
  intros k Hk Hv. rewrite count_split, (count_perm _ l (np_sort l) (np_sort_perm l)).
  assert (~ (k < length (filter (fun y => if Rlt_dec y v then true else false) (np_sort l)))%nat); [|lia].
  rewrite <- (under_sorted (np_sort l) v k); [lra|apply np_sort_sorted|rewrite np_sort_length; exact Hk].
Qed.

Lemma ok_inj (a b : R) : Ok a = Ok b -> b = a.
Proof. congruence. Qed.

Section Index.
  Variables (l : list R) (q : R).
  Hypotheses (Hl : l <> []) (Hq : 0 <= q <= 1).
  Let s := np_sort l.
  Let n := length l.
  Let h := q * (INR n - 1).
  Let i := Z.to_nat (nfloor h).
  Let j := Nat.min (S i) (n - 1).
  Let t := h - INR i.
  Lemma len_pos : (0 < n)%nat.
  Proof using All. unfold n. destruct l; [congruence|cbn; lia]. Qed.
  Lemma h_range : 0 <= h <= INR n - 1.
  Proof using All. pose proof len_pos as H. apply (le_INR 1) in H. cbn in H. unfold h. split; [apply Rmult_le_pos; lra|]. assert (q * (INR n - 1) <= 1 * (INR n - 1)) by (apply Rmult_le_compat_r; lra). lra. Qed.
  Lemma floor_pos : (0 <= nfloor h)%Z.
  Proof using All. apply nfloor_ge. pose proof h_range. cbn. lra. Qed.
  Lemma floor_i : IZR (nfloor h) = INR i.
  Proof using All. unfold i. rewrite INR_IZR_INZ, Z2Nat.id by apply floor_pos. reflexivity. Qed.
  Lemma i_range : INR i <= h < INR i + 1 /\ (i < n)%nat.
  Proof using All.
    pose proof (nfloor_spec h) as H. rewrite floor_i in H. split; [exact H|]. pose proof h_range. apply INR_lt. lra.
  Qed.
  Lemma t_range : 0 <= t < 1.
  Proof using All. pose proof i_range. unfold t. lra. Qed.
  Lemma quantile_value : np_quantile l q = Ok (nth i s 0 + (nth j s 0 - nth i s 0) * t).
  Proof using All.
    unfold np_quantile. replace (nltb q n0 || nltb n1 q)%bool with false by (symmetry; apply unit_range; exact Hq).
    assert (G : forall x : res R, match l with [] => Err IndexError | _ => x end = x) by (clear - Hl; intros x; destruct l; congruence). rewrite G. cbv zeta.
    change (nofZ (Z.of_nat (length l) - 1)) with (IZR (Z.of_nat (length l) - 1)). rewrite IZR_len. change (nmul q (INR (length l) - 1)) with h.
    change (nofZ (nfloor h)) with (IZR (nfloor h)). rewrite floor_i. reflexivity.
  Qed.
  Lemma j_cases : (j = S i /\ (S i < n)%nat) \/ (j = i /\ t = 0 /\ S i = n).
  Proof using All.
    pose proof i_range as [Hh Hi]. pose proof h_range as Hr. unfold j. destruct (Nat.eq_dec (S i) n) as [E|E]; [right|left; lia]. split; [lia|]. split; [|exact E].
    unfold t. assert (INR n = INR i + 1) by (rewrite <- E, S_INR; reflexivity). lra.
  Qed.
  Lemma ij_le : nth i s 0 <= nth j s 0.
  Proof using All. pose proof (proj2 i_range) as Hi. pose proof j_cases as Hj. apply sorted_nth; [apply np_sort_sorted| |]; unfold s; rewrite ?np_sort_length; fold n; lia. Qed.
  Lemma quantile_between v : np_quantile l q = Ok v -> nth i s 0 <= v <= nth j s 0 /\ (t = 0 -> v = nth i s 0).
  Proof using All.
    rewrite quantile_value. intros E. injection E as <-. pose proof ij_le as H. pose proof t_range as Ht.
    assert (0 <= (nth j s 0 - nth i s 0) * t) by (apply Rmult_le_pos; lra).
    assert ((nth j s 0 - nth i s 0) * t <= (nth j s 0 - nth i s 0) * 1) by (apply Rmult_le_compat_l; lra).
    split; [lra|]. intros ->. lra.
  Qed.
  Lemma quantile_splits v : np_quantile l q = Ok v -> splits l q v.
  Proof using All.
    intros E. destruct (quantile_between v E) as [[H1 H2] H3]. destruct i_range as [Hh Hi]. split; fold n; fold h.
    - pose proof (count_at_most l v i Hi H1) as Hc. apply le_INR in Hc. rewrite S_INR in Hc. lra.
    - replace ((1 - q) * (INR n - 1)) with (INR n - 1 - h) by (unfold h; ring). destruct (Req_EM_T t 0) as [Et|Et].
      + pose proof (count_at_least l v i Hi) as Hc. rewrite (H3 Et) in *. specialize (Hc (Rle_refl _)). change (length l) with n in Hc. apply le_INR in Hc. rewrite minus_INR in Hc by lia. unfold t in Et. lra.
      + destruct j_cases as [[Ej Hj]|[_ [C _]]]; [|contradiction]. rewrite Ej in H2. pose proof (count_at_least l v (S i) Hj H2) as Hc. change (length l) with n in Hc. apply le_INR in Hc.
        rewrite minus_INR, S_INR in Hc by lia. pose proof t_range. unfold t in *. lra.
  Qed.
End Index.

Lemma quantile_some l q : l <> [] -> 0 <= q <= 1 -> exists v, np_quantile l q = Ok v.
Proof. intros Hl Hq. eexists. apply quantile_value; auto. Qed.
Lemma quantile_mono l q q' v v' : l <> [] -> 0 <= q -> q <= q' -> q' <= 1 -> np_quantile l q = Ok v -> np_quantile l q' = Ok v' -> v <= v'.
Proof.
  intros Hl H0 Hqq H1 E E'. assert (Hq : 0 <= q <= 1) by lra. assert (Hq' : 0 <= q' <= 1) by lra.
  destruct (quantile_between l q Hl Hq v E) as [[A1 A2] _]. destruct (quantile_between l q' Hl Hq' v' E') as [[B1 B2] _].
  destruct (i_range l q Hl Hq) as [I1 I2]. destruct (i_range l q' Hl Hq') as [J1 J2].
  pose proof (j_cases l q Hl Hq) as Cj.
  assert (Hh : q * (INR (length l) - 1) <= q' * (INR (length l) - 1)).
  { apply Rmult_le_compat_r; [|lra]. assert (1 <= length l)%nat by (destruct l; [congruence|cbn; lia]). apply le_INR in H. cbn in H. lra. }
  set (i := Z.to_nat (nfloor (q * (INR (length l) - 1)))) in *. set (i' := Z.to_nat (nfloor (q' * (INR (length l) - 1)))) in *.
  assert (Hii : (i <= i')%nat) by (apply Nat.nlt_ge; intros C; apply (le_INR (S _)) in C; rewrite S_INR in C; lra).
  destruct (Nat.eq_dec i i') as [Ei|Ei].
  - rewrite (quantile_value l q Hl Hq) in E. rewrite (quantile_value l q' Hl Hq') in E'. fold i in E. fold i' in E'. rewrite <- Ei in E'. apply ok_inj in E, E'. rewrite E, E'.
    pose proof (ij_le l q Hl Hq) as Hle. fold i in Hle. apply Rplus_le_compat_l, Rmult_le_compat_l; lra.
  - apply Rle_trans with (nth (Nat.min (S i) (length l - 1)) (np_sort l) 0); [lra|]. apply Rle_trans with (nth i' (np_sort l) 0); [|lra].
    apply sorted_nth; [apply np_sort_sorted|lia|rewrite np_sort_length; lia].
Qed.
Lemma quantile_perm (l l' : list R) q : Permutation l l' -> np_quantile l q = np_quantile l' q.
Proof.
  intros Hp. unfold np_quantile. rewrite (np_sort_perm_eq l l' Hp), (Permutation_length Hp).
  destruct (nltb q n0 || nltb n1 q)%bool; [reflexivity|]. destruct l, l'; try reflexivity; apply Permutation_length in Hp; discriminate.
Qed.
Lemma sort_map (f : R -> R) l : (forall x y, x <= y -> f x <= f y) -> np_sort (map f l) = map f (np_sort l).
Proof.
  intros Hf. transitivity (np_sort (map f (np_sort l))).
  - apply np_sort_perm_eq. apply Permutation_map, np_sort_perm.
  - apply np_sort_id. pose proof (np_sort_sorted l) as H. induction H as [|a s Hs IH Hall]; [constructor|]. cbn. constructor; [exact IH|].
    rewrite List.Forall_forall in *. intros y Hy. apply in_map_iff in Hy. destruct Hy as (x & <- & Hx). apply Hf. auto.
Qed.
Lemma quantile_affine l q v k c : l <> [] -> 0 <= q <= 1 -> 0 <= k -> np_quantile l q = Ok v -> np_quantile (map (fun x => k * x + c) l) q = Ok (k * v + c).
Proof.
  intros Hl Hq Hk E. assert (Hl' : map (fun x => k * x + c) l <> []) by (destruct l; [congruence|discriminate]).
  rewrite (quantile_value l q Hl Hq) in E. apply ok_inj in E. subst v. rewrite (quantile_value _ q Hl' Hq). rewrite map_length, sort_map.
  2:{ intros x y H. apply Rplus_le_compat_r, Rmult_le_compat_l; auto. }
  pose proof (i_range l q Hl Hq) as [_ Hi]. set (i := Z.to_nat (nfloor (q * (INR (length l) - 1)))) in *.
  assert (Hn : forall j, (j < length l)%nat -> nth j (map (fun x => k * x + c) (np_sort l)) 0 = k * nth j (np_sort l) 0 + c)
    by (intros j Hj; exact (nth_map_in (fun x => k * x + c) (np_sort l) j 0 0 ltac:(rewrite np_sort_length; exact Hj))).
  rewrite !Hn by lia. f_equal. ring.
Qed.
Lemma sort_opp (l : list R) : np_sort (map Ropp l) = rev (map Ropp (np_sort l)).
Proof.
  transitivity (np_sort (rev (map Ropp (np_sort l)))).
  - apply np_sort_perm_eq. eapply perm_trans; [apply Permutation_map, np_sort_perm|]. apply Permutation_rev.
  - apply np_sort_id. pose proof (np_sort_sorted l) as H. induction H as [|a s Hs IH Hall]; [constructor|]. cbn [map rev].
    assert (G : forall u b, StronglySorted Rle u -> List.Forall (fun x => x <= b) u -> StronglySorted Rle (u ++ [b])).
    { induction 1 as [|x u Hu IHu Hx]; intros Hb; [repeat constructor|]. inversion Hb; subst. cbn. constructor; [auto|]. apply Forall_app. split; [exact Hx|]. constructor; auto. }
    apply G; [exact IH|]. apply Forall_rev. rewrite List.Forall_forall in *. intros y Hy. apply in_map_iff in Hy. destruct Hy as (x & <- & Hx). specialize (Hall x Hx). lra.
Qed.
Lemma quantile_opp l q v : l <> [] -> 0 <= q <= 1 -> np_quantile l q = Ok v -> np_quantile (map Ropp l) (1 - q) = Ok (- v).
Proof.
  intros Hl Hq E. assert (Hl' : map Ropp l <> []) by (destruct l; [congruence|discriminate]). assert (Hq' : 0 <= 1 - q <= 1) by lra.
  rewrite (quantile_value l q Hl Hq) in E. apply ok_inj in E. subst v. rewrite (quantile_value _ (1 - q) Hl' Hq').
  pose proof (i_range l q Hl Hq) as [Ih Hi]. pose proof (j_cases l q Hl Hq) as Hj. pose proof (i_range (map Ropp l) (1 - q) Hl' Hq') as [Ih' Hi']. pose proof (j_cases (map Ropp l) (1 - q) Hl' Hq') as Hj'.
  rewrite !map_length in *. rewrite sort_opp. set (n := length l) in *.
  set (i := Z.to_nat (nfloor (q * (INR n - 1)))) in *. set (i' := Z.to_nat (nfloor ((1 - q) * (INR n - 1)))) in *.
  assert (Hn : forall j, (j < n)%nat -> nth j (rev (map Ropp (np_sort l))) 0 = - nth (n - 1 - j) (np_sort l) 0).
  { intros j Hjn. rewrite rev_nth by (rewrite map_length, np_sort_length; exact Hjn). rewrite map_length, np_sort_length. fold n.
    rewrite (nth_map_in Ropp (np_sort l) (n - S j) 0 0) by (rewrite np_sort_length; fold n; lia). do 2 f_equal. lia. }
  rewrite !Hn by lia. set (s := np_sort l).
  assert (Hsum : (1 - q) * (INR n - 1) = INR n - 1 - q * (INR n - 1)) by ring. rewrite Hsum in *. set (h := q * (INR n - 1)) in *.
  destruct (Req_EM_T (h - INR i) 0) as [Et|Et].
  - assert (Ei : i' = (n - 1 - i)%nat).
    { assert (INR i' = INR n - 1 - INR i) by (assert (D : INR (n - 1 - i) = INR n - 1 - INR i) by (rewrite !minus_INR by lia; cbn; lra); apply Rle_antisym;
        [lra|assert (L : (n - 1 - i < S i')%nat) by (apply INR_lt; rewrite S_INR; lra); apply lt_n_Sm_le, le_INR in L; lra]).
      apply INR_eq. rewrite H, !minus_INR by lia. cbn. lra. }
    rewrite Et. assert (Et' : INR n - 1 - h - INR i' = 0) by (rewrite Ei, !minus_INR by lia; cbn; lra). rewrite Et'.
    replace (n - 1 - i')%nat with i by lia. f_equal. ring.
  - destruct Hj as [[Ej Hj]|[_ [C _]]]; [|contradiction]. assert (Ei : i' = (n - 2 - i)%nat).
    { assert (D : INR (n - 2 - i) = INR n - 2 - INR i) by (rewrite !minus_INR by lia; cbn; lra).
      assert (L1 : (n - 2 - i < S i')%nat) by (apply INR_lt; rewrite S_INR; lra). assert (L2 : (i' < S (n - 2 - i))%nat) by (apply INR_lt; rewrite S_INR; lra). lia. }
    assert (Et' : INR n - 1 - h - INR i' = 1 - (h - INR i)) by (rewrite Ei, !minus_INR by lia; cbn; lra). rewrite Et'.
    rewrite Ej. replace (n - 1 - i')%nat with (S i) by lia. replace (n - 1 - Nat.min (S i') (n - 1))%nat with i by lia. f_equal. ring.
Qed.

(** ** Medians *)
Lemma median_quantile (l : list R) v : l <> [] -> np_quantile l (1 / 2) = Ok v -> np_median l = Fin v.
Proof.
  intros Hl E. assert (Hq : 0 <= 1 / 2 <= 1) by lra. rewrite (quantile_value l (1/2) Hl Hq) in E. apply ok_inj in E. subst v.
  destruct (i_range l (1/2) Hl Hq) as [Ih Hi]. pose proof (j_cases l (1/2) Hl Hq) as Hj. unfold np_median. set (n := length l) in *.
  set (i := Z.to_nat (nfloor (1 / 2 * (INR n - 1)))) in *. cbv zeta.
  assert (G : forall x y : xnum R, match n with O => x | S _ => y end = y) by (intros x y; clear - Hi; destruct n; [lia|reflexivity]). rewrite G.
  unfold nth0. numR. destruct (Nat.even n) eqn:Ev.
  - apply Nat.even_spec in Ev. destruct Ev as (k & Ek). assert (Hn : INR n = 2 * INR k) by (rewrite Ek, mult_INR; cbn; lra).
    assert (Ei : i = (k - 1)%nat) by (assert (L1 : (i < k)%nat) by (apply INR_lt; lra); assert (L2 : (k < S (S i))%nat) by (apply INR_lt; rewrite !S_INR; lra); lia).
    assert (Ed : (n / 2 = k)%nat) by (rewrite Ek, Nat.mul_comm; apply Nat.div_mul; lia). rewrite Ed.
    destruct Hj as [[Ej Hj]|[_ [_ C]]]; [|lia]. rewrite Ej, Ei. replace (S (k - 1)) with k by lia.
    assert (Ht : 1 / 2 * (INR n - 1) - INR (k - 1) = 1 / 2) by (rewrite minus_INR by lia; cbn; lra). rewrite Ht. f_equal. field.
  - assert (Od : Nat.odd n = true) by (rewrite <- Nat.negb_even, Ev; reflexivity). apply Nat.odd_spec in Od. destruct Od as (k & Ek).
    assert (Hn : INR n = 2 * INR k + 1) by (rewrite Ek, plus_INR, mult_INR; cbn; lra).
    assert (Ei : i = k) by (assert (L1 : (i < S k)%nat) by (apply INR_lt; rewrite S_INR; lra); assert (L2 : (k < S i)%nat) by (apply INR_lt; rewrite !S_INR; lra); lia).
    assert (Ed : (n / 2 = k)%nat) by (rewrite Ek, Nat.add_comm, Nat.mul_comm, Nat.div_add by lia; reflexivity). rewrite Ed, Ei.
    assert (Ht : 1 / 2 * (INR n - 1) - INR k = 0) by lra. rewrite Ht. f_equal. ring.
Qed.
Lemma median_some (l : list R) : l <> [] -> exists v, np_median l = Fin v /\ np_quantile l (1 / 2) = Ok v.
Proof. intros Hl. destruct (quantile_some l (1/2) Hl ltac:(lra)) as (v & E). exists v. split; [apply median_quantile; auto|exact E]. Qed.
Lemma median_perm (l l' : list R) : Permutation l l' -> np_median l = np_median l'.
Proof. intros Hp. unfold np_median. rewrite (np_sort_perm_eq l l' Hp), (Permutation_length Hp). reflexivity. Qed.
(** [v] is a median: at least half of the entries on either side *)
Definition halves_at (l : list R) (v : R) : Prop := (length l <= 2 * count (at_most v) l)%nat /\ (length l <= 2 * count (at_least v) l)%nat.
Lemma median_halves (l : list R) v : l <> [] -> np_median l = Fin v -> halves_at l v.
Proof.
  intros Hl E. destruct (median_some l Hl) as (v' & E' & Q). rewrite E in E'. injection E' as <-. destruct (quantile_splits l (1/2) Hl ltac:(lra) v Q) as [H1 H2].
  assert (G : forall c, 1 / 2 * (INR (length l) - 1) < INR c -> (length l <= 2 * c)%nat).
  { intros c H. apply lt_n_Sm_le. apply INR_lt. rewrite S_INR, mult_INR. cbn [INR]. lra. }
  split; apply G; lra.
Qed.
Lemma median_affine (l : list R) v k c : l <> [] -> 0 <= k -> np_median l = Fin v -> np_median (map (fun x => k * x + c) l) = Fin (k * v + c).
Proof.
  intros Hl Hk E. destruct (median_some l Hl) as (v' & E' & Q). rewrite E in E'. injection E' as <-.
  apply median_quantile; [destruct l; [congruence|discriminate]|]. apply quantile_affine; auto. lra.
Qed.
Lemma median_opp (l : list R) v : l <> [] -> np_median l = Fin v -> np_median (map Ropp l) = Fin (- v).
Proof.
  intros Hl E. destruct (median_some l Hl) as (v' & E' & Q). rewrite E in E'. injection E' as <-.
  apply median_quantile; [destruct l; [congruence|discriminate]|]. replace (1 / 2) with (1 - 1 / 2) by lra. apply quantile_opp; auto. lra.
Qed.
Lemma median_range (l : list R) v lo hi : l <> [] -> (forall x, In x l -> lo <= x <= hi) -> np_median l = Fin v -> lo <= v <= hi.
Proof.
  intros Hl H E. destruct (median_halves l v Hl E) as [H1 H2]. assert (0 < length l)%nat by (destruct l; [congruence|cbn; lia]).
  assert (G : forall p, (0 < count p l)%nat -> exists x, In x l /\ p x = true).
  { intros p Hp. unfold count in Hp. destruct (filter p l) as [|x r] eqn:Ef; [cbn in Hp; lia|]. exists x. apply filter_In. rewrite Ef. left. reflexivity. }
  destruct (G (at_most v)) as (x & Hx & Px); [lia|]. destruct (G (at_least v)) as (y & Hy & Py); [lia|].
  unfold at_most in Px. unfold at_least in Py. destruct (Rle_dec x v); [|discriminate]. destruct (Rle_dec v y); [|discriminate].
  pose proof (H x Hx). pose proof (H y Hy). lra.
Qed.
