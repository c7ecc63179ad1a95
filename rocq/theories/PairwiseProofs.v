(** numpy's order of summation: the sum is a tree of additions over all items, hence the exact sum in exact arithmetic. *)
From Coq Require Import List Arith ZArith Bool Permutation Lia Reals Lra.
From Verif Require Import Num NumProofs Py NdArray NumpyLib Utils HistPdf.
Import ListNotations.

(** [s] is got from the items of [l], each used once, by additions in some order (and additions to 0). *)
Inductive tsum {T} {N : Num T} : list T -> T -> Prop :=
| ts_one a : tsum [a] a
| ts_zero l s : tsum l s -> tsum l (nadd n0 s)
| ts_two l1 l2 s1 s2 : tsum l1 s1 -> tsum l2 s2 -> tsum (l1 ++ l2) (nadd s1 s2)
| ts_perm l1 l2 s : tsum l1 s -> Permutation l1 l2 -> tsum l2 s.

Lemma m2len {A B C} (f : A -> B -> C) : forall l1 l2, length (map2 f l1 l2) = Nat.min (length l1) (length l2).
Proof. induction l1 as [|a l1 IH]; intros [|b l2]; simpl; auto. Qed.

Section AnyNumbers.
  Context {T : Type} {N : Num T}.
  Lemma fold_tsum (l : list T) : forall pre acc, tsum pre acc -> tsum (pre ++ l) (fold_left nadd l acc).
  Proof.
    induction l as [|a l IH]; intros pre acc H; [rewrite app_nil_r; exact H|]. cbn [fold_left]. replace (pre ++ a :: l) with ((pre ++ [a]) ++ l) by (rewrite <- app_assoc; reflexivity).
    apply IH. apply ts_two; [exact H|apply ts_one].
  Qed.
  Lemma short_tsum (l : list T) : l <> [] -> tsum l (fold_left nadd l n0).
  Proof. destruct l as [|a l]; intros H; [congruence|]. cbn [fold_left]. apply (fold_tsum l [a]). apply ts_zero, ts_one. Qed.
  Lemma lane_trees (Ls : list (list T)) r : Forall2 tsum Ls r -> forall xs, Forall2 tsum (map2 (fun L a => L ++ [a]) Ls xs) (map2 nadd r xs).
  Proof. intros H. induction H as [|L s Ls r HL H IH]; intros [|a xs]; cbn [map2]; constructor; [apply ts_two; [exact HL|apply ts_one]|apply IH]. Qed.
  Lemma lane_perm (Ls : list (list T)) : forall xs, length xs = length Ls -> Permutation (concat (map2 (fun L a => L ++ [a]) Ls xs)) (concat Ls ++ xs).
  Proof.
    induction Ls as [|L Ls IH]; intros [|a xs] E; try discriminate; [reflexivity|]. cbn [map2 concat]. rewrite <- !app_assoc. apply Permutation_app_head. cbn [app].
    etransitivity; [apply perm_skip, IH; simpl in E; lia|]. apply Permutation_middle.
  Qed.
  Lemma lanes_tsum : forall k l r Ls, length l <= k -> Forall2 tsum Ls r -> length Ls = 8 ->
    exists Ls', Forall2 tsum Ls' (fst (lanes r l)) /\ length Ls' = 8 /\ Permutation (concat Ls' ++ snd (lanes r l)) (concat Ls ++ l).
  Proof.
    induction k as [|k IH]; intros l r Ls Hk H8 HL.
    { destruct l; [|simpl in Hk; lia]. exists Ls. cbn. auto. }
    destruct l as [|a [|b [|c [|d [|e [|f [|g [|h l]]]]]]]]; try (exists Ls; cbn; auto; fail).
    cbn [lanes]. set (xs := [a; b; c; d; e; f; g; h]). assert (E : length (map2 (fun L a => L ++ [a]) Ls xs) = 8) by (rewrite (m2len _ Ls xs), HL; reflexivity).
    destruct (IH l (map2 nadd r xs) (map2 (fun L a => L ++ [a]) Ls xs) ltac:(simpl in Hk; lia) (lane_trees Ls r H8 xs) E) as (Ls' & A & B & C).
    exists Ls'. split; [exact A|]. split; [exact B|]. etransitivity; [exact C|]. change (a :: b :: c :: d :: e :: f :: g :: h :: l) with (xs ++ l). rewrite app_assoc. apply Permutation_app_tail, lane_perm. rewrite HL. reflexivity.
  Qed.
  Lemma block_tsum (l : list T) : l <> [] -> tsum l (sum_block l).
  Proof.
    intros Hne. destruct l as [|a [|b [|c [|d [|e [|f [|g [|h l]]]]]]]]; try (apply short_tsum; discriminate); [congruence|].
    cbn [sum_block]. set (xs := [a; b; c; d; e; f; g; h]).
    destruct (lanes_tsum (length l) l xs [[a]; [b]; [c]; [d]; [e]; [f]; [g]; [h]] (le_n _)) as (Ls & A & B & C); [repeat constructor|reflexivity|].
    destruct (lanes xs l) as [r rest]. cbn [fst snd] in A, C. cbv zeta.
    do 8 (destruct Ls as [|? Ls]; [discriminate|]). destruct Ls; [|discriminate]. repeat match goal with H : Forall2 _ (_ :: _) _ |- _ => inversion H; clear H; subst end.
    match goal with H : Forall2 _ [] _ |- _ => inversion H; subst end. cbn [nth0 nth].
    eapply ts_perm; [apply fold_tsum; apply ts_two; [apply ts_two; apply ts_two; eassumption|apply ts_two; apply ts_two; eassumption]|].
    cbn [concat] in C. rewrite app_nil_r in C. rewrite <- !app_assoc in *. exact C.
  Qed.
  Lemma pairwise_tsum : forall fuel (l : list T), l <> [] -> tsum l (pairwise_sum fuel l).
  Proof.
    induction fuel as [|fuel IH]; intros l Hne; cbn [pairwise_sum]; [apply block_tsum, Hne|]. destruct (Nat.leb_spec (length l) 128) as [L|L]; [apply block_tsum, Hne|].
    set (half := Nat.div (length l) 2). set (m := half - half mod 8). pose proof (Nat.mod_upper_bound half 8 ltac:(lia)) as M8.
    assert (H64 : 64 <= half) by (unfold half; apply Nat.div_le_lower_bound; lia). assert (Hh : half < length l) by (apply Nat.div_lt; lia).
    rewrite <- (firstn_skipn m l) at 1. apply ts_two; apply IH.
    - intros E. apply (f_equal (@length T)) in E. rewrite firstn_length in E. simpl in E. lia.
    - intros E. apply (f_equal (@length T)) in E. rewrite skipn_length in E. simpl in E. lia.
  Qed.
  Lemma npsum_tsum (l : list T) : l <> [] -> tsum l (npsum l).
  Proof. intros H. apply ts_zero, pairwise_tsum, H. Qed.
End AnyNumbers.

(** In exact arithmetic the order makes no difference. *)
Lemma tsum_R (l : list R) s : tsum (N := RNum) l s -> s = nsum l.
Proof.
  assert (K : forall a (l : list R), nsum (a :: l) = (a + nsum l)%R) by reflexivity.
  assert (A : forall l l' : list R, nsum (l ++ l') = (nsum l + nsum l')%R).
  { intros l0 l'. induction l0 as [|a l0 IH]; cbn [app]; [change (nsum (@nil R)) with 0%R; lra|rewrite !K, IH; lra]. }
  intros H. induction H as [a|l s H IH|l1 l2 s1 s2 H1 IH1 H2 IH2|l1 l2 s H IH P].
  - unfold nsum. simpl. lra.
  - rewrite IH. simpl. lra.
  - rewrite A, IH1, IH2. reflexivity.
  - rewrite IH. clear - P K. induction P; rewrite ?K; lra.
Qed.
Lemma npsum_R (l : list R) : npsum (N := RNum) l = nsum l.
Proof. destruct l as [|a l]; [unfold npsum, nsum; simpl; lra|]. apply tsum_R, npsum_tsum. discriminate. Qed.
Lemma hist_norm_row_R (w row : list R) : hist_norm_row w row = map (fun p => p / nsum (map2 nmul row w))%num row.
Proof. unfold hist_norm_row. rewrite npsum_R. reflexivity. Qed.
Lemma normalize_row_R (xs ys : list R) : normalize_interp1d_row xs ys = map (fun y => y / nsum (right_rect_terms xs ys))%num ys.
Proof. unfold normalize_interp1d_row. rewrite npsum_R. reflexivity. Qed.
