(** Linear interpolation over R: values on segments, monotonicity, bounds,
    inverse tables. *)
From Coq Require Import List Arith ZArith Bool Sorted Lia Reals Lra Psatz.
From Verif Require Import Num NumProofs Py NdArray NumpyLib SortProofs.
Import ListNotations.
Local Open Scope R_scope.

(** ** Lists by index *)
Lemma nth0_cons_S (a : R) l i : nth0 (S i) (a :: l) = nth0 i l.
Proof. reflexivity. Qed.
Lemma nhead_nth0 (l : list R) : nhead l = nth0 0 l.
Proof. destruct l; reflexivity. Qed.
Lemma last_nth {A} (l : list A) d : last l d = nth (pred (length l)) l d.
Proof. induction l as [|a l IH]; auto. destruct l; auto. Qed.
Lemma nlast_nth0 (l : list R) : nlast l = nth0 (pred (length l)) l.
Proof. apply last_nth. Qed.

Lemma ss_nth (P : R -> R -> Prop) l : StronglySorted P l ->
  forall i j, (i < j < length l)%nat -> P (nth0 i l) (nth0 j l).
Proof.
  induction 1 as [|a l Hs IH Hf]; simpl; intros i j Hij; [lia|].
  destruct j; [lia|]. rewrite nth0_cons_S. destruct i.
  - unfold nth0 at 1. simpl. rewrite Forall_forall in Hf. apply Hf. apply nth_In. lia.
  - rewrite nth0_cons_S. apply IH. lia.
Qed.
Lemma nth_ss (P : R -> R -> Prop) l :
  (forall i j, (i < j < length l)%nat -> P (nth0 i l) (nth0 j l)) -> StronglySorted P l.
Proof.
  induction l as [|a l IH]; intros H; constructor.
  - apply IH. intros i j Hij. specialize (H (S i) (S j)). rewrite !nth0_cons_S in H. apply H. simpl. lia.
  - apply Forall_forall. intros x Hx. apply In_nth with (d := n0) in Hx. destruct Hx as (k & Hk & <-).
    apply (H 0%nat (S k)). simpl. lia.
Qed.

Definition increasing (l : list R) : Prop := StronglySorted Rlt l.
Definition nondecreasing (l : list R) : Prop := StronglySorted Rle l.

Lemma inc_lt l i j : increasing l -> (i < j < length l)%nat -> nth0 i l < nth0 j l.
Proof. intros. eapply (ss_nth Rlt); eauto. Qed.
Lemma inc_le l i j : increasing l -> (i <= j < length l)%nat -> nth0 i l <= nth0 j l.
Proof. intros. destruct (Nat.eq_dec i j); [subst; lra|]. apply Rlt_le, inc_lt; auto. lia. Qed.
Lemma nd_le l i j : nondecreasing l -> (i <= j < length l)%nat -> nth0 i l <= nth0 j l.
Proof. intros. destruct (Nat.eq_dec i j); [subst; lra|]. eapply (ss_nth Rle); eauto. lia. Qed.
Lemma inc_nd l : increasing l -> nondecreasing l.
Proof. apply Rlt_sorted_le. Qed.

(** ** Search *)
Lemma ssr_eq (xs : list R) x k : (k <= length xs)%nat -> (forall i, (i < k)%nat -> nth0 i xs <= x) ->
  ((k < length xs)%nat -> x < nth0 k xs) -> searchsorted_right xs x = k.
Proof.
  revert k. induction xs as [|a xs IH]; simpl; intros k Hk H1 H2; [lia|].
  ncase.
  - destruct k.
    + specialize (H2 ltac:(lia)). unfold nth0 in H2. simpl in H2. lra.
    + f_equal. apply IH; [lia| |].
      * intros i Hi. apply (H1 (S i)). lia.
      * intros Hi. apply H2. lia.
  - destruct k; auto. specialize (H1 0%nat ltac:(lia)). unfold nth0 in H1. simpl in H1. lra.
Qed.
Lemma ssl_eq (xs : list R) x k : (k <= length xs)%nat -> (forall i, (i < k)%nat -> nth0 i xs < x) ->
  ((k < length xs)%nat -> x <= nth0 k xs) -> searchsorted_left xs x = k.
Proof.
  revert k. induction xs as [|a xs IH]; simpl; intros k Hk H1 H2; [lia|].
  ncase.
  - destruct k.
    + specialize (H2 ltac:(lia)). unfold nth0 in H2. simpl in H2. lra.
    + f_equal. apply IH; [lia| |].
      * intros i Hi. apply (H1 (S i)). lia.
      * intros Hi. apply H2. lia.
  - destruct k; auto. specialize (H1 0%nat ltac:(lia)). unfold nth0 in H1. simpl in H1. lra.
Qed.
Lemma ssr_le (xs : list R) x : (searchsorted_right xs x <= length xs)%nat.
Proof. induction xs; simpl; auto. ncase; lia. Qed.
Lemma ssl_le (xs : list R) x : (searchsorted_left xs x <= length xs)%nat.
Proof. induction xs; simpl; auto. ncase; lia. Qed.
Lemma ssr_below (xs : list R) x i : (i < searchsorted_right xs x)%nat -> nth0 i xs <= x.
Proof.
  revert i. induction xs as [|a xs IH]; simpl; intros i; [lia|]. ncase; [|lia].
  intros. destruct i; [unfold nth0; simpl; lra|]. rewrite nth0_cons_S. apply IH. lia.
Qed.
Lemma ssr_at (xs : list R) x : (searchsorted_right xs x < length xs)%nat -> x < nth0 (searchsorted_right xs x) xs.
Proof.
  induction xs as [|a xs IH]; simpl; [lia|]. ncase; intros.
  - rewrite nth0_cons_S. apply IH. lia.
  - unfold nth0; simpl. lra.
Qed.
Lemma ssl_below (xs : list R) x i : (i < searchsorted_left xs x)%nat -> nth0 i xs < x.
Proof.
  revert i. induction xs as [|a xs IH]; simpl; intros i; [lia|]. ncase; [|lia].
  intros. destruct i; [unfold nth0; simpl; lra|]. rewrite nth0_cons_S. apply IH. lia.
Qed.
Lemma ssl_at (xs : list R) x : (searchsorted_left xs x < length xs)%nat -> x <= nth0 (searchsorted_left xs x) xs.
Proof.
  induction xs as [|a xs IH]; simpl; [lia|]. ncase; intros.
  - rewrite nth0_cons_S. apply IH. lia.
  - unfold nth0; simpl. lra.
Qed.

(** Position of a point in a nondecreasing table. *)
Lemma segment_exists (xs : list R) x : nondecreasing xs -> xs <> [] -> nth0 0 xs <= x < nlast xs ->
  exists j, (S j < length xs)%nat /\ nth0 j xs <= x < nth0 (S j) xs.
Proof.
  intros Hs Hn [H0 H1]. rewrite nlast_nth0 in H1.
  set (k := searchsorted_right xs x).
  assert (Hk : (0 < k)%nat).
  { unfold k. destruct xs; [congruence|]. simpl. unfold nth0 in H0. simpl in H0. ncase; [lia|lra]. }
  assert (Hk2 : (k < length xs)%nat).
  { pose proof (ssr_le xs x). fold k in H. destruct (Nat.eq_dec k (length xs)); [|lia].
    assert (nth0 (pred (length xs)) xs <= x) by (apply ssr_below; fold k; lia). lra. }
  exists (pred k). rewrite Nat.succ_pred by lia. split; auto. split.
  - apply ssr_below. fold k. lia.
  - apply ssr_at; auto.
Qed.
Lemma segment_exists_closed (xs : list R) x : nondecreasing xs -> (2 <= length xs)%nat -> nth0 0 xs <= x <= nlast xs ->
  exists j, (S j < length xs)%nat /\ nth0 j xs <= x <= nth0 (S j) xs.
Proof.
  intros Hs Hn [H0 H1]. destruct (Rlt_le_dec x (nlast xs)).
  - destruct (segment_exists xs x) as (j & Hj & Hx); auto.
    + intros ->. simpl in Hn. lia.
    + exists j. split; auto. lra.
  - exists (pred (pred (length xs))). rewrite nlast_nth0 in *. 
    replace (S (pred (pred (length xs)))) with (pred (length xs)) by lia. split; [lia|].
    split; [|lra]. apply Rle_trans with (nth0 (pred (length xs)) xs); [|lra]. apply nd_le; auto. lia.
Qed.

(** ** Values of [interp1d] *)
Definition seg (x0 x1 y0 y1 x : R) : R := (y1 - y0) / (x1 - x0) * (x - x0) + y0.

Lemma interp1d_below xs ys (lo hi x : R) : x < nth0 0 xs -> interp1d xs ys lo hi x = lo.
Proof. intros. unfold interp1d. rewrite nhead_nth0. ncase; auto. lra. Qed.
Lemma interp1d_above xs ys (lo hi x : R) : nth0 0 xs <= nlast xs -> nlast xs < x -> interp1d xs ys lo hi x = hi.
Proof. intros. unfold interp1d. rewrite nhead_nth0. ncase; [lra|]. ncase; auto. lra. Qed.

Lemma nondec_last l i : nondecreasing l -> (i < length l)%nat -> nth0 i l <= nlast l.
Proof. intros. rewrite nlast_nth0. apply nd_le; auto. lia. Qed.
Lemma nondec_first l i : nondecreasing l -> (i < length l)%nat -> nth0 0 l <= nth0 i l.
Proof. intros. apply nd_le; auto. lia. Qed.

Lemma interp1d_seg xs ys (lo hi x : R) j : nondecreasing xs -> (S j < length xs)%nat ->
  nth0 j xs <= x < nth0 (S j) xs ->
  interp1d xs ys lo hi x = seg (nth0 j xs) (nth0 (S j) xs) (nth0 j ys) (nth0 (S j) ys) x.
Proof.
  intros Hs Hj [H0 H1]. unfold interp1d. rewrite nhead_nth0.
  assert (nth0 0 xs <= nth0 j xs) by (apply nondec_first; auto; lia).
  assert (nth0 (S j) xs <= nlast xs) by (apply nondec_last; auto).
  ncase; [lra|]. ncase; [lra|].
  assert (E : searchsorted_right xs x = S j).
  { apply ssr_eq; [lia| |intros; lra]. intros i Hi.
    apply Rle_trans with (nth0 j xs); auto. apply nd_le; auto. lia. }
  rewrite E. cbn [pred]. destruct (Nat.eqb_spec j (pred (length xs))); [lia|].
  ncase; auto. numR. unfold seg. rewrite <- e. ring.
Qed.

Lemma interp1d_last xs ys (lo hi : R) : nondecreasing xs -> xs <> [] ->
  interp1d xs ys lo hi (nlast xs) = nth0 (pred (length xs)) ys.
Proof.
  intros Hs Hn. assert (0 < length xs)%nat by (destruct xs; [congruence|simpl; lia]).
  unfold interp1d. rewrite nhead_nth0.
  assert (nth0 0 xs <= nlast xs) by (apply nondec_last; auto; lia).
  ncase; [lra|]. ncase; [lra|].
  assert (E : searchsorted_right xs (nlast xs) = length xs).
  { apply ssr_eq; auto; [|lia]. intros. apply nondec_last; auto. }
  rewrite E, Nat.eqb_refl. auto.
Qed.

Lemma seg_left x0 x1 y0 y1 : seg x0 x1 y0 y1 x0 = y0.
Proof. unfold seg. ring. Qed.
Lemma seg_right x0 x1 y0 y1 : x0 <> x1 -> seg x0 x1 y0 y1 x1 = y1.
Proof. intros. unfold seg. field. lra. Qed.

(** At the points of the table. *)
Lemma interp1d_knot xs ys (lo hi : R) i : increasing xs -> (i < length xs)%nat ->
  interp1d xs ys lo hi (nth0 i xs) = nth0 i ys.
Proof.
  intros Hs Hi. destruct (Nat.eq_dec (S i) (length xs)).
  - replace (nth0 i xs) with (nlast xs) by (rewrite nlast_nth0; f_equal; lia).
    rewrite interp1d_last; [f_equal; lia|apply inc_nd; auto|]. intros ->; simpl in Hi; lia.
  - rewrite interp1d_seg with (j := i); [apply seg_left|apply inc_nd; auto|lia|].
    split; [lra|]. apply inc_lt; auto. lia.
Qed.

(** On a closed segment of a strictly increasing table. *)
Lemma interp1d_closed xs ys (lo hi x : R) j : increasing xs -> (S j < length xs)%nat ->
  nth0 j xs <= x <= nth0 (S j) xs ->
  interp1d xs ys lo hi x = seg (nth0 j xs) (nth0 (S j) xs) (nth0 j ys) (nth0 (S j) ys) x.
Proof.
  intros Hs Hj [H0 H1]. destruct (Rlt_le_dec x (nth0 (S j) xs)).
  - apply interp1d_seg; auto. apply inc_nd; auto.
  - assert (x = nth0 (S j) xs) by lra. subst x. rewrite interp1d_knot by (auto; lia).
    rewrite seg_right; auto. assert (nth0 j xs < nth0 (S j) xs) by (apply inc_lt; auto; lia). lra.
Qed.

(** The array version agrees on strictly increasing tables with two points or more. *)
Lemma interp1d_nd_eq xs ys (lo hi x : R) : increasing xs -> (2 <= length xs)%nat ->
  interp1d_nd xs ys lo hi x = interp1d xs ys lo hi x.
Proof.
  intros Hs Hn.
  destruct (Rlt_le_dec x (nth0 0 xs)).
  { rewrite interp1d_below by auto. unfold interp1d_nd. rewrite nhead_nth0. ncase; auto; lra. }
  assert (nth0 0 xs <= nlast xs) by (apply nondec_last; [apply inc_nd; auto|lia]).
  destruct (Rlt_le_dec (nlast xs) x).
  { rewrite interp1d_above by auto. unfold interp1d_nd. rewrite nhead_nth0. ncase; [lra|]. ncase; auto. lra. }
  destruct (segment_exists_closed xs x) as (j & Hj & Hx); auto.
  { apply inc_nd; auto. }
  rewrite (interp1d_closed _ _ _ _ _ j) by auto.
  unfold interp1d_nd. rewrite nhead_nth0. ncase; [lra|]. ncase; [lra|].
  destruct (Req_dec x (nth0 j xs)) as [Ex|Ex].
  - (* x is the left end *)
    subst x. destruct j.
    + assert (E : searchsorted_left xs (nth0 0 xs) = 0%nat) by (apply ssl_eq; [lia|lia|intros; lra]).
      rewrite E. replace (Nat.min (Nat.max 0 1) (pred (length xs))) with 1%nat by lia. reflexivity.
    + assert (E : searchsorted_left xs (nth0 (S j) xs) = S j).
      { apply ssl_eq; [lia| |intros; lra]. intros. apply inc_lt; auto. lia. }
      rewrite E. replace (Nat.min (Nat.max (S j) 1) (pred (length xs))) with (S j) by lia.
      cbn [pred]. rewrite seg_left. numR.
      change (seg (nth0 j xs) (nth0 (S j) xs) (nth0 j ys) (nth0 (S j) ys) (nth0 (S j) xs) = nth0 (S j) ys).
      apply seg_right. assert (nth0 j xs < nth0 (S j) xs) by (apply inc_lt; auto; lia). lra.
  - assert (E : searchsorted_left xs x = S j).
    { apply ssl_eq; [lia| |intros; lra]. intros i Hi. apply Rle_lt_trans with (nth0 j xs); [|lra].
      apply inc_le; auto. lia. }
    rewrite E. replace (Nat.min (Nat.max (S j) 1) (pred (length xs))) with (S j) by lia. reflexivity.
Qed.

(** ** Monotonicity and bounds *)
Lemma seg_mono x0 x1 y0 y1 x x' : x0 < x1 -> y0 <= y1 -> x <= x' -> seg x0 x1 y0 y1 x <= seg x0 x1 y0 y1 x'.
Proof.
  intros. unfold seg. apply Rplus_le_compat_r. apply Rmult_le_compat_l; [|lra].
  apply Rdiv_le_0_compat || (unfold Rdiv; apply Rmult_le_pos; [lra|apply Rlt_le, Rinv_0_lt_compat; lra]).
Qed.
Lemma seg_between x0 x1 y0 y1 x : x0 < x1 -> x0 <= x <= x1 -> y0 <= y1 -> y0 <= seg x0 x1 y0 y1 x <= y1.
Proof.
  intros. split.
  - rewrite <- (seg_left x0 x1 y0 y1) at 1. apply seg_mono; lra.
  - rewrite <- (seg_right x0 x1 y0 y1) at 2 by lra. apply seg_mono; lra.
Qed.
(** Bounds that do not need monotone values. *)
Lemma seg_ge x0 x1 y0 y1 x m : x0 < x1 -> x0 <= x <= x1 -> m <= y0 -> m <= y1 -> m <= seg x0 x1 y0 y1 x.
Proof.
  intros. unfold seg.
  assert (E : (y1 - y0) / (x1 - x0) * (x - x0) + y0 = y0 * ((x1 - x) / (x1 - x0)) + y1 * ((x - x0) / (x1 - x0)))
    by (field; lra).
  rewrite E.
  assert (0 <= (x1 - x) / (x1 - x0)) by (apply Rmult_le_pos; [lra|apply Rlt_le, Rinv_0_lt_compat; lra]).
  assert (0 <= (x - x0) / (x1 - x0)) by (apply Rmult_le_pos; [lra|apply Rlt_le, Rinv_0_lt_compat; lra]).
  assert ((x1 - x) / (x1 - x0) + (x - x0) / (x1 - x0) = 1) by (field; lra). nra.
Qed.
Lemma seg_le x0 x1 y0 y1 x m : x0 < x1 -> x0 <= x <= x1 -> y0 <= m -> y1 <= m -> seg x0 x1 y0 y1 x <= m.
Proof.
  intros. assert (- m <= seg x0 x1 (-y0) (-y1) x) by (apply seg_ge; lra).
  unfold seg in *. replace ((- y1 - - y0) / (x1 - x0)) with (- ((y1 - y0) / (x1 - x0))) in H3 by (field; lra). lra.
Qed.

Lemma interp1d_bounds xs ys (lo hi m M x : R) : increasing xs -> (2 <= length xs)%nat -> length ys = length xs ->
  (forall i, (i < length ys)%nat -> m <= nth0 i ys <= M) -> m <= lo <= M -> m <= hi <= M ->
  m <= interp1d xs ys lo hi x <= M.
Proof.
  intros Hs Hn Hl Hy Hlo Hhi.
  destruct (Rlt_le_dec x (nth0 0 xs)); [rewrite interp1d_below by auto; auto|].
  assert (nth0 0 xs <= nlast xs) by (apply nondec_last; [apply inc_nd; auto|lia]).
  destruct (Rlt_le_dec (nlast xs) x); [rewrite interp1d_above by auto; auto|].
  destruct (segment_exists_closed xs x) as (j & Hj & Hx); auto; [apply inc_nd; auto|].
  rewrite (interp1d_closed _ _ _ _ _ j) by auto.
  assert (nth0 j xs < nth0 (S j) xs) by (apply inc_lt; auto; lia).
  pose proof (Hy j ltac:(lia)). pose proof (Hy (S j) ltac:(lia)).
  split; [apply seg_ge|apply seg_le]; lra.
Qed.

Lemma interp1d_mono xs ys (lo hi x x' : R) : increasing xs -> (2 <= length xs)%nat -> length ys = length xs ->
  nondecreasing ys -> lo <= nth0 0 ys -> nlast ys <= hi -> x <= x' ->
  interp1d xs ys lo hi x <= interp1d xs ys lo hi x'.
Proof.
  intros Hs Hn Hl Hy Hlo Hhi Hx.
  assert (H0 : nth0 0 xs <= nlast xs) by (apply nondec_last; [apply inc_nd; auto|lia]).
  assert (Hy0 : nth0 0 ys <= nlast ys) by (apply nondec_last; auto; lia).
  assert (Hb : forall z, nth0 0 xs <= z <= nlast xs ->
     exists j, (S j < length xs)%nat /\ nth0 j xs <= z <= nth0 (S j) xs /\
     interp1d xs ys lo hi z = seg (nth0 j xs) (nth0 (S j) xs) (nth0 j ys) (nth0 (S j) ys) z /\
     nth0 j ys <= interp1d xs ys lo hi z <= nth0 (S j) ys).
  { intros z Hz. destruct (segment_exists_closed xs z) as (j & Hj & Hzj); auto; [apply inc_nd; auto|].
    exists j. split; auto. split; auto. split; [apply interp1d_closed; auto|].
    rewrite (interp1d_closed _ _ _ _ _ j) by auto. apply seg_between; auto.
    - apply inc_lt; auto; lia.
    - apply nd_le; auto. lia. }
  assert (Hin : forall z, nth0 0 xs <= z <= nlast xs -> nth0 0 ys <= interp1d xs ys lo hi z <= nlast ys).
  { intros z Hz. destruct (Hb z Hz) as (j & Hj & _ & _ & [B1 B2]).
    assert (nth0 0 ys <= nth0 j ys) by (apply nondec_first; auto; lia).
    assert (nth0 (S j) ys <= nlast ys) by (apply nondec_last; auto; lia). lra. }
  destruct (Rlt_le_dec x (nth0 0 xs)).
  { rewrite (interp1d_below _ _ _ _ x) by auto.
    destruct (Rlt_le_dec x' (nth0 0 xs)); [rewrite interp1d_below by auto; lra|].
    destruct (Rlt_le_dec (nlast xs) x'); [rewrite interp1d_above by auto; lra|].
    specialize (Hin x' ltac:(lra)). lra. }
  destruct (Rlt_le_dec (nlast xs) x').
  { rewrite (interp1d_above _ _ _ _ x') by auto.
    destruct (Rlt_le_dec (nlast xs) x); [rewrite interp1d_above by auto; lra|].
    specialize (Hin x ltac:(lra)). lra. }
  destruct (Hb x ltac:(lra)) as (j & Hj & Hxj & Ej & Bj).
  destruct (Hb x' ltac:(lra)) as (k & Hk & Hxk & Ek & Bk).
  destruct (Nat.lt_trichotomy j k) as [L|[L|L]].
  - assert (nth0 (S j) ys <= nth0 k ys) by (apply nd_le; auto; lia). lra.
  - subst k. rewrite Ej, Ek. apply seg_mono; auto; [apply inc_lt; auto; lia|apply nd_le; auto; lia].
  - assert (nth0 (S k) xs <= nth0 j xs) by (apply inc_le; auto; lia).
    assert (x = x') by lra. subst x'. lra.
Qed.

(** ** Inverse tables: [interp1d ys xs] after [interp1d xs ys] and conversely.
    [ys] may have flat parts. *)
Lemma seg_inv x0 x1 y0 y1 y : x0 < x1 -> y0 < y1 ->
  seg x0 x1 y0 y1 (seg y0 y1 x0 x1 y) = y.
Proof. intros. unfold seg. field. lra. Qed.

(** F(Q(p)) = p for every p in the range of the table. *)
Lemma interp1d_right_inverse xs ys (lo hi lo' hi' p : R) :
  increasing xs -> (2 <= length xs)%nat -> length ys = length xs -> nondecreasing ys ->
  nth0 0 ys <= p <= nlast ys ->
  interp1d xs ys lo hi (interp1d ys xs lo' hi' p) = p.
Proof.
  intros Hs Hn Hl Hy [H0 H1].
  destruct (Rlt_le_dec p (nlast ys)).
  - destruct (segment_exists ys p) as (j & Hj & Hp); auto; [intros ->; simpl in *; lia|].
    rewrite (interp1d_seg ys xs lo' hi' p j) by auto.
    assert (Hx : nth0 j xs < nth0 (S j) xs) by (apply inc_lt; auto; lia).
    rewrite (interp1d_closed xs ys lo hi _ j); auto; [apply seg_inv; lra|lia|].
    apply seg_between; lra.
  - assert (p = nlast ys) by lra. subst p. rewrite interp1d_last by (auto; intros ->; simpl in *; lia).
    rewrite Hl. rewrite interp1d_knot by (auto; lia). rewrite nlast_nth0, Hl. auto.
Qed.

(** Q(F(x)) = x wherever the table is strictly increasing on the segment holding x,
    excluding its right end unless it is the last point. *)
Lemma interp1d_left_inverse xs ys (lo hi lo' hi' x : R) j :
  increasing xs -> (2 <= length xs)%nat -> length ys = length xs -> nondecreasing ys ->
  (S j < length xs)%nat -> nth0 j ys < nth0 (S j) ys -> nth0 j xs <= x < nth0 (S j) xs ->
  interp1d ys xs lo' hi' (interp1d xs ys lo hi x) = x.
Proof.
  intros Hs Hn Hl Hy Hj Hlt Hx.
  rewrite (interp1d_closed xs ys lo hi x j) by (auto; lra).
  rewrite (interp1d_seg ys xs lo' hi' _ j); auto; [apply seg_inv; lra|lia|].
  split.
  - apply seg_between; lra.
  - unfold seg. assert ((x - nth0 j xs) / (nth0 (S j) xs - nth0 j xs) < 1).
    { apply Rmult_lt_reg_r with (nth0 (S j) xs - nth0 j xs); [lra|]. field_simplify; lra. }
    replace ((nth0 (S j) ys - nth0 j ys) / (nth0 (S j) xs - nth0 j xs) * (x - nth0 j xs)) with
      ((nth0 (S j) ys - nth0 j ys) * ((x - nth0 j xs) / (nth0 (S j) xs - nth0 j xs))) by (field; lra). nra.
Qed.
Lemma interp1d_left_inverse_le xs ys (lo hi lo' hi' x : R) :
  increasing xs -> (2 <= length xs)%nat -> length ys = length xs -> nondecreasing ys ->
  nth0 0 xs <= x <= nlast xs ->
  x <= interp1d ys xs lo' hi' (interp1d xs ys lo hi x).
Proof.
  intros Hs Hn Hl Hy Hx.
  assert (Hny : ys <> []) by (intros ->; simpl in *; lia).
  destruct (segment_exists_closed xs x) as (j & Hj & Hxj); auto; [apply inc_nd; auto|].
  assert (Hxx : nth0 j xs < nth0 (S j) xs) by (apply inc_lt; auto; lia).
  assert (Hyy : nth0 j ys <= nth0 (S j) ys) by (apply nd_le; auto; lia).
  set (v := interp1d xs ys lo hi x).
  assert (Ev : v = seg (nth0 j xs) (nth0 (S j) xs) (nth0 j ys) (nth0 (S j) ys) x).
  { unfold v. apply interp1d_closed; auto. }
  assert (Bv : nth0 j ys <= v <= nth0 (S j) ys) by (rewrite Ev; apply seg_between; auto).
  destruct (Rlt_le_dec v (nth0 (S j) ys)).
  - rewrite (interp1d_seg ys xs lo' hi' v j) by (auto; lia || lra).
    rewrite Ev, seg_inv by lra. lra.
  - assert (v = nth0 (S j) ys) by lra. 
    destruct (Rlt_le_dec v (nlast ys)).
    + destruct (segment_exists ys v) as (k & Hk & Hvk); auto.
      { split; auto. assert (nth0 0 ys <= nth0 (S j) ys) by (apply nondec_first; auto; lia). lra. }
      rewrite (interp1d_seg ys xs lo' hi' v k) by auto.
      assert ((S j <= k)%nat).
      { destruct (le_lt_dec (S j) k); auto. exfalso.
        assert (nth0 (S k) ys <= nth0 (S j) ys) by (apply nd_le; auto; lia). lra. }
      assert (nth0 (S j) xs <= nth0 k xs) by (apply inc_le; auto; lia).
      assert (nth0 k xs < nth0 (S k) xs) by (apply inc_lt; auto; lia).
      assert (nth0 k xs <= seg (nth0 k ys) (nth0 (S k) ys) (nth0 k xs) (nth0 (S k) xs) v) by (apply seg_between; lra).
      lra.
    + assert (v = nlast ys).
      { assert (nth0 (S j) ys <= nlast ys) by (apply nondec_last; auto; lia). lra. }
      rewrite H0, interp1d_last by auto. rewrite Hl. rewrite <- nlast_nth0. lra.
Qed.
