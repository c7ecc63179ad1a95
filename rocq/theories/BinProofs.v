(** Bin lookup over R. *)
From Coq Require Import List Arith ZArith Bool Sorted Lia Reals Lra Psatz.
From Verif Require Import Num NumProofs Py NdArray NumpyLib Utils SortProofs InterpProofs.
Import ListNotations.
Local Open Scope R_scope.

(** ** Edge vectors *)
Definition equal_width (bins : list R) : Prop :=
  exists h, forall i, (S i < length bins)%nat -> nth0 (S i) bins - nth0 i bins = h.
(** Some width differs from the first one by more than numpy's tolerance. *)
Definition clearly_unequal (bins : list R) : Prop :=
  exists i, (S i < length bins)%nat /\
    Rabs ((nth0 (S i) bins - nth0 i bins) - (nth0 1 bins - nth0 0 bins))
    > 1 / 100000000 + 1 / 100000 * Rabs (nth0 1 bins - nth0 0 bins).

Lemma map2_nth {A B C} (f : A -> B -> C) l1 l2 i a b c :
  (i < length l1)%nat -> (i < length l2)%nat -> nth i (map2 f l1 l2) c = f (nth i l1 a) (nth i l2 b).
Proof. revert l2 i; induction l1; destruct l2; simpl; intros i H1 H2; try lia. destruct i; auto. apply IHl1; lia. Qed.
Lemma map2_len {A B C} (f : A -> B -> C) l1 l2 : length (map2 f l1 l2) = Nat.min (length l1) (length l2).
Proof. revert l2; induction l1; destruct l2; simpl; auto. Qed.
Lemma removelast_length {A} (l : list A) : length (removelast l) = pred (length l).
Proof. induction l as [|a l IH]; auto. destruct l; auto. cbn [removelast length] in *. rewrite IH. auto. Qed.
Lemma removelast_nth {A} (l : list A) i d : (S i < length l)%nat -> nth i (removelast l) d = nth i l d.
Proof.
  revert i. induction l as [|a l IH]; intros i H; [simpl in H; lia|].
  destruct l; [simpl in H; lia|]. cbn [removelast]. destruct i; auto. cbn [nth]. apply IH. simpl in *. lia.
Qed.
Lemma tl_nth {A} (l : list A) i d : nth i (tl l) d = nth (S i) l d.
Proof. destruct l; auto. destruct i; auto. Qed.
Lemma tl_length {A} (l : list A) : length (tl l) = pred (length l).
Proof. destruct l; auto. Qed.
Lemma ndiff_length (l : list R) : length (ndiff l) = pred (length l).
Proof. unfold ndiff. rewrite map2_len, tl_length, removelast_length. lia. Qed.
Lemma ndiff_nth (l : list R) i : (S i < length l)%nat -> nth0 i (ndiff l) = nth0 (S i) l - nth0 i l.
Proof.
  intros. unfold ndiff, nth0. rewrite map2_nth with (a := n0) (b := n0); [|rewrite tl_length; lia|rewrite removelast_length; lia].
  rewrite tl_nth, removelast_nth by auto. reflexivity.
Qed.

Lemma widths_allclose bins : equal_width bins -> (2 <= length bins)%nat ->
  np_allclose_scalar (bin_widths bins) (nhead (bin_widths bins)) = true.
Proof.
  intros [h Hh] Hn. unfold np_allclose_scalar, bin_widths. apply forallb_forall. intros w Hw.
  assert (Ew : w = h).
  { apply In_nth with (d := n0) in Hw. destruct Hw as (i & Hi & <-). rewrite ndiff_length in Hi.
    change (nth i (ndiff bins) n0) with (nth0 i (ndiff bins)). rewrite ndiff_nth by lia. apply Hh. lia. }
  assert (E0 : nhead (ndiff bins) = h).
  { rewrite nhead_nth0, ndiff_nth by lia. apply Hh. lia. }
  rewrite E0, Ew. unfold np_isclose. rewrite !nabs_R. numR. unfold nfrac. numR.
  apply Rleb_true. replace (h - h) with 0 by lra. rewrite Rabs_R0. pose proof (Rabs_pos h). lra.
Qed.
Lemma widths_not_allclose bins : clearly_unequal bins -> (2 <= length bins)%nat ->
  np_allclose_scalar (bin_widths bins) (nhead (bin_widths bins)) = false.
Proof.
  intros (i & Hi & Hg) Hn. unfold np_allclose_scalar, bin_widths.
  destruct (forallb _ _) eqn:E; auto. exfalso. rewrite forallb_forall in E.
  specialize (E (nth0 i (ndiff bins))).
  assert (Hin : In (nth0 i (ndiff bins)) (ndiff bins)) by (apply nth_In; rewrite ndiff_length; lia).
  specialize (E Hin). unfold np_isclose in E. rewrite !nabs_R, nhead_nth0, !ndiff_nth in E by lia.
  unfold nfrac in E. numR. apply Rleb_true in E. lra.
Qed.

Lemma equal_width_nth bins h i : (forall i, (S i < length bins)%nat -> nth0 (S i) bins - nth0 i bins = h) ->
  (i < length bins)%nat -> nth0 i bins = nth0 0 bins + INR i * h.
Proof.
  intros H. induction i; intros Hi; [simpl; lra|]. specialize (IHi ltac:(lia)). specialize (H i Hi).
  rewrite S_INR. lra.
Qed.

(** ** Lookup on equal widths: half-open bins [b_i, b_i+1) *)
Lemma lookup_uniform bins x i : increasing bins -> equal_width bins -> (S i < length bins)%nat ->
  nth0 i bins <= x < nth0 (S i) bins -> get_bin_indices bins x = (i, true).
Proof.
  intros Hs He Hi Hx. unfold get_bin_indices, get_bin_index_raw.
  rewrite widths_allclose by (auto; lia). destruct He as [h Hh].
  unfold bin_widths. rewrite !nhead_nth0, ndiff_nth by lia. rewrite (Hh 0%nat) by lia.
  assert (Hpos : 0 < h).
  { rewrite <- (Hh 0%nat) by lia. assert (nth0 0 bins < nth0 1 bins) by (apply inc_lt; auto; lia). lra. }
  assert (E1 := equal_width_nth bins h i Hh ltac:(lia)).
  assert (E2 := equal_width_nth bins h (S i) Hh ltac:(lia)). rewrite S_INR in E2.
  assert (F : nfloor ((x - nth0 0 bins) / h)%num = Z.of_nat i).
  { apply nfloor_unique. numR. rewrite <- INR_IZR_INZ.
    assert (E : (x - nth0 0 bins) = ((x - nth0 0 bins) / h) * h) by (field; lra). 
    split.
    - apply Rmult_le_reg_r with h; auto. lra.
    - apply Rmult_lt_reg_r with h; auto. lra. }
  rewrite F.
  assert (B : ((0 <=? Z.of_nat i) && (Z.of_nat i <? Z.of_nat (pred (length bins))))%Z = true).
  { apply andb_true_intro. split; [apply Z.leb_le|apply Z.ltb_lt]; lia. }
  rewrite B. f_equal. lia.
Qed.

Lemma lookup_uniform_out bins x : increasing bins -> equal_width bins -> (2 <= length bins)%nat ->
  x < nth0 0 bins \/ nlast bins <= x -> snd (get_bin_indices bins x) = false.
Proof.
  intros Hs He Hn Hx. unfold get_bin_indices, get_bin_index_raw. cbn [snd].
  rewrite widths_allclose by (auto; lia). destruct He as [h Hh].
  unfold bin_widths. rewrite !nhead_nth0, ndiff_nth by lia. rewrite (Hh 0%nat) by lia.
  assert (Hpos : 0 < h).
  { rewrite <- (Hh 0%nat) by lia. assert (nth0 0 bins < nth0 1 bins) by (apply inc_lt; auto; lia). lra. }
  rewrite nlast_nth0 in Hx. rewrite (equal_width_nth bins h (pred (length bins)) Hh) in Hx by lia.
  assert (E : (x - nth0 0 bins) = ((x - nth0 0 bins) / h) * h) by (field; lra).
  apply andb_false_iff. destruct Hx as [Hx|Hx]; [left; apply Z.leb_gt|right; apply Z.ltb_ge].
  - apply nfloor_lt. numR. apply Rmult_lt_reg_r with h; auto. lra.
  - apply nfloor_ge. numR. rewrite <- INR_IZR_INZ. apply Rmult_le_reg_r with h; auto. lra.
Qed.

(** ** Lookup on clearly unequal widths: bins (b_i, b_i+1] *)
Lemma lookup_irregular bins x i : increasing bins -> clearly_unequal bins -> (S i < length bins)%nat ->
  nth0 i bins < x <= nth0 (S i) bins -> get_bin_indices bins x = (i, true).
Proof.
  intros Hs He Hi Hx. unfold get_bin_indices, get_bin_index_raw.
  rewrite widths_not_allclose by (auto; lia).
  assert (E : searchsorted_left bins x = S i).
  { apply ssl_eq; [lia| |intros; lra]. intros k Hk. apply Rle_lt_trans with (nth0 i bins); [|lra].
    apply inc_le; auto. lia. }
  rewrite E.
  assert (B : ((0 <=? Z.of_nat (S i) - 1) && (Z.of_nat (S i) - 1 <? Z.of_nat (pred (length bins))))%Z = true).
  { apply andb_true_intro. split; [apply Z.leb_le|apply Z.ltb_lt]; lia. }
  rewrite B. f_equal. lia.
Qed.
Lemma lookup_irregular_out bins x : increasing bins -> clearly_unequal bins -> (2 <= length bins)%nat ->
  x <= nth0 0 bins \/ nlast bins < x -> snd (get_bin_indices bins x) = false.
Proof.
  intros Hs He Hn Hx. unfold get_bin_indices, get_bin_index_raw. cbn [snd].
  rewrite widths_not_allclose by auto.
  apply andb_false_iff. destruct Hx as [Hx|Hx]; [left; apply Z.leb_gt|right; apply Z.ltb_ge].
  - assert (E : searchsorted_left bins x = 0%nat) by (apply ssl_eq; [lia|lia|auto]). rewrite E. lia.
  - assert (E : searchsorted_left bins x = length bins).
    { apply ssl_eq; [lia| |lia]. intros. apply Rle_lt_trans with (nlast bins); auto.
      apply nondec_last; auto. apply inc_nd; auto. }
    rewrite E. lia.
Qed.

(** The index is always usable. *)
Lemma lookup_index_range (bins : list R) x : (2 <= length bins)%nat ->
  (fst (get_bin_indices bins x) < pred (length bins))%nat.
Proof. intros. unfold get_bin_indices. cbn [fst]. destruct (_ && _)%bool; lia. Qed.

(** Edge vectors on which the lookup is exact. *)
Definition sound_bins (bins : list R) : Prop := equal_width bins \/ clearly_unequal bins.

Lemma lookup_interior bins x i : increasing bins -> sound_bins bins -> (S i < length bins)%nat ->
  nth0 i bins < x < nth0 (S i) bins -> get_bin_indices bins x = (i, true).
Proof. intros Hs [H|H] Hi Hx; [apply lookup_uniform|apply lookup_irregular]; auto; lra. Qed.
Lemma lookup_out bins x : increasing bins -> sound_bins bins -> (2 <= length bins)%nat ->
  x < nth0 0 bins \/ nlast bins < x -> snd (get_bin_indices bins x) = false.
Proof. intros Hs [H|H] Hi Hx; [apply lookup_uniform_out|apply lookup_irregular_out]; auto; lra. Qed.
(** Whenever the mask is set the (closed) bin contains the point. *)
Lemma lookup_contains bins x i : increasing bins -> sound_bins bins -> (2 <= length bins)%nat ->
  get_bin_indices bins x = (i, true) -> nth0 i bins <= x <= nth0 (S i) bins /\ (S i < length bins)%nat.
Proof.
  intros Hs Hb Hn E.
  assert (Hr : (i < pred (length bins))%nat).
  { pose proof (lookup_index_range bins x Hn). rewrite E in H. auto. }
  split; [|lia].
  assert (Hin : nth0 0 bins <= x <= nlast bins).
  { destruct (Rlt_le_dec x (nth0 0 bins)).
    - pose proof (lookup_out bins x Hs Hb Hn (or_introl r)). rewrite E in H. discriminate.
    - destruct (Rlt_le_dec (nlast bins) x); [|lra].
      pose proof (lookup_out bins x Hs Hb Hn (or_intror r0)). rewrite E in H. discriminate. }
  destruct Hb as [Hb|Hb].
  - destruct (Rlt_le_dec x (nlast bins)).
    + destruct (segment_exists bins x) as (j & Hj & Hx); [apply inc_nd; auto|intros ->; simpl in Hn; lia|lra|].
      rewrite (lookup_uniform bins x j) in E by auto. inversion E; subst. lra.
    + pose proof (lookup_uniform_out bins x Hs Hb Hn (or_intror r)). rewrite E in H. discriminate.
  - destruct (Rlt_le_dec (nth0 0 bins) x).
    + destruct (segment_exists_closed bins x) as (j & Hj & Hx); [apply inc_nd; auto|auto|auto|].
      destruct (Req_dec x (nth0 j bins)) as [->|].
      * destruct j; [lra|]. rewrite (lookup_irregular bins _ j) in E; auto; [|lia|split; [apply inc_lt; auto; lia|lra]].
        inversion E; subst. split; [apply inc_le; auto; lia|lra].
      * rewrite (lookup_irregular bins x j) in E by (auto; lra). inversion E; subst. lra.
    + pose proof (lookup_irregular_out bins x Hs Hb Hn (or_introl r)). rewrite E in H. discriminate.
Qed.
