(** A cdf given by a table: the facts shared by every class that keeps one. *)
From Coq Require Import List Arith ZArith Bool Sorted Lia Reals Lra Psatz.
From Verif Require Import Num NumProofs Py NumpyLib SortProofs InterpProofs.
Import ListNotations.
Local Open Scope R_scope.

Section Table.
  Variables (xs c : list R).
  Hypothesis Hs : increasing xs.
  Hypothesis Hn : (2 <= length xs)%nat.
  Hypothesis Hl : length c = length xs.
  Hypothesis Hc : nondecreasing c.
  Hypothesis H0 : 0 <= nth0 0 c.
  Hypothesis H1 : nlast c = 1.
  Variables (lo hi : R).

  Definition tF (x : R) : R := interp1d xs c 0 1 x.
  Definition tQ (p : R) : R := interp1d c xs lo hi p.

  Lemma t_range : nth0 0 xs < nlast xs.
  Proof using Hs Hn. rewrite nlast_nth0. apply inc_lt; auto. clear -Hn. lia. Qed.
  Lemma tF_mono x y : x <= y -> tF x <= tF y.
  Proof. intros. apply interp1d_mono; auto. lra. Qed.
  Lemma tF_below x : x < nth0 0 xs -> tF x = 0.
  Proof. intros. apply interp1d_below; auto. Qed.
  Lemma tF_first : tF (nth0 0 xs) = nth0 0 c.
  Proof using Hs Hn. apply interp1d_knot; auto. clear -Hn. lia. Qed.
  Lemma tF_knot j : (j < length xs)%nat -> tF (nth0 j xs) = nth0 j c.
  Proof. intros. apply interp1d_knot; auto. Qed.
  Lemma tF_last : tF (nlast xs) = 1.
  Proof. unfold tF. rewrite interp1d_last; [|apply inc_nd; auto|intros E; rewrite E in Hn; simpl in Hn; lia].
    rewrite <- Hl, <- nlast_nth0. auto. Qed.
  Lemma tF_above x : nlast xs <= x -> tF x = 1.
  Proof.
    intros [L|E]; [apply interp1d_above; auto; pose proof t_range; lra|rewrite <- E; apply tF_last].
  Qed.
  Lemma tF_range x : 0 <= tF x <= 1.
  Proof.
    pose proof t_range. split.
    - destruct (Rlt_le_dec x (nth0 0 xs)); [rewrite tF_below; lra|].
      apply Rle_trans with (nth0 0 c); auto. rewrite <- tF_first. apply tF_mono. auto.
    - destruct (Rle_dec (nlast xs) x); [rewrite tF_above; lra|].
      rewrite <- tF_last. apply tF_mono. lra.
  Qed.
  Lemma tFQ p : nth0 0 c <= p < 1 -> tF (tQ p) = p.
  Proof. intros. apply interp1d_right_inverse; auto. rewrite H1. lra. Qed.
  Lemma tQ_range p : nth0 0 c <= p < 1 -> nth0 0 xs <= tQ p <= nlast xs.
  Proof.
    intros Hp.
    destruct (segment_exists c p) as (j & Hj & Hx); auto.
    - intros E. rewrite E in Hl. simpl in Hl. lia.
    - rewrite H1. auto.
    - unfold tQ. rewrite (interp1d_seg c xs lo hi p j) by auto. rewrite Hl in Hj.
      assert (nth0 0 xs <= nth0 j xs) by (apply inc_le; auto; lia).
      assert (nth0 (S j) xs <= nlast xs) by (rewrite nlast_nth0; apply inc_le; auto; lia).
      assert (nth0 j xs < nth0 (S j) xs) by (apply inc_lt; auto; lia).
      destruct Hx as [Hx0 Hx1].
      assert (B : nth0 j xs <= seg (nth0 j c) (nth0 (S j) c) (nth0 j xs) (nth0 (S j) xs) p <= nth0 (S j) xs)
        by (apply seg_between; [lra|split; lra|lra]).
      destruct B. split; lra.
  Qed.
  Lemma tQ_low p : p < nth0 0 c -> tQ p = lo.
  Proof. intros. apply interp1d_below. auto. Qed.
  Lemma tQ_mono p q : nth0 0 c <= p -> p <= q -> q < 1 -> tQ p <= tQ q.
  Proof.
    intros Hp Hpq Hq. destruct (Rle_dec (tQ p) (tQ q)); auto.
    assert (E : tF (tQ q) <= tF (tQ p)) by (apply tF_mono; lra).
    rewrite !tFQ in E by lra. assert (p = q) by lra. subst. lra.
  Qed.
  Lemma tQF x j : (S j < length xs)%nat -> nth0 j c < nth0 (S j) c ->
    nth0 j xs <= x < nth0 (S j) xs -> tQ (tF x) = x.
  Proof. intros. apply interp1d_left_inverse with (j := j); auto. Qed.
End Table.

(** Scaling a row scales its interpolation. *)
Lemma nth0_map_div (l : list R) (k : R) i : nth0 i (map (fun y => y / k) l) = nth0 i l / k.
Proof.
  unfold nth0. replace (@n0 R _) with ((fun y => y / k) (@n0 R _)) at 1 by (numR; unfold Rdiv; ring).
  apply (map_nth (fun y => y / k)).
Qed.
Lemma nlast_map_div (l : list R) k : nlast (map (fun y => y / k) l) = nlast l / k.
Proof. rewrite !nlast_nth0, map_length. apply nth0_map_div. Qed.
Lemma nondec_map_div (l : list R) k : 0 < k -> nondecreasing l -> nondecreasing (map (fun y => y / k) l).
Proof.
  intros Hk H. apply (nth_ss Rle). intros i j Hij. rewrite map_length in Hij. rewrite !nth0_map_div.
  apply Rmult_le_compat_r; [apply Rlt_le, Rinv_0_lt_compat; auto|]. apply nd_le; auto. lia.
Qed.
