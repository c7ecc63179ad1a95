(** The ranges of the chunked iterator cover every row exactly once. *)
From Coq Require Import List Arith Bool Lia Permutation.
From Verif Require Import Py Hdf5.
Import ListNotations.

Lemma flat_map_none {A B} (f : A -> list B) l : (forall a, In a l -> f a = []) -> flat_map f l = [].
Proof. induction l as [|a l IH]; intros H; [reflexivity|]. simpl. rewrite (H a) by (left; reflexivity). apply IH. intros b Hb. apply H. right. exact Hb. Qed.

Lemma flat_map_flat_map {A B C} (f : B -> list C) (g : A -> list B) l : flat_map f (flat_map g l) = flat_map (fun a => flat_map f (g a)) l.
Proof. induction l as [|a l IH]; [reflexivity|]. simpl. rewrite flat_map_app, IH. reflexivity. Qed.
Lemma flat_map_map {A B C} (f : B -> list C) (g : A -> B) l : flat_map f (map g l) = flat_map (fun a => f (g a)) l.
Proof. induction l as [|a l IH]; [reflexivity|]. simpl. rewrite IH. reflexivity. Qed.

Lemma by_rank (size : nat) (l : list nat) : (0 < size)%nat ->
  Permutation (flat_map (fun r => filter (fun i => i mod size =? r) l) (seq 0 size)) l.
Proof.
  intros Hs. induction l as [|x l IH].
  - rewrite flat_map_none; auto.
  - assert (Hx : x mod size < size) by (apply Nat.mod_upper_bound; lia).
    set (q := x mod size) in *.
    assert (E : seq 0 size = seq 0 q ++ q :: seq (S q) (size - S q)).
    { replace size with (q + S (size - S q)) at 1 by lia. rewrite seq_app. reflexivity. }
    rewrite E in *. rewrite flat_map_app in *. cbn [flat_map] in *.
    assert (G : forall ls, (forall r, In r ls -> r <> q) -> flat_map (fun r => filter (fun i => i mod size =? r) (x :: l)) ls = flat_map (fun r => filter (fun i => i mod size =? r) l) ls).
    { intros ls Hls. induction ls as [|r ls IHls]; [reflexivity|]. cbn [flat_map]. rewrite IHls by (intros r' Hr'; apply Hls; right; exact Hr').
      f_equal. cbn [filter]. fold q. destruct (Nat.eqb_spec q r) as [->|_]; [exfalso; apply (Hls r); [left|]; auto|]. reflexivity. }
    rewrite !G; [|intros r Hr; apply in_seq in Hr; lia|intros r Hr; apply in_seq in Hr; lia].
    cbn [filter]. fold q. rewrite Nat.eqb_refl. cbn [app].
    apply Permutation_sym, Permutation_cons_app, Permutation_sym. exact IH.
Qed.

Lemma chunk_bound n chunk : (0 < chunk)%nat -> (n <= n_chunks n chunk * chunk)%nat.
Proof.
  intros Hc. unfold n_chunks. pose proof (Nat.div_mod n chunk ltac:(lia)) as E. pose proof (Nat.mod_upper_bound n chunk ltac:(lia)).
  destruct (Nat.eqb_spec (n mod chunk) 0); nia.
Qed.
Lemma chunk_start n chunk i : (0 < chunk)%nat -> (i < n_chunks n chunk)%nat -> (i * chunk < n)%nat.
Proof.
  intros Hc. unfold n_chunks. pose proof (Nat.div_mod n chunk ltac:(lia)) as E. pose proof (Nat.mod_upper_bound n chunk ltac:(lia)).
  destruct (Nat.eqb_spec (n mod chunk) 0); nia.
Qed.
Lemma ranges_in_order n chunk m : (0 < chunk)%nat ->
  flat_map (fun i => seq (i * chunk) (Nat.min ((i + 1) * chunk) n - i * chunk)) (seq 0 m) = seq 0 (Nat.min (m * chunk) n).
Proof.
  intros Hc. induction m as [|m IH]; [reflexivity|]. rewrite seq_S, flat_map_app, IH. cbn [flat_map]. rewrite app_nil_r. cbn [plus].
  destruct (Nat.le_gt_cases n (m * chunk)) as [H|H].
  - replace (Nat.min ((m + 1) * chunk) n - m * chunk) with 0 by nia. replace (Nat.min (S m * chunk) n) with (Nat.min (m * chunk) n) by nia.
    rewrite app_nil_r. reflexivity.
  - rewrite Nat.min_l by lia. replace (Nat.min (S m * chunk) n) with (m * chunk + (Nat.min ((m + 1) * chunk) n - m * chunk)) by nia.
    rewrite seq_app. reflexivity.
Qed.

(** The rows of a range, and of the ranges of a rank *)
Definition rows_in (r : nat * nat) : list nat := seq (fst r) (snd r - fst r).
Definition ranges_of (n chunk size rank : nat) : list (nat * nat) :=
  match data_ranges n chunk size rank with Ok l => l | Err _ => [] end.

Lemma ranges_ok n chunk size rank : (0 < chunk)%nat -> (0 < size)%nat ->
  data_ranges n chunk size rank = Ok (map (fun i => (i * chunk, Nat.min ((i + 1) * chunk) n)) (tasks_of_rank (n_chunks n chunk) size rank)).
Proof.
  intros Hc Hs. unfold data_ranges. destruct (Nat.eqb_spec chunk 0); [lia|]. destruct (Nat.eqb_spec size 0); [lia|]. reflexivity.
Qed.
Lemma c25_partition : forall n chunk size, (0 < chunk)%nat -> (0 < size)%nat ->
  (forall rank, data_ranges n chunk size rank = Ok (ranges_of n chunk size rank)) /\
  Permutation (flat_map (fun rank => flat_map rows_in (ranges_of n chunk size rank)) (seq 0 size)) (seq 0 n).
Proof.
  intros n chunk size Hc Hs. split; [intros rank; unfold ranges_of; rewrite ranges_ok by assumption; reflexivity|].
  transitivity (flat_map (fun i => seq (i * chunk) (Nat.min ((i + 1) * chunk) n - i * chunk)) (seq 0 (n_chunks n chunk))).
  - transitivity (flat_map (fun i => seq (i * chunk) (Nat.min ((i + 1) * chunk) n - i * chunk)) (flat_map (fun rank => tasks_of_rank (n_chunks n chunk) size rank) (seq 0 size))).
    + rewrite flat_map_flat_map. apply Permutation_refl'. apply flat_map_ext. intros rank. unfold ranges_of. rewrite ranges_ok by assumption.
      rewrite flat_map_map. reflexivity.
    + apply Permutation_flat_map. unfold tasks_of_rank. apply by_rank. exact Hs.
  - rewrite ranges_in_order by exact Hc. rewrite Nat.min_r by (apply chunk_bound; exact Hc). reflexivity.
Qed.

(** Every range is non-empty, has at most [chunk] rows and stays inside the file. *)
Lemma range_facts n chunk size rank a b : (0 < chunk)%nat -> (0 < size)%nat -> In (a, b) (ranges_of n chunk size rank) ->
  (a < b)%nat /\ (b <= n)%nat /\ (b - a <= chunk)%nat.
Proof.
  intros Hc Hs. unfold ranges_of. rewrite ranges_ok by assumption. intros H. apply in_map_iff in H. destruct H as (i & E & Hi). injection E as <- <-.
  unfold tasks_of_rank in Hi. apply filter_In in Hi. destruct Hi as [Hi _]. apply in_seq in Hi.
  pose proof (chunk_start n chunk i Hc ltac:(lia)). nia.
Qed.
(** All but the last range have exactly [chunk] rows and start at a multiple of it. *)
Lemma range_form n chunk size rank a b : (0 < chunk)%nat -> (0 < size)%nat -> In (a, b) (ranges_of n chunk size rank) ->
  (exists i, a = i * chunk /\ i mod size = rank) /\ (b = a + chunk \/ b = n)%nat.
Proof.
  intros Hc Hs. unfold ranges_of. rewrite ranges_ok by assumption. intros H. apply in_map_iff in H. destruct H as (i & E & Hi). injection E as <- <-.
  unfold tasks_of_rank in Hi. apply filter_In in Hi. destruct Hi as [Hi Hr]. apply Nat.eqb_eq in Hr. split; [exists i; auto|]. nia.
Qed.
