(** Metrics from digests (C111 - C113). *)
From Coq Require Import QArith String List Arith ZArith Bool Sorted Permutation Lia Reals Lra.
From Verif Require Import Num NumProofs Py NdArray NumpyLib ScipyWrap Spec Values SortProofs EvalProofs InterpProofs MixmodTheorems
  HistProofs QuantPdf FitProofs PointMetrics PointProofs PointTheorems Digest.
Import ListNotations.
Local Open Scope list_scope.
Local Open Scope R_scope.

(** ** Specification *)
(** an order [np.argsort] may return *)
Definition sorts (argsort : list R -> list nat) : Prop :=
  forall l, Permutation (argsort l) (seq 0 (length l)) /\ StronglySorted Rle (map (fun i => nth i l 0) (argsort l)).
(** the number in [lo, hi] nearest to x *)
Definition clamp (lo hi x : R) : R := Rmax lo (Rmin hi x).
(** the probability a distribution function G on [lo, hi] gives to the points within t of m *)
Definition near (G : R -> R) (lo hi m t : R) : R := G (clamp lo hi (m + t)) - G (clamp lo hi (m - t)).
Definition monotone (G : R -> R) : Prop := forall x y, x <= y -> G x <= G y.

Lemma nth_firstn' {A} (l : list A) m j d : (j < m)%nat -> nth j (firstn m l) d = nth j l d.
Proof. revert m j. induction l as [|a l IH]; intros m j H; [rewrite firstn_nil; destruct j; reflexivity|]. destruct m; [lia|]. cbn [firstn]. destruct j; [reflexivity|]. apply IH. lia. Qed.
Lemma nth_skipn' {A} (l : list A) m j d : nth j (skipn m l) d = nth (m + j) l d.
Proof. revert l. induction m as [|m IH]; intros l; [reflexivity|]. destruct l as [|a l]; [cbn; destruct j; reflexivity|]. cbn [skipn Nat.add nth]. apply IH. Qed.
(** ** Sums over lists of indices *)
Definition lsum (f : nat -> R) (l : list nat) : R := fold_right (fun j acc => f j + acc) 0 l.
Lemma lsum_app f a b : lsum f (a ++ b) = lsum f a + lsum f b.
Proof. induction a as [|x a IH]; [symmetry; apply Rplus_0_l|]. change (f x + lsum f (a ++ b) = f x + lsum f a + lsum f b). rewrite IH. ring. Qed.
Lemma lsum_perm f a b : Permutation a b -> lsum f a = lsum f b.
Proof. induction 1; cbn in *; unfold lsum in *; lra. Qed.
Lemma lsum_le f g l : (forall j, In j l -> f j <= g j) -> lsum f l <= lsum g l.
Proof. induction l as [|x l IH]; intros H; cbn; [lra|]. fold (lsum f l) (lsum g l). specialize (IH ltac:(intros; apply H; right; assumption)). specialize (H x ltac:(left; reflexivity)). lra. Qed.
Lemma lsum_zero f l : (forall j, In j l -> f j = 0) -> lsum f l = 0.
Proof. induction l as [|x l IH]; intros H; cbn; [lra|]. fold (lsum f l). rewrite IH, (H x) by (try (left; reflexivity); intros; apply H; right; assumption). lra. Qed.
Lemma lsum_nonneg f l : (forall j, In j l -> 0 <= f j) -> 0 <= lsum f l.
Proof. induction l as [|x l IH]; intros H; cbn; [lra|]. fold (lsum f l). specialize (IH ltac:(intros; apply H; right; assumption)). specialize (H x ltac:(left; reflexivity)). lra. Qed.
Lemma lsum_ext f g l : (forall j, In j l -> f j = g j) -> lsum f l = lsum g l.
Proof. intros H. apply Rle_antisym; apply lsum_le; intros j Hj; rewrite (H j Hj); lra. Qed.
Lemma lsum_tele (u : nat -> R) n : lsum (fun j => u (S j) - u j) (seq 0 n) = u n - u 0%nat.
Proof. induction n as [|n IH]; [cbn; lra|]. rewrite seq_S, lsum_app, IH. cbn. lra. Qed.

Lemma cumsum_length (acc : R) l : length (cumsum_from acc l) = length l.
Proof. revert acc. induction l as [|x l IH]; intros acc; cbn; [reflexivity|]. rewrite IH. reflexivity. Qed.
Lemma cumsum_nth (f : nat -> R) idx : forall acc k, (k < length idx)%nat -> nth0 k (cumsum_from acc (map f idx)) = acc + lsum f (firstn (S k) idx).
Proof.
  induction idx as [|i idx IH]; intros acc k Hk; [cbn in Hk; lia|]. cbn [map cumsum_from]. cbn [nadd RNum]. destruct k as [|k].
  - unfold nth0. cbn. destruct idx; cbn; lra.
  - change (nth0 (S k) (?a :: ?l)) with (nth0 k l). cbn [length] in Hk. unfold nth0 in *. cbn [nth]. rewrite IH by lia. cbn [firstn lsum fold_right]. fold (lsum f (firstn (S k) idx)). destruct idx as [|i' idx]; [cbn in *; lia|]. cbn [firstn lsum fold_right]. lra.
Qed.
Lemma map2_adj {B} (f : R -> R -> B) l : map2 f (removelast l) (tl l) = map (fun j => f (nth j l 0) (nth (S j) l 0)) (seq 0 (pred (length l))).
Proof.
  induction l as [|a l IH]; [reflexivity|]. destruct l as [|b l]; [reflexivity|]. change (removelast (a :: b :: l)) with (a :: removelast (b :: l)). change (tl (a :: b :: l)) with (b :: l).
  cbn [map2]. change l with (tl (b :: l)) at 2. rewrite IH. cbn [length pred seq map nth]. f_equal. rewrite <- seq_shift, map_map. reflexivity.
Qed.

(** ** The chosen bin *)
Section Chosen.
  Variables (argsort : list R -> list nat) (dist pdf : nat -> R) (K : nat).
  Hypothesis Hs : sorts argsort.
  Hypothesis Hpdf : forall j, (j < K)%nat -> 0 <= pdf j.
  Let dl := map dist (seq 0 K).
  Let idx := argsort dl.
  Definition chosen : option R :=
    let k := searchsorted_left (cumsum_from 0 (map pdf idx)) (1 / 2) in if (k <? length idx)%nat then Some (nth k (map dist idx) 0) else None.
  Lemma dl_len : length dl = K. Proof using. unfold dl. rewrite map_length, seq_length. reflexivity. Qed.
  Lemma idx_perm : Permutation idx (seq 0 K).
  Proof using Hs. unfold idx. rewrite <- dl_len. apply Hs. Qed.
  Lemma idx_in j : In j idx -> (j < K)%nat.
  Proof using Hs. intros H. apply (Permutation_in _ idx_perm) in H. apply in_seq in H. lia. Qed.
  Lemma dl_nth j : (j < K)%nat -> nth j dl 0 = dist j.
  Proof using. intros H. unfold dl. rewrite nth_indep with (d' := dist 0%nat) by (rewrite map_length, seq_length; exact H). rewrite map_nth, seq_nth by exact H. reflexivity. Qed.
  Lemma idx_sorted : StronglySorted Rle (map dist idx).
  Proof using Hs.
    replace (map dist idx) with (map (fun i => nth i dl 0) idx); [apply Hs|]. apply map_ext_in. intros j Hj. apply dl_nth, idx_in, Hj.
  Qed.
  Lemma sorted_nth l i j : StronglySorted Rle l -> (i <= j)%nat -> (j < length l)%nat -> nth i l 0 <= nth j l 0.
  Proof using.
    intros H. revert i j. induction H as [|a l Hl IH Hf]; intros i j Hij Hj; [cbn in Hj; lia|]. destruct i, j; cbn [nth length] in *; [lra| |lia|apply IH; lia].
    rewrite List.Forall_forall in Hf. apply Hf. apply nth_In. lia.
  Qed.
  Lemma idx_len : length idx = K.
  Proof using Hs. rewrite (Permutation_length idx_perm), seq_length. reflexivity. Qed.
  Lemma chosen_some s : chosen = Some s ->
    1 / 2 <= lsum (fun j => if Rle_dec (dist j) s then pdf j else 0) (seq 0 K) /\ lsum (fun j => if Rlt_dec (dist j) s then pdf j else 0) (seq 0 K) < 1 / 2 /\
    exists j, (j < K)%nat /\ s = dist j.
  Proof using Hs Hpdf.
    unfold chosen. set (cum := cumsum_from 0 (map pdf idx)). set (k := searchsorted_left cum (1 / 2)). destruct (Nat.ltb_spec k (length idx)) as [Hk|Hk]; [|discriminate]. intros E. injection E as E.
    assert (Lc : length cum = length idx) by (unfold cum; rewrite cumsum_length, map_length; reflexivity).
    assert (Hd : forall i, (i < length idx)%nat -> nth i (map dist idx) 0 = dist (nth i idx 0%nat)) by (intros i Hi; rewrite nth_indep with (d' := dist 0%nat) by (rewrite map_length; exact Hi); apply map_nth).
    assert (Hin : forall i, (i < length idx)%nat -> In (nth i idx 0%nat) idx) by (intros i Hi; apply nth_In; exact Hi).
    split; [|split].
    - assert (Hc : 1 / 2 <= nth0 k cum) by (apply ssl_at; rewrite Lc; exact Hk). unfold cum in Hc. rewrite cumsum_nth in Hc by exact Hk.
      rewrite <- (lsum_perm _ _ _ idx_perm), <- (firstn_skipn (S k) idx), lsum_app.
      assert (0 <= lsum (fun j => if Rle_dec (dist j) s then pdf j else 0) (skipn (S k) idx)). { apply lsum_nonneg. intros j Hj. destruct (Rle_dec _ _); [|lra]. apply Hpdf, idx_in. rewrite <- (firstn_skipn (S k) idx). apply in_or_app. right. exact Hj. }
      replace (lsum (fun j => if Rle_dec (dist j) s then pdf j else 0) (firstn (S k) idx)) with (lsum pdf (firstn (S k) idx)); [lra|]. apply lsum_ext. intros j Hj.
      destruct (In_nth _ _ 0%nat Hj) as (i & Hi & <-). rewrite firstn_length in Hi. rewrite nth_firstn' by lia. destruct (Rle_dec _ _) as [|Hn]; [reflexivity|]. exfalso. apply Hn. rewrite <- E, <- Hd by lia. apply sorted_nth; [apply idx_sorted|lia|rewrite map_length; lia].
    - rewrite <- (lsum_perm _ _ _ idx_perm), <- (firstn_skipn k idx), lsum_app. rewrite (lsum_zero _ (skipn k idx)).
      + assert (Hlt : lsum pdf (firstn k idx) < 1 / 2).
        { destruct k as [|k'] eqn:Ek; [cbn; lra|]. assert (Hb : nth0 k' cum < 1 / 2) by (apply ssl_below; fold k; lia). unfold cum in Hb. rewrite cumsum_nth in Hb by lia. lra. }
        assert (lsum (fun j => if Rlt_dec (dist j) s then pdf j else 0) (firstn k idx) <= lsum pdf (firstn k idx)); [|lra]. apply lsum_le. intros j Hj. destruct (Rlt_dec _ _); [lra|]. apply Hpdf, idx_in. rewrite <- (firstn_skipn k idx). apply in_or_app. left. exact Hj.
      + intros j Hj. destruct (In_nth _ _ 0%nat Hj) as (i & Hi & <-). rewrite skipn_length in Hi. rewrite nth_skipn'. destruct (Rlt_dec _ _) as [Hn|]; [|reflexivity]. exfalso.
        assert (nth k (map dist idx) 0 <= nth (k + i) (map dist idx) 0) by (apply sorted_nth; [apply idx_sorted|lia|rewrite map_length; lia]). rewrite (Hd (k + i)%nat) in H by lia. lra.
    - exists (nth k idx 0%nat). split; [apply idx_in, Hin, Hk|]. rewrite <- E. apply Hd. exact Hk.
  Qed.
  Lemma chosen_none : chosen = None <-> lsum pdf (seq 0 K) < 1 / 2.
  Proof using Hs Hpdf.
    unfold chosen. set (cum := cumsum_from 0 (map pdf idx)). set (k := searchsorted_left cum (1 / 2)).
    assert (Lc : length cum = length idx) by (unfold cum; rewrite cumsum_length, map_length; reflexivity).
    rewrite <- (lsum_perm _ _ _ idx_perm). destruct (Nat.ltb_spec k (length idx)) as [Hk|Hk]; split; intros H; try discriminate; try reflexivity.
    - exfalso. assert (Hc : 1 / 2 <= nth0 k cum) by (apply ssl_at; rewrite Lc; exact Hk). unfold cum in Hc. rewrite cumsum_nth in Hc by exact Hk. rewrite <- (firstn_skipn (S k) idx), lsum_app in H.
      assert (0 <= lsum pdf (skipn (S k) idx)); [|lra]. apply lsum_nonneg. intros j Hj. apply Hpdf, idx_in. rewrite <- (firstn_skipn (S k) idx). apply in_or_app. right. exact Hj.
    - clear H. destruct (length idx) as [|n] eqn:El; [apply length_zero_iff_nil in El; rewrite El; cbn; lra|].
      assert (Hb : nth0 n cum < 1 / 2) by (apply ssl_below; fold k; lia). unfold cum in Hb. rewrite cumsum_nth in Hb by lia. rewrite <- El, firstn_all in Hb. lra.
  Qed.
End Chosen.
Lemma chosen_unique dist pdf K a a' : sorts a -> sorts a' -> (forall j, (j < K)%nat -> 0 <= pdf j) -> chosen a dist pdf K = chosen a' dist pdf K.
Proof.
  intros Ha Ha' Hp. destruct (chosen a dist pdf K) as [s|] eqn:E, (chosen a' dist pdf K) as [s'|] eqn:E'; [|exfalso|exfalso|reflexivity].
  - f_equal. destruct (chosen_some a dist pdf K Ha Hp s E) as (A1 & A2 & _). destruct (chosen_some a' dist pdf K Ha' Hp s' E') as (B1 & B2 & _).
    assert (G : forall u v, u < v -> 1 / 2 <= lsum (fun j => if Rle_dec (dist j) u then pdf j else 0) (seq 0 K) -> lsum (fun j => if Rlt_dec (dist j) v then pdf j else 0) (seq 0 K) < 1 / 2 -> False).
    { intros u v Huv H1 H2. assert (lsum (fun j => if Rle_dec (dist j) u then pdf j else 0) (seq 0 K) <= lsum (fun j => if Rlt_dec (dist j) v then pdf j else 0) (seq 0 K)); [|lra]. apply lsum_le. intros j Hj. apply in_seq in Hj. specialize (Hp j ltac:(lia)). destruct (Rle_dec _ _), (Rlt_dec _ _); lra. }
    destruct (Rtotal_order s s') as [H|[H|H]]; [exfalso; eapply G; eassumption|exact H|exfalso; eapply G; eassumption].
  - apply (chosen_none a' dist pdf K Ha' Hp) in E'. apply (chosen_none a dist pdf K Ha Hp) in E'. congruence.
  - apply (chosen_none a dist pdf K Ha Hp) in E. apply (chosen_none a' dist pdf K Ha' Hp) in E. congruence.
Qed.

(** ** The median absolute deviation of a digest *)
Section Mad.
  Variables (d : digest R) (p : nat).
  Let lo := d_inv d 0.
  Let hi := d_inv d 1.
  Let m := d_inv d (1 / 2).
  Let G := d_cdf d.
  Let w := (hi - lo) / INR (S p).
  Let b (j : nat) : R := lo + INR j * w.
  Let dist (j : nat) : R := Rabs ((b j + b (S j)) / 2 - m).
  Let pdf (j : nat) : R := G (b (S j)) - G (b j).
  Lemma mad_chosen argsort : sorts argsort -> mad_digest argsort (S (S p)) d = match chosen argsort dist pdf (S p) with Some s => Ok (s * 1.4826) | None => Err IndexError end.
  Proof using.
    intros Hs. unfold mad_digest. cbv zeta. rewrite nhalf_R. change (@n0 R RNum) with 0. change (@n1 R RNum) with 1. fold lo hi m. rewrite !map2_adj, map_map, linspace_length. cbn [pred].
    assert (Hb : forall j, (j <= S p)%nat -> nth j (np_linspace lo hi (S (S p))) 0 = b j) by (intros j Hj; apply linspace_nth; lia).
    set (P := map _ (seq 0 (S p))). assert (EP : P = map pdf (seq 0 (S p))). { unfold P. apply map_ext_in. intros j Hj. apply in_seq in Hj. rewrite !Hb by lia. reflexivity. }
    set (D := map _ (seq 0 (S p))). assert (ED : D = map dist (seq 0 (S p))). { unfold D. apply map_ext_in. intros j Hj. apply in_seq in Hj. rewrite !Hb by lia. apply nabs_R. }
    rewrite ED, EP. clear D ED P EP. unfold chosen. set (idx := argsort (map dist (seq 0 (S p)))). pose proof (idx_in argsort dist (S p) Hs) as Hi. fold idx in Hi.
    assert (N : forall f j, In j idx -> nth0 j (map f (seq 0 (S p))) = f j). { intros f j Hj. specialize (Hi j Hj). unfold nth0. rewrite nth_indep with (d' := f 0%nat) by (rewrite map_length, seq_length; exact Hi). rewrite map_nth, seq_nth by exact Hi. reflexivity. }
    rewrite (map_ext_in _ dist idx (N dist)), (map_ext_in _ pdf idx (N pdf)), map_length. destruct (_ <? _)%nat; [|reflexivity]. unfold nth0. cbn [nmul RNum]. rewrite frac_R. reflexivity.
  Qed.
  Hypothesis HG : monotone G.
  Hypothesis Hlh : lo <= hi.
  Lemma w_pos : 0 <= w.
  Proof using Hlh. unfold w. apply Rmult_le_pos; [lra|]. apply Rlt_le, Rinv_0_lt_compat, lt_0_INR. lia. Qed.
  Lemma b_step j : b (S j) = b j + w.
  Proof using. unfold b. rewrite S_INR. lra. Qed.
  Lemma pdf_nonneg j : 0 <= pdf j.
  Proof using HG Hlh. unfold pdf. rewrite b_step. pose proof w_pos. pose proof (HG (b j) (b j + w) ltac:(lra)). lra. Qed.
  Lemma b_last : b (S p) = hi.
  Proof using. unfold b, w. field. apply not_0_INR. lia. Qed.
  Lemma b_first : b 0 = lo.
  Proof using. unfold b. cbn [INR]. lra. Qed.
  Lemma pdf_total : lsum pdf (seq 0 (S p)) = G hi - G lo.
  Proof using. unfold pdf. rewrite (lsum_tele (fun j => G (b j))), b_last, b_first. reflexivity. Qed.
  Hypothesis Hm : lo <= m <= hi.
  Lemma near_sum t : 0 <= t -> near G lo hi m t = lsum (fun j => G (clamp (m - t) (m + t) (b (S j))) - G (clamp (m - t) (m + t) (b j))) (seq 0 (S p)).
  Proof using Hlh Hm.
    intros Ht. rewrite (lsum_tele (fun j => G (clamp (m - t) (m + t) (b j)))), b_last, b_first. unfold near. apply f_equal2; apply f_equal; unfold clamp, Rmax, Rmin; repeat destruct (Rle_dec _ _); lra.
  Qed.
  Lemma mad_value s argsort : sorts argsort -> chosen argsort dist pdf (S p) = Some s ->
    0 <= s /\ 1 / 2 <= near G lo hi m (s + w / 2) /\ (w / 2 < s -> near G lo hi m (s - w / 2) < 1 / 2).
  Proof using HG Hlh Hm.
    intros Hs E. destruct (chosen_some argsort dist pdf (S p) Hs ltac:(intros; apply pdf_nonneg) s E) as (H1 & H2 & j0 & _ & Ej). pose proof w_pos as Hw.
    assert (Hs0 : 0 <= s) by (rewrite Ej; apply Rabs_pos). split; [exact Hs0|]. split.
    - rewrite near_sum by lra. eapply Rle_trans; [exact H1|]. apply lsum_le. intros j _. unfold dist, pdf. rewrite b_step. set (x := b j). set (A := m - (s + w / 2)). set (B := m + (s + w / 2)).
      assert (Hc : clamp A B x <= clamp A B (x + w)) by (unfold clamp, Rmax, Rmin; repeat destruct (Rle_dec _ _); lra). destruct (Rle_dec _ _) as [Hd|Hd]; [|pose proof (HG _ _ Hc); lra].
      replace (clamp A B x) with x; [replace (clamp A B (x + w)) with (x + w); [lra|]|]; unfold Rabs in Hd; destruct (Rcase_abs _); unfold clamp, Rmax, Rmin, A, B; repeat destruct (Rle_dec _ _); lra.
    - intros Hws. rewrite near_sum by lra. eapply Rle_lt_trans; [|exact H2]. apply lsum_le. intros j _. unfold dist, pdf. rewrite b_step. set (x := b j). set (A := m - (s - w / 2)). set (B := m + (s - w / 2)).
      destruct (Rlt_dec _ _) as [Hd|Hd].
      + destruct (Rle_dec (x + w) A) as [C1|C1]; [|destruct (Rle_dec B x) as [C2|C2]].
        * replace (clamp A B (x + w)) with A by (unfold clamp, Rmax, Rmin, A, B in *; repeat destruct (Rle_dec _ _); lra). replace (clamp A B x) with A by (unfold clamp, Rmax, Rmin, A, B in *; repeat destruct (Rle_dec _ _); lra). pose proof (HG x (x + w) ltac:(lra)). lra.
        * replace (clamp A B (x + w)) with B by (unfold clamp, Rmax, Rmin, A, B in *; repeat destruct (Rle_dec _ _); lra). replace (clamp A B x) with B by (unfold clamp, Rmax, Rmin, A, B in *; repeat destruct (Rle_dec _ _); lra). pose proof (HG x (x + w) ltac:(lra)). lra.
        * pose proof (HG (clamp A B (x + w)) (x + w) ltac:(unfold clamp, Rmax, Rmin, A, B in *; repeat destruct (Rle_dec _ _); lra)). pose proof (HG x (clamp A B x) ltac:(unfold clamp, Rmax, Rmin, A, B in *; repeat destruct (Rle_dec _ _); lra)). lra.
      + replace (clamp A B (x + w)) with (clamp A B x); [lra|]. unfold Rabs in Hd. destruct (Rcase_abs _); unfold clamp, Rmax, Rmin, A, B in *; repeat destruct (Rle_dec _ _); lra.
  Qed.
End Mad.
(** C112 *)
Lemma c112_mad : forall argsort n d, sorts argsort -> (2 <= n)%nat -> monotone (d_cdf d) ->
  let lo := d_inv d 0 in let hi := d_inv d 1 in let m := d_inv d (1 / 2) in let w := (hi - lo) / (INR n - 1) in
  lo <= m <= hi -> 1 / 2 <= d_cdf d hi - d_cdf d lo ->
  exists s, mad_digest argsort n d = Ok (s * 1.4826) /\ 0 <= s /\ 1 / 2 <= near (d_cdf d) lo hi m (s + w / 2) /\ (w / 2 < s -> near (d_cdf d) lo hi m (s - w / 2) < 1 / 2).
Proof.
  intros argsort n d Hs Hn HG lo hi m w Hm Hh. destruct n as [|[|p]]; try lia.
  assert (Ew : w = (hi - lo) / INR (S p)) by (unfold w; f_equal; rewrite (S_INR (S p)); lra). rewrite Ew.
  rewrite (mad_chosen d p argsort Hs). destruct (chosen _ _ _ _) as [s|] eqn:E.
  - exists s. split; [reflexivity|]. eapply (mad_value d p HG); [fold lo; fold hi; lra|exact Hm|exact Hs|exact E].
  - exfalso. apply chosen_none in E; [|exact Hs|intros; apply (pdf_nonneg d p HG); fold lo; fold hi; lra]. rewrite (pdf_total d p) in E. fold lo in E. fold hi in E. lra.
Qed.
Lemma c112_raises : forall argsort n d, sorts argsort -> monotone (d_cdf d) -> d_inv d 0 <= d_inv d 1 ->
  (n < 2)%nat \/ d_cdf d (d_inv d 1) - d_cdf d (d_inv d 0) < 1 / 2 -> mad_digest argsort n d = Err IndexError.
Proof.
  intros argsort n d Hs HG Hlh H. destruct n as [|[|p]].
  - unfold mad_digest. cbv zeta. cbn [np_linspace removelast tl map2 map]. destruct (Hs []) as [Hp _]. cbn [length seq] in Hp. apply Permutation_sym, Permutation_nil in Hp. rewrite Hp. reflexivity.
  - unfold mad_digest. cbv zeta. cbn [np_linspace removelast tl map2 map]. destruct (Hs []) as [Hp _]. cbn [length seq] in Hp. apply Permutation_sym, Permutation_nil in Hp. rewrite Hp. reflexivity.
  - destruct H as [H|H]; [lia|]. rewrite (mad_chosen d p argsort Hs). destruct (chosen _ _ _ _) as [s|] eqn:E; [|reflexivity]. exfalso.
    rewrite (proj2 (chosen_none argsort _ _ (S p) Hs ltac:(intros; apply (pdf_nonneg d p HG Hlh)))) in E; [discriminate|]. rewrite (pdf_total d p). exact H.
Qed.
Lemma c112_constant : forall argsort n d, sorts argsort -> monotone (d_cdf d) -> d_inv d 0 = d_inv d 1 -> mad_digest argsort n d = Err IndexError.
Proof. intros argsort n d Hs HG H. apply c112_raises; [exact Hs|exact HG|lra|]. right. rewrite H. lra. Qed.
Lemma c112_order : forall a a' n d, sorts a -> sorts a' -> monotone (d_cdf d) -> d_inv d 0 <= d_inv d 1 -> mad_digest a n d = mad_digest a' n d.
Proof.
  intros a a' n d Ha Ha' HG Hl. destruct n as [|[|p]]; [rewrite !c112_raises; auto; left; lia|rewrite !c112_raises; auto; left; lia|].
  rewrite (mad_chosen d p a Ha), (mad_chosen d p a' Ha'). erewrite (chosen_unique _ _ _ a a'); [reflexivity|exact Ha|exact Ha'|]. intros. apply (pdf_nonneg d p HG Hl).
Qed.

(** ** C111 *)
(** [d] keeps all the values of [l] as centroids of weight 1, and its quantiles are those of [l] up to [delta] *)
Definition summarises (delta : R) (d : digest R) (l : list R) : Prop :=
  d_weight d = INR (length l) /\ Permutation (d_centroids d) (map (fun x => (x, 1)) l) /\
  (l <> [] -> forall p v, 0 <= p <= 1 -> lin_quantile l p v -> Rabs (d_inv d p - v) <= delta).
(** the fraction of [l] further than [cut] from 0 *)
Definition beyond (cut : R) (l : list R) : R := INR (count (fun x => if Rlt_dec cut (Rabs x) then true else false) l) / INR (length l).

Lemma all_residuals_concat chunks : all_usable chunks -> residuals (concat (map fst chunks)) (concat (map snd chunks)) = all_residuals chunks /\ usable (concat (map fst chunks)) (concat (map snd chunks)).
Proof.
  induction 1 as [|[est ref] cs [Hl Hr] Hc [IH1 [IH2 IH3]]]; [split; [reflexivity|split; [reflexivity|intros r []]]|]. cbn [fst snd map concat] in *. unfold all_residuals in *. cbn [map concat fst snd]. rewrite <- IH1. split.
  - unfold residuals. rewrite <- map_app. f_equal. clear - Hl. revert ref Hl. induction est as [|a est IH]; intros [|b ref] Hl; try discriminate; [reflexivity|]. cbn [app combine]. f_equal. apply IH. injection Hl. auto.
  - split; [rewrite !app_length; congruence|]. intros r Hin. apply in_app_iff in Hin. destruct Hin; auto.
Qed.
Lemma count_anti cut cut' l : cut' <= cut -> (count (fun x => if Rlt_dec cut (Rabs x) then true else false) l <= count (fun x => if Rlt_dec cut' (Rabs x) then true else false) l)%nat.
Proof.
  intros H. unfold count. induction l as [|x l IH]; [cbn; lia|]. cbn [filter]. destruct (Rlt_dec cut (Rabs x)), (Rlt_dec cut' (Rabs x)); cbn [length]; try lia. exfalso. lra.
Qed.
Lemma repeat_nth_one n i : (i < n)%nat -> nth i (repeat 1 n) 0 = 1.
Proof. intros H. rewrite nth_indep with (d' := 1) by (rewrite repeat_length; exact H). apply nth_repeat. Qed.
Lemma outlier_value d l : d_weight d = INR (length l) -> Permutation (d_centroids d) (map (fun x => (x, 1)) l) -> outlier_digest d = beyond (Rmax 0.06 (3 * iqr_digest d)) l.
Proof.
  intros Hw Hp. unfold outlier_digest. cbv zeta. rewrite Hw. replace (nmax (nfrac 6 100) (nmul (nofZ 3) (iqr_digest d))) with (Rmax 0.06 (3 * iqr_digest d)).
  2:{ rewrite nmax_R, frac_R. numR. reflexivity. }
  set (cut := Rmax 0.06 (3 * iqr_digest d)). unfold beyond. cbn [ndiv RNum]. f_equal.
  assert (E : forall c c', Permutation c c' -> nsum (map snd (filter (fun x : R * R => nltb cut (nabs (fst x))) c)) = nsum (map snd (filter (fun x => nltb cut (nabs (fst x))) c'))).
  { assert (Hf : forall l0 : list R, nsum l0 = fold_right Rplus 0 l0).
    { intros l0. unfold nsum. induction l0 as [|x l0 IH]; [reflexivity|]. cbn [fold_right] in *. rewrite <- IH. reflexivity. }
    intros c c' H. rewrite !Hf. induction H as [|x a b _ IH|x y a|a b e _ IH1 _ IH2]; [reflexivity| | |congruence]; cbn [filter].
    - destruct (nltb _ _); cbn [map fold_right]; rewrite IH; reflexivity.
    - destruct (nltb cut (nabs (fst x))), (nltb cut (nabs (fst y))); cbn [map fold_right]; lra. }
  rewrite (E _ _ Hp). clear E Hp Hw.
  assert (E : map snd (filter (fun x : R * R => nltb cut (nabs (fst x))) (map (fun x => (x, 1)) l)) = repeat 1 (count (fun x => if Rlt_dec cut (Rabs x) then true else false) l)).
  { unfold count. induction l as [|x l IH]; [reflexivity|]. cbn [map filter fst]. rewrite nabs_R. destruct (nltb_reflect cut (Rabs x)) as [A|A], (Rlt_dec cut (Rabs x)) as [B|B]; revert A; numR; intros; try (exfalso; lra); [cbn [map length repeat snd]; rewrite IH; reflexivity|exact IH]. }
  rewrite E. generalize (count (fun x => if Rlt_dec cut (Rabs x) then true else false) l). intros n. rewrite nsum_rsum, repeat_length. induction n as [|n IH]; [reflexivity|]. rewrite S_INR. cbn [Spec.rsum].
  replace (nth0 n (repeat 1 (S n))) with 1 by (unfold nth0; symmetry; apply repeat_nth_one; lia). rewrite <- IH. f_equal. apply rsum_ext. intros i Hi. unfold nth0. rewrite !repeat_nth_one by lia. reflexivity.
Qed.
Lemma summary_values delta d l b s : l <> [] -> 0 <= delta -> summarises delta d l -> lin_quantile l (1 / 2) b -> is_iqr l s ->
  Rabs (bias_digest d - b) <= delta /\ Rabs (iqr_digest d - s) <= 2 * delta / 1.349 /\
  beyond (Rmax 0.06 (3 * s) + 6 * delta / 1.349) l <= outlier_digest d <= beyond (Rmax 0.06 (3 * s) - 6 * delta / 1.349) l.
Proof.
  intros Hl Hdelta (Hw & Hp & Hq) Hb (q1 & q3 & H1 & H3 & ->). specialize (Hq Hl).
  assert (Ei : iqr_digest d = (d_inv d (3 / 4) - d_inv d (1 / 4)) / 1.349). { unfold iqr_digest. rewrite !frac_R. cbn [ndiv nsub RNum]. reflexivity. }
  assert (Hi : Rabs (iqr_digest d - (q3 - q1) / 1.349) <= 2 * delta / 1.349).
  { rewrite Ei. pose proof (Hq (1 / 4) q1 ltac:(lra) H1) as A. pose proof (Hq (3 / 4) q3 ltac:(lra) H3) as B. apply Rabs_le. split; unfold Rabs in A, B; destruct (Rcase_abs _) in A; destruct (Rcase_abs _) in B; lra. }
  split; [unfold bias_digest; rewrite nhalf_R; apply Hq; [lra|exact Hb]|]. split; [exact Hi|]. rewrite (outlier_value d l Hw Hp).
  set (s := (q3 - q1) / 1.349) in *. set (s' := iqr_digest d) in *. assert (Hs : - (2 * delta / 1.349) <= s' - s <= 2 * delta / 1.349) by (unfold Rabs in Hi; destruct (Rcase_abs _) in Hi; lra).
  assert (Hn : 0 < INR (length l)) by (apply lt_0_INR; destruct l; [congruence|cbn; lia]).
  assert (M : forall c c', c' <= c -> beyond c l <= beyond c' l). { intros c c' H. unfold beyond. apply Rmult_le_compat_r; [left; apply Rinv_0_lt_compat; exact Hn|]. apply le_INR, count_anti, H. }
  split; apply M; unfold Rmax; repeat destruct (Rle_dec _ _); lra.
Qed.
Section Implementation.
  Context {D Cs : Type} (digest_of : list R -> D) (centroids_of : D -> Cs) (of_centroids : Cs -> D) (add : D -> D -> D) (view : D -> digest R).
  Lemma c111_chunks : forall delta chunks, 0 <= delta -> digest_laws digest_of centroids_of of_centroids add (fun D l => summarises delta (view D) l) ->
    all_usable chunks -> all_residuals chunks <> [] ->
    let est := concat (map fst chunks) in let ref := concat (map snd chunks) in
    exists cs b s b' s' o', mapM (fun c => accumulate digest_of centroids_of (fst c) (snd c)) chunks = Ok cs /\
      point_bias est ref = Ok (Fin b) /\ sigma_iqr est ref = Ok s /\
      finalize_digests of_centroids add (fun d => bias_digest (view d)) cs = Ok b' /\ Rabs (b' - b) <= delta /\
      finalize_digests of_centroids add (fun d => iqr_digest (view d)) cs = Ok s' /\ Rabs (s' - s) <= 2 * delta / 1.349 /\
      finalize_digests of_centroids add (fun d => outlier_digest (view d)) cs = Ok o' /\
      beyond (Rmax 0.06 (3 * s) + 6 * delta / 1.349) (residuals est ref) <= o' <= beyond (Rmax 0.06 (3 * s) - 6 * delta / 1.349) (residuals est ref).
  Proof using.
    intros delta chunks Hdelta HL Hc Hne est ref. destruct (all_residuals_concat chunks Hc) as [Er Hu]. fold est ref in Er, Hu.
    assert (Hch : chunks <> []) by (intros ->; apply Hne; reflexivity). assert (He : est <> []). { intros E. apply Hne. rewrite <- Er, E. reflexivity. }
    destruct (c46_by_hand digest_of centroids_of of_centroids add (fun d => d) _ chunks HL Hc Hch) as (cs & d & Hm & Hf & Hd).
    destruct (c45_bias est ref Hu He) as (b & Eb & Qb & _). destruct (c45_iqr est ref Hu He) as (s & Es & Qs & _). rewrite Er in Qb, Qs.
    destruct (summary_values delta (view d) _ b s Hne Hdelta Hd Qb Qs) as (V1 & V2 & V3).
    assert (Hfin : forall (A : Type) (g : D -> A), finalize_digests of_centroids add g cs = Ok (g d)).
    { intros A g. unfold finalize_digests in *. destruct (map of_centroids cs) as [|d0 ds]; [discriminate|]. injection Hf as Hf. rewrite Hf. reflexivity. }
    exists cs, b, s, (bias_digest (view d)), (iqr_digest (view d)), (outlier_digest (view d)). rewrite !Hfin, Er. repeat (split; [first [reflexivity|assumption]|]). exact V3.
  Qed.
  Lemma c111_exact : forall chunks, digest_laws digest_of centroids_of of_centroids add (fun D l => summarises 0 (view D) l) ->
    all_usable chunks -> all_residuals chunks <> [] ->
    let est := concat (map fst chunks) in let ref := concat (map snd chunks) in
    exists cs b s o, mapM (fun c => accumulate digest_of centroids_of (fst c) (snd c)) chunks = Ok cs /\
      point_bias est ref = Ok (Fin b) /\ finalize_digests of_centroids add (fun d => bias_digest (view d)) cs = Ok b /\
      sigma_iqr est ref = Ok s /\ finalize_digests of_centroids add (fun d => iqr_digest (view d)) cs = Ok s /\
      outlier_rate est ref = Ok o /\ finalize_digests of_centroids add (fun d => outlier_digest (view d)) cs = Ok o.
  Proof using.
    intros chunks HL Hc Hne est ref. destruct (c111_chunks 0 chunks ltac:(lra) HL Hc Hne) as (cs & b & s & b' & s' & o' & H1 & H2 & H3 & H4 & H5 & H6 & H7 & H8 & H9). fold est ref in H2, H3, H9.
    destruct (all_residuals_concat chunks Hc) as [Er Hu]. fold est ref in Er, Hu. assert (He : est <> []). { intros E. apply Hne. rewrite <- Er, E. reflexivity. }
    assert (Z : forall x, Rabs x <= 0 -> x = 0) by (intros x Hx; unfold Rabs in Hx; destruct (Rcase_abs x); lra).
    assert (b' = b) by (apply Z in H5; lra). subst b'. assert (s' = s) by (replace (2 * 0 / 1.349) with 0 in H7 by lra; apply Z in H7; lra). subst s'.
    replace (6 * 0 / 1.349) with 0 in H9 by lra. rewrite Rplus_0_r, Rminus_0_r in H9. assert (Eo : o' = beyond (Rmax 0.06 (3 * s)) (residuals est ref)) by lra.
    destruct (c45_outliers est ref Hu He) as (s0 & Q0 & Eo0 & _). destruct (c45_iqr est ref Hu He) as (s1 & E1 & Q1 & _). rewrite E1 in H3. injection H3 as ->.
    assert (s0 = s). { destruct Q0 as (a0 & b0 & A1 & A2 & ->), Q1 as (a1 & b1 & B1 & B2 & ->). rewrite (lin_quantile_unique _ _ _ _ A1 B1), (lin_quantile_unique _ _ _ _ A2 B2). reflexivity. } subst s0.
    exists cs, b, s, o'. repeat (split; [assumption|]). split; [|exact H8]. rewrite Eo0, Eo. unfold beyond. rewrite (residuals_length est ref Hu). reflexivity.
  Qed.
End Implementation.
