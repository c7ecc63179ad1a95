(** Profiles (C52, C105). *)
From Coq Require Import QArith List Arith ZArith Bool Sorted Lia Reals Lra Psatz.
From Verif Require Import Num NumProofs Py NdArray NumpyLib Utils ScipyWrap Spec Profile
  SortProofs EvalProofs NdProofs InterpProofs BinProofs HistProofs PitTheorems.
Import ListNotations.
Local Open Scope list_scope.
Local Open Scope R_scope.

(** ** Specification *)
(** The bin widths are equal as far as numpy's [allclose] can tell. *)
Definition looks_uniform (bins : list R) : Prop := forall i, (S i < length bins)%nat ->
  Rabs ((nth0 (S i) bins - nth0 i bins) - (nth0 1 bins - nth0 0 bins)) <= 1 / 100000000 + 1 / 100000 * Rabs (nth0 1 bins - nth0 0 bins).
(** What the code takes for bin [i] *)
Definition counted (bins : list R) (i : nat) (x : R) : Prop :=
  let w := nth0 1 bins - nth0 0 bins in
  (looks_uniform bins -> nth0 0 bins + INR i * w <= x < nth0 0 bins + (INR i + 1) * w) /\
  (~ looks_uniform bins -> nth0 i bins < x <= nth0 (S i) bins).
(** Bin [i] itself *)
Definition inside_bin (bins : list R) (i : nat) (x : R) : Prop := nth0 i bins < x < nth0 (S i) bins.
Definition outside_bin (bins : list R) (i : nat) (x : R) : Prop := x < nth0 i bins \/ nth0 (S i) bins < x.
(** [l]: the elements of [ys] at the places where the element of [xs] satisfies [P] *)
Inductive picked (P : R -> Prop) : list R -> list R -> list R -> Prop :=
| picked_nil : picked P [] [] []
| picked_take x y xs ys l : P x -> picked P xs ys l -> picked P (x :: xs) (y :: ys) (y :: l)
| picked_skip x y xs ys l : ~ P x -> picked P xs ys l -> picked P (x :: xs) (y :: ys) l.
Definition is_mean (l : list R) (m : R) : Prop := m * INR (length l) = rsum (length l) (fun j => nth0 j l).
Definition is_spread (l : list R) (m s : R) : Prop := 0 <= s /\ s * s * INR (length l) = rsum (length l) (fun j => (nth0 j l - m) * (nth0 j l - m)).

(** ** Bins *)
Lemma allclose_looks bins : (2 <= length bins)%nat -> np_allclose_scalar (bin_widths bins) (nhead (bin_widths bins)) = true <-> looks_uniform bins.
Proof.
  intros Hn. unfold np_allclose_scalar, bin_widths. rewrite forallb_forall, nhead_nth0, ndiff_nth by lia. split.
  - intros H i Hi. specialize (H (nth0 i (ndiff bins))). rewrite ndiff_nth in H by exact Hi. unfold np_isclose in H. rewrite !nabs_R in H. unfold nfrac in H. numR.
    apply Rleb_true. apply H. rewrite <- (ndiff_nth bins i Hi). apply nth_In. rewrite ndiff_length. lia.
  - intros H w Hw. apply In_nth with (d := n0) in Hw. destruct Hw as (i & Hi & <-). rewrite ndiff_length in Hi. change (nth i (ndiff bins) n0) with (nth0 i (ndiff bins)). rewrite ndiff_nth by lia.
    unfold np_isclose. rewrite !nabs_R. unfold nfrac. numR. apply Rleb_true. apply H. lia.
Qed.
Lemma raw_index bins i x : increasing bins -> (2 <= length bins)%nat -> (i < pred (length bins))%nat -> (get_bin_index_raw bins x = Z.of_nat i <-> counted bins i x).
Proof.
  intros Hs Hn Hi. unfold get_bin_index_raw, counted. pose proof (allclose_looks bins Hn) as Ha. cbv zeta. set (w := nth0 1 bins - nth0 0 bins) in *.
  assert (Wp : 0 < w) by (assert (nth0 0 bins < nth0 1 bins) by (apply inc_lt; auto; lia); unfold w; lra).
  destruct (np_allclose_scalar _ _).
  - assert (Hl : looks_uniform bins) by (apply Ha; reflexivity). unfold bin_widths. rewrite !nhead_nth0, ndiff_nth by lia. fold w. change (ndiv (nsub x (nth0 0 bins)) w) with ((x - nth0 0 bins) / w)%R.
    assert (Ex : (x - nth0 0 bins) = ((x - nth0 0 bins) / w) * w) by (field; lra). split.
    + intros E. pose proof (nfloor_spec ((x - nth0 0 bins) / w)%R) as F. rewrite E, <- INR_IZR_INZ in F. split; [|contradiction]. intros _. split; [|]; nra.
    + intros [H _]. specialize (H Hl). apply nfloor_unique. rewrite <- INR_IZR_INZ. split; [apply Rmult_le_reg_r with w; auto; lra|apply Rmult_lt_reg_r with w; auto; lra].
  - assert (Hl : ~ looks_uniform bins) by (intros H; apply Ha in H; discriminate). split.
    + intros E. split; [contradiction|]. intros _. assert (Es : searchsorted_left bins x = S i) by lia. split; [apply ssl_below; lia|]. rewrite <- Es. apply ssl_at. lia.
    + intros [_ H]. specialize (H Hl). assert (Es : searchsorted_left bins x = S i).
      { apply ssl_eq; [lia| |intros; lra]. intros k Hk. apply Rle_lt_trans with (nth0 i bins); [|lra]. apply inc_le; auto. lia. }
      lia.
Qed.
Lemma index_counted bins i x : increasing bins -> (2 <= length bins)%nat -> (i < pred (length bins))%nat ->
  (snd (get_bin_indices bins x) && Nat.eqb (fst (get_bin_indices bins x)) i)%bool = true <-> counted bins i x.
Proof.
  intros Hs Hn Hi. rewrite <- (raw_index bins i x Hs Hn Hi). unfold get_bin_indices. cbv zeta. cbn [fst snd]. set (z := get_bin_index_raw bins x).
  rewrite andb_true_iff, Nat.eqb_eq. destruct (Z.leb_spec 0 z), (Z.ltb_spec z (Z.of_nat (pred (length bins)))); cbn [andb]; (split; [intros [H1 H2]|intros H1]); try discriminate; try split; try reflexivity; lia.
Qed.
Lemma counted_dec bins i x : increasing bins -> (2 <= length bins)%nat -> (i < pred (length bins))%nat -> counted bins i x \/ ~ counted bins i x.
Proof.
  intros Hs Hn Hi. pose proof (index_counted bins i x Hs Hn Hi) as H. destruct (snd _ && _)%bool; [left; apply H; reflexivity|right; intros G; apply H in G; discriminate].
Qed.
(** ** Selection *)
Definition mask_of (bins : list R) (i : nat) (xs : list R) : list bool := map (fun p : nat * bool => (snd p && Nat.eqb (fst p) i)%bool) (map (get_bin_indices bins) xs).
Lemma masked_picked bins i xs : increasing bins -> (2 <= length bins)%nat -> (i < pred (length bins))%nat -> forall ys, length xs = length ys ->
  picked (counted bins i) xs ys (masked (mask_of bins i xs) ys) /\ length (masked (mask_of bins i xs) ys) = length (filter (fun b : bool => b) (mask_of bins i xs)).
Proof.
  intros Hs Hn Hi. induction xs as [|x xs IH]; intros [|y ys] Hl; try discriminate; [split; [constructor|reflexivity]|]. injection Hl as Hl. destruct (IH ys Hl) as [H1 H2].
  unfold mask_of in *. cbn [map masked filter]. pose proof (index_counted bins i x Hs Hn Hi) as Hc. destruct (snd _ && _)%bool.
  - split; [apply picked_take; [apply Hc; reflexivity|exact H1]|cbn [length]; f_equal; exact H2].
  - split; [apply picked_skip; [intros G; apply Hc in G; discriminate|exact H1]|exact H2].
Qed.
Lemma picked_unique P xs ys l : picked P xs ys l -> forall l', picked P xs ys l' -> l = l'.
Proof. induction 1; intros l' H'; inversion H'; subst; try contradiction; auto; f_equal; auto. Qed.
(** ** Means *)
Lemma of_nat_R n : @of_nat R RNum n = INR n.
Proof. unfold of_nat. cbn [nofZ RNum]. symmetry. apply INR_IZR_INZ. Qed.
Lemma mean_is (l : list R) : l <> [] -> is_mean l (np_mean l).
Proof.
  intros Hl. unfold is_mean, np_mean. rewrite of_nat_R, nsum_rsum. cbn [ndiv RNum]. assert (0 < INR (length l)) by (apply lt_0_INR; destruct l; [congruence|cbn; lia]). field. lra.
Qed.
Lemma spread_is (l : list R) : l <> [] -> is_spread l (np_mean l) (np_std sqrt l).
Proof.
  intros Hl. unfold is_spread, np_std. cbv zeta. set (m := np_mean l). set (d := map _ l).
  assert (Hd : np_mean d * INR (length l) = rsum (length l) (fun j => (nth0 j l - m) * (nth0 j l - m))).
  { unfold np_mean. rewrite of_nat_R, nsum_rsum. unfold d. rewrite map_length. cbn [ndiv RNum]. assert (0 < INR (length l)) by (apply lt_0_INR; destruct l; [congruence|cbn; lia]).
    transitivity (rsum (length l) (fun i => nth0 i (map (fun y => nmul (nsub y m) (nsub y m)) l))); [field; lra|]. apply rsum_ext. intros j Hj. rewrite nth0_map by exact Hj. reflexivity. }
  split; [apply sqrt_pos|]. rewrite sqrt_sqrt; [exact Hd|]. assert (0 < INR (length l)) by (apply lt_0_INR; destruct l; [congruence|cbn; lia]).
  apply Rmult_le_reg_r with (INR (length l)); [assumption|]. rewrite Rmult_0_l, Hd. clear. induction (length l) as [|n IH]; cbn [rsum]; [lra|]. pose proof (Rle_0_sqr (nth0 n l - m)) as S. unfold Rsqr in S. lra.
Qed.
Lemma mean_between l m a b : l <> [] -> is_mean l m -> (forall y, In y l -> a <= y <= b) -> a <= m <= b.
Proof.
  intros Hl Hm Hy. assert (Hp : 0 < INR (length l)) by (apply lt_0_INR; destruct l; [congruence|cbn; lia]). unfold is_mean in Hm.
  assert (G : forall n, (n <= length l)%nat -> a * INR n <= rsum n (fun j => nth0 j l) <= b * INR n).
  { induction n as [|n IH]; intros Hn; [cbn; lra|]. cbn [rsum]. rewrite S_INR. specialize (IH ltac:(lia)). specialize (Hy (nth0 n l) ltac:(apply nth_In; lia)). lra. }
  specialize (G (length l) (le_n _)). split; apply Rmult_le_reg_r with (INR (length l)); lra.
Qed.
(** ** The table *)
Definition profile_entry (l : list R) (std : bool) (v e : xnum R) : Prop :=
  (l = [] -> v = NaN /\ e = NaN) /\
  (l <> [] -> exists m s, v = Fin m /\ is_mean l m /\ is_spread l m s /\ e = Fin (if std then s else s / sqrt (INR (length l)))).
Lemma c105_table : forall xs ys bins std, increasing bins -> (2 <= length bins)%nat -> length xs = length ys ->
  exists vals errs, profile sqrt xs ys bins std = Ok (vals, errs) /\ length vals = pred (length bins) /\ length errs = pred (length bins) /\
  forall i, (i < pred (length bins))%nat -> exists l, picked (counted bins i) xs ys l /\ profile_entry l std (nth i vals NaN) (nth i errs NaN).
Proof.
  intros xs ys bins std Hs Hn Hl. unfold profile. destruct (Nat.ltb_spec (length bins) 2); [lia|]. cbv zeta.
  set (im := map (get_bin_indices bins) xs).
  set (E := fun i => let l := masked (mask_of bins i xs) ys in match l with [] => (NaN, NaN) | _ => (Fin (np_mean l), Fin (if std then np_std sqrt l else np_std sqrt l / sqrt (INR (length l)))) end).
  assert (HE : forall i, (i < pred (length bins))%nat -> profile_bin sqrt im ys std i = Ok (E i)).
  { intros i Hi. destruct (masked_picked bins i xs Hs Hn Hi ys Hl) as [_ Hc]. 
    unfold profile_bin, E. cbv zeta. change (map (fun p : nat * bool => (snd p && Nat.eqb (fst p) i)%bool) im) with (mask_of bins i xs).
    assert (Lm : length (mask_of bins i xs) = length ys) by (unfold mask_of; rewrite !map_length; exact Hl).
    rewrite Lm, Nat.eqb_refl, <- Hc. cbn [negb]. destruct (masked (mask_of bins i xs) ys) as [|y l]; [reflexivity|]. cbn [length Nat.eqb]. rewrite of_nat_R. reflexivity. }
  assert (HM : mapM (profile_bin sqrt im ys std) (seq 0 (pred (length bins))) = Ok (map E (seq 0 (pred (length bins))))).
  { assert (G : forall l, (forall i, In i l -> (i < pred (length bins))%nat) -> mapM (profile_bin sqrt im ys std) l = Ok (map E l)).
    { induction l as [|i l IH]; intros Hin; [reflexivity|]. cbn [mapM map]. rewrite HE by (apply Hin; left; reflexivity). cbn [bind]. rewrite IH by (intros; apply Hin; right; assumption). reflexivity. }
    apply G. intros i Hi. apply in_seq in Hi. lia. }
  rewrite HM. cbn [bind]. rewrite !map_map. eexists _, _. split; [reflexivity|]. rewrite !map_length, seq_length. split; [reflexivity|]. split; [reflexivity|].
  intros i Hi. exists (masked (mask_of bins i xs) ys). destruct (masked_picked bins i xs Hs Hn Hi ys Hl) as [Hp _]. split; [exact Hp|].
  assert (N1 : nth i (map (fun x => fst (E x)) (seq 0 (pred (length bins)))) NaN = fst (E i)).
  { rewrite nth_indep with (d' := fst (E 0%nat)) by (rewrite map_length, seq_length; exact Hi). rewrite (map_nth (fun x => fst (E x))), seq_nth by exact Hi. reflexivity. }
  assert (N2 : nth i (map (fun x => snd (E x)) (seq 0 (pred (length bins)))) NaN = snd (E i)).
  { rewrite nth_indep with (d' := snd (E 0%nat)) by (rewrite map_length, seq_length; exact Hi). rewrite (map_nth (fun x => snd (E x))), seq_nth by exact Hi. reflexivity. }
  rewrite N1, N2. unfold E, profile_entry. cbv zeta. set (l := masked (mask_of bins i xs) ys). split.
  - intros El. rewrite El. split; reflexivity.
  - intros Hne. pose proof (mean_is l Hne) as M. pose proof (spread_is l Hne) as S. destruct l as [|y l']; [congruence|]. eexists _, _. split; [reflexivity|]. split; [exact M|]. split; [exact S|]. reflexivity.
Qed.
(** no value is counted twice *)
Lemma c105_once : forall bins i j x, increasing bins -> (2 <= length bins)%nat -> (i < pred (length bins))%nat -> (j < pred (length bins))%nat -> counted bins i x -> counted bins j x -> i = j.
Proof. intros bins i j x Hs Hn Hi Hj H1 H2. apply (raw_index bins i x Hs Hn Hi) in H1. apply (raw_index bins j x Hs Hn Hj) in H2. lia. Qed.
(** the mean of a bin lies between its smallest and its largest value *)
Lemma c105_between : forall xs ys bins std vals errs i a b, increasing bins -> (2 <= length bins)%nat -> length xs = length ys -> (i < pred (length bins))%nat ->
  profile sqrt xs ys bins std = Ok (vals, errs) -> (forall x y, In (x, y) (combine xs ys) -> counted bins i x -> a <= y <= b) ->
  nth i vals NaN = NaN \/ exists m, nth i vals NaN = Fin m /\ a <= m <= b.
Proof.
  intros xs ys bins std vals errs i a b Hs Hn Hl Hi E Hab. destruct (c105_table xs ys bins std Hs Hn Hl) as (v & e & E' & _ & _ & H). rewrite E in E'. injection E' as <- <-.
  destruct (H i Hi) as (l & Hp & H1 & H2). destruct l as [|y l]; [left; apply H1; reflexivity|]. right. destruct (H2 ltac:(discriminate)) as (m & s & Hv & Hm & _). exists m. split; [exact Hv|].
  apply (mean_between (y :: l) m a b); [discriminate|exact Hm|]. clear - Hp Hab. revert Hab. generalize (y :: l) Hp. clear. intros l Hp. induction Hp as [|x y xs ys l Hx Hp IH|x y xs ys l Hx Hp IH]; intros Hab z Hz; [destruct Hz| |].
  - destruct Hz as [<-|Hz]; [apply (Hab x); [left; reflexivity|exact Hx]|]. apply IH; [|exact Hz]. intros x' y' Hin. apply Hab. right. exact Hin.
  - apply IH; [|exact Hz]. intros x' y' Hin. apply Hab. right. exact Hin.
Qed.
(** ** Where the counted values are those in the bin *)
Lemma equal_looks bins : equal_width bins -> looks_uniform bins.
Proof.
  intros (h & Hh) i Hi. rewrite (Hh i Hi), (Hh 0%nat) by lia. replace (h - h) with 0 by lra. rewrite Rabs_R0. pose proof (Rabs_pos h). lra.
Qed.
Lemma unequal_looks bins : clearly_unequal bins -> ~ looks_uniform bins.
Proof. intros (i & Hi & Hg) H. specialize (H i Hi). lra. Qed.
Lemma sound_counted bins i x : increasing bins -> sound_bins bins -> (i < pred (length bins))%nat ->
  (inside_bin bins i x -> counted bins i x) /\ (counted bins i x -> ~ outside_bin bins i x).
Proof.
  intros Hs Hb Hi. unfold counted, inside_bin, outside_bin. cbv zeta. destruct Hb as [Hb|Hb].
  - pose proof (equal_looks _ Hb) as Hl. destruct Hb as (h & Hh). rewrite (Hh 0%nat) by lia. rewrite (equal_width_nth bins h i Hh) by lia. rewrite (equal_width_nth bins h (S i) Hh) by lia. rewrite S_INR. split; [|intros [H _]; specialize (H Hl); lra].
    intros H. split; [intros _; lra|contradiction].
  - pose proof (unequal_looks _ Hb) as Hl. split; [|intros [_ H]; specialize (H Hl); lra]. intros H. split; [contradiction|intros _; lra].
Qed.
(** C52 on bins whose widths are equal or clearly not, with no x on an edge: the selection is that of the bin. *)
Lemma c52_profile : forall xs ys bins std, increasing bins -> (2 <= length bins)%nat -> sound_bins bins -> length xs = length ys -> (forall x, In x xs -> ~ In x bins) ->
  exists vals errs, profile sqrt xs ys bins std = Ok (vals, errs) /\ length vals = pred (length bins) /\ length errs = pred (length bins) /\
  forall i, (i < pred (length bins))%nat -> exists l, picked (inside_bin bins i) xs ys l /\ profile_entry l std (nth i vals NaN) (nth i errs NaN) /\
    forall a b m, (forall y, In y l -> a <= y <= b) -> nth i vals NaN = Fin m -> a <= m <= b.
Proof.
  intros xs ys bins std Hs Hn Hb Hl Hx. destruct (c105_table xs ys bins std Hs Hn Hl) as (vals & errs & E & L1 & L2 & H). exists vals, errs. split; [exact E|]. split; [exact L1|]. split; [exact L2|].
  intros i Hi. destruct (H i Hi) as (l & Hp & He). exists l. split; [|split; [exact He|]].
  - clear - Hp Hx Hs Hb Hi. assert (G : forall x, In x xs -> counted bins i x <-> inside_bin bins i x).
    { intros x Hin. destruct (sound_counted bins i x Hs Hb Hi) as [H1 H2]. split; [|exact H1]. intros Hc. specialize (H2 Hc). specialize (Hx x Hin). unfold outside_bin in H2. unfold inside_bin.
      assert (x <> nth0 i bins) by (intros ->; apply Hx; apply nth_In; lia). assert (x <> nth0 (S i) bins) by (intros ->; apply Hx; apply nth_In; lia).
      destruct (Rtotal_order x (nth0 i bins)) as [|[|]]; destruct (Rtotal_order x (nth0 (S i) bins)) as [|[|]]; try lra; exfalso; tauto. }
    clear Hx. induction Hp as [|x y xs ys l Hc Hp IH|x y xs ys l Hc Hp IH]; [constructor| |].
    + apply picked_take; [apply G; [left; reflexivity|exact Hc]|]. apply IH. intros z Hz. apply G. right. exact Hz.
    + apply picked_skip; [intros Hin; apply Hc; apply G; [left; reflexivity|exact Hin]|]. apply IH. intros z Hz. apply G. right. exact Hz.
  - intros a b m Hy Hm. destruct He as [H1 H2]. destruct l as [|y l]; [destruct (H1 eq_refl) as [Hv _]; rewrite Hv in Hm; discriminate|]. destruct (H2 ltac:(discriminate)) as (m' & s & Hv & Hm' & _). rewrite Hv in Hm. injection Hm as <-.
    apply (mean_between (y :: l)); [discriminate|exact Hm'|exact Hy].
Qed.
(** ** Errors *)
Lemma c105_short : forall xs ys bins std, (length bins < 2)%nat -> profile sqrt xs ys bins std = Err IndexError.
Proof. intros xs ys bins std H. unfold profile. destruct (Nat.ltb_spec (length bins) 2); [reflexivity|lia]. Qed.
(** data of another length than the x: an IndexError as soon as one x is in a bin *)
Lemma c105_lengths : forall xs ys bins std x i, increasing bins -> (2 <= length bins)%nat -> length xs <> length ys -> In x xs -> (i < pred (length bins))%nat -> counted bins i x ->
  profile sqrt xs ys bins std = Err IndexError.
Proof.
  intros xs ys bins std x i Hs Hn Hl Hx Hi Hc. unfold profile. destruct (Nat.ltb_spec (length bins) 2); [reflexivity|]. cbv zeta.
  set (im := map (get_bin_indices bins) xs).
  assert (HB : forall j, profile_bin sqrt im ys std j = Ok (NaN, NaN) \/ profile_bin sqrt im ys std j = Err IndexError).
  { intros j. unfold profile_bin. cbv zeta. destruct (Nat.eqb _ 0); [left; reflexivity|]. right. unfold im. rewrite !map_length. destruct (Nat.eqb_spec (length xs) (length ys)); [contradiction|reflexivity]. }
  assert (HI : profile_bin sqrt im ys std i = Err IndexError).
  { unfold profile_bin. cbv zeta. change (map (fun p : nat * bool => (snd p && Nat.eqb (fst p) i)%bool) im) with (mask_of bins i xs).
    assert (In true (filter (fun b : bool => b) (mask_of bins i xs))).
    { apply filter_In. split; [|reflexivity]. unfold mask_of. rewrite map_map. apply in_map_iff. exists x. split; [|exact Hx]. apply index_counted; auto. }
    destruct (filter (fun b : bool => b) (mask_of bins i xs)); [contradiction|]. cbn [length Nat.eqb]. unfold mask_of. rewrite !map_length. destruct (Nat.eqb_spec (length xs) (length ys)); [contradiction|reflexivity]. }
  assert (HM : forall l, In i l -> mapM (profile_bin sqrt im ys std) l = Err IndexError).
  { induction l as [|j l IH]; intros Hin; [destruct Hin|]. cbn [mapM]. destruct (HB j) as [Ej|Ej]; rewrite Ej; [|reflexivity]. cbn [bind].
    destruct Hin as [->|Hin]; [rewrite HI in Ej; discriminate|]. rewrite IH by exact Hin. reflexivity. }
  rewrite HM; [reflexivity|]. apply in_seq. lia.
Qed.
(** ** Refutation and examples *)
Definition tiny_bins : list R := [0; 1 / 1000000000; 3 / 1000000000].
Lemma tiny_increasing : increasing tiny_bins.
Proof. unfold tiny_bins, increasing. repeat constructor; numR; lra. Qed.
Lemma tiny_uniform : looks_uniform tiny_bins.
Proof. intros [|[|i]] Hi; cbn in *; try lia; numR; unfold Rabs; repeat destruct Rcase_abs; lra. Qed.
Lemma c52_tiny_refuted : exists xs ys bins i x, increasing bins /\ (2 <= length bins)%nat /\ length xs = length ys /\ (i < pred (length bins))%nat /\ In x xs /\ inside_bin bins i x /\
  exists vals errs, profile sqrt xs ys bins true = Ok (vals, errs) /\ nth i vals NaN = NaN.
Proof.
  exists [5 / 2 / 1000000000], [5], tiny_bins, 1%nat, (5 / 2 / 1000000000). split; [exact tiny_increasing|]. split; [cbn; lia|]. split; [reflexivity|]. split; [cbn; lia|]. split; [left; reflexivity|]. split; [unfold inside_bin; cbn; lra|].
  destruct (c105_table [5 / 2 / 1000000000] [5] tiny_bins true tiny_increasing ltac:(cbn; lia) eq_refl) as (vals & errs & E & _ & _ & H). exists vals, errs. split; [exact E|].
  destruct (H 1%nat ltac:(cbn; lia)) as (l & Hp & H1 & _). inversion Hp as [|x y xs ys l' Hc Hq|x y xs ys l' Hc Hq]; subst.
  - exfalso. destruct Hc as [Hc _]. specialize (Hc tiny_uniform). cbn in Hc. lra.
  - inversion Hq; subst. apply H1. reflexivity.
Qed.
Lemma c105_example : increasing [0; 1; 3] /\ sound_bins [0; 1; 3] /\ (forall x, In x [1 / 2; 2; 5 / 2; 7] -> ~ In x [0; 1; 3]) /\
  exists vals errs, profile sqrt [1 / 2; 2; 5 / 2; 7] [4; 1; 3; 9] [0; 1; 3] true = Ok (vals, errs) /\ nth 1 vals NaN = Fin 2 /\ nth 1 errs NaN = Fin 1.
Proof.
  assert (Hs : increasing [0; 1; 3]) by (unfold increasing; repeat constructor; numR; lra).
  assert (Hu : clearly_unequal [0; 1; 3]) by (exists 1%nat; split; [cbn; lia|]; cbn; numR; unfold Rabs; repeat destruct Rcase_abs; lra).
  split; [exact Hs|]. split; [right; exact Hu|]. split; [intros x Hx Hb; cbn in Hx, Hb; intuition lra|].
  destruct (c105_table [1 / 2; 2; 5 / 2; 7] [4; 1; 3; 9] [0; 1; 3] true Hs ltac:(cbn; lia) eq_refl) as (vals & errs & E & _ & _ & H). exists vals, errs. split; [exact E|].
  destruct (H 1%nat ltac:(cbn; lia)) as (l & Hp & _ & H2).
  assert (Hl : l = [1; 3]).
  { apply (picked_unique _ _ _ _ Hp). pose proof (unequal_looks _ Hu) as Hn. apply picked_skip; [intros [_ G]; specialize (G Hn); cbn in G; lra|].
    apply picked_take; [split; [contradiction|intros _; cbn; lra]|]. apply picked_take; [split; [contradiction|intros _; cbn; lra]|]. apply picked_skip; [intros [_ G]; specialize (G Hn); cbn in G; lra|]. constructor. }
  subst l. destruct (H2 ltac:(discriminate)) as (m & s & Hv & Hm & (Hs0 & Hs2) & He). unfold is_mean in Hm. cbn in Hm, Hs2. numR. assert (m = 2) by lra. subst m. rewrite Hv, He. split; [reflexivity|]. f_equal.
  assert ((s - 1) * (s + 1) = 0) by lra. nra.
Qed.
