(** Assembled facts about Gaussian mixtures, used by Prop_Mixmod.v. *)
From Coq Require Import List Arith ZArith QArith Bool Sorted Lia Reals Lra Psatz.
From Coquelicot Require Import Coquelicot.
From Verif Require Import Num NumProofs PairwiseProofs Py NdArray NumpyLib Utils ScipyWrap MixmodPdf Spec
  SortProofs EvalProofs NdProofs InterpProofs BinProofs HistProofs HistTheorems EvalTheorems.
Import ListNotations.
Local Open Scope R_scope.

(** Legal input: [k] components per PDF, positive widths, non-negative weights with a
    positive sum. *)
Definition mix_input (k : nat) (means stds weights : list (list R)) : Prop :=
  (0 < k)%nat /\ means <> [] /\ length stds = length means /\ length weights = length means /\
  (forall l, In l means -> length l = k) /\ (forall l, In l stds -> length l = k) /\
  (forall l, In l weights -> length l = k) /\
  (forall r i, (r < length means)%nat -> (i < k)%nat -> 0 < at2 stds r i) /\
  (forall r i, (r < length means)%nat -> (i < k)%nat -> 0 <= at2 weights r i) /\
  (forall r, (r < length means)%nat -> 0 < rsum k (fun i => at2 weights r i)).

(** The two functions behind [scipy.stats.norm]: a non-negative density and a distribution
    function with values in [0,1] whose derivative is the density. *)
Definition normal_laws (phi Phi : R -> R) : Prop :=
  (forall z, 0 <= phi z) /\ (forall z, 0 <= Phi z <= 1) /\
  (forall x y, x <= y -> Phi x <= Phi y) /\ (forall z, is_derive Phi z (phi z)).

(** ** Sums *)
Lemma rsum_ge0 n f : (forall i, (i < n)%nat -> 0 <= f i) -> 0 <= rsum n f.
Proof. induction n; simpl; intros; [lra|]. assert (0 <= rsum n f) by (apply IHn; auto). assert (0 <= f n) by auto. lra. Qed.
Lemma rsum_le n f g : (forall i, (i < n)%nat -> f i <= g i) -> rsum n f <= rsum n g.
Proof. induction n; simpl; intros; [lra|]. assert (rsum n f <= rsum n g) by auto. assert (f n <= g n) by auto. lra. Qed.
Lemma rsum_div n f c : rsum n (fun i => f i / c) = rsum n f / c.
Proof. induction n; simpl; [unfold Rdiv; lra|]. rewrite IHn. unfold Rdiv. lra. Qed.
Lemma rsum_derive n f d x : (forall i, (i < n)%nat -> is_derive (f i) x (d i)) ->
  is_derive (fun y => rsum n (fun i => f i y)) x (rsum n d).
Proof.
  induction n; simpl; intros H; [apply (is_derive_const 0)|].
  apply (is_derive_plus (fun y => rsum n (fun i => f i y)) (f n)); auto.
Qed.

Lemma nsum_combine3 (h : R -> R * R -> R) a b c : length a = length b -> length c = length b ->
  nsum (map2 h a (combine b c)) = rsum (length b) (fun i => h (nth0 i a) (nth0 i b, nth0 i c)).
Proof.
  revert a c. induction b as [|b0 b IH]; destruct a as [|a0 a], c as [|c0 c]; intros H1 H2; cbn [length] in H1, H2; try lia; auto.
  cbn [combine map2 length]. rewrite nsum_cons, rsum_S_l, IH by lia. reflexivity.
Qed.

(** ** Methods that work point by point *)
Definition pointwise_method (g : R -> nat -> R) (m : nd R -> nd nat -> res (list R)) : Prop :=
  forall xf rf, length xf = length rf -> xf <> [] -> m (nd1 xf) (nd1 rf) = Ok (map2 g xf rf).

Lemma rv_eval_pointwise g npdf m other X rows w : pointwise_method g m -> (0 < npdf)%nat ->
  length X = npdf -> length rows = npdf -> (forall l, In l X -> length l = w) ->
  (let xf := concat X in let rf := flat_rows X rows in
   let* vals := if forallb (fun _ => true) xf then (if (length xf =? 0)%nat then Ok [] else m (nd1 xf) (nd1 rf)) else Ok [] in
   Ok (chunks npdf (match X with [] => 0%nat | l :: _ => length l end) (place (fun _ => true) other xf vals)))
  = Ok (map2 (fun l r => map (fun x => Fin (g x r)) l) X rows).
Proof.
  intros Hm Hn HX Hr Hl. cbv zeta.
  assert (Hf : forallb (fun _ : R => true) (concat X) = true) by (apply forallb_forall; auto). rewrite Hf.
  assert (Hw : match X with [] => 0%nat | l :: _ => length l end = w).
  { destruct X as [|l X]; [simpl in HX; lia|]. apply Hl. left. auto. }
  rewrite Hw.
  assert (E : (if (length (concat X) =? 0)%nat then Ok [] else m (nd1 (concat X)) (nd1 (flat_rows X rows)))
              = Ok (map2 g (concat X) (flat_rows X rows))).
  { destruct (Nat.eqb_spec (length (concat X)) 0) as [E|E].
    - destruct (concat X); [reflexivity|simpl in E; lia].
    - apply Hm; [rewrite flat_rows_length; lia|]. intros F. rewrite F in E. simpl in E. lia. }
  rewrite E. cbn [bind]. f_equal. rewrite map2_flat by lia.
  unfold pointwise.
  rewrite place_all.
  2:{ clear -Hr HX. revert rows npdf Hr HX. induction X; destruct rows; simpl; intros; try lia; auto.
      destruct npdf; [lia|]. rewrite !app_length, map_length. f_equal. apply (IHX rows npdf); lia. }
  2: auto.
  rewrite <- HX in Hr. subst npdf. clear - Hl Hr. revert rows Hr.
  induction X as [|l X IH]; destruct rows as [|r rows]; simpl; intros; try lia; auto.
  assert (Ll : length l = w) by (apply Hl; left; auto).
  rewrite map_app, map_map. 
  rewrite firstn_app, firstn_all2 by (rewrite map_length; lia).
  rewrite map_length, Ll, Nat.sub_diag, firstn_O, app_nil_r. f_equal.
  rewrite skipn_app, map_length, Ll, Nat.sub_diag, skipn_O.
  rewrite skipn_all2 by (rewrite map_length; lia). rewrite app_nil_l. apply IH; auto. intros. apply Hl. right. auto.
Qed.

Lemma pm_mat g npdf m X w : pointwise_method g m -> (0 < npdf)%nat -> length X = npdf -> (forall l, In l X -> length l = w) ->
  rv_pdf npdf m (PMat X) = Ok (map (fun r => map (fun x => Fin (g x r)) (nth r X [])) (seq 0 npdf)).
Proof.
  intros Hm Hn HX Hl. unfold rv_pdf, rv_eval. cbn [broadcast_points]. rewrite HX, Nat.eqb_refl. cbn [bind].
  rewrite HX.
  pose proof (rv_eval_pointwise g npdf m (fun _ => NaN) X (seq 0 npdf) w Hm Hn HX (seq_length _ _) Hl) as H. cbv zeta in H.
  assert (Hf : forallb (fun _ : R => true) (concat X) = true) by (apply forallb_forall; auto). rewrite Hf in *.
  rewrite H. f_equal. rewrite <- HX. clear.
  assert (G : forall s, map2 (fun l r => map (fun x => Fin (g x r)) l) X (seq s (length X)) =
     map (fun r => map (fun x => Fin (g x r)) (nth (r - s) X [])) (seq s (length X))).
  { induction X as [|l X IH]; intros s; auto. cbn [length seq map2 map]. rewrite Nat.sub_diag. f_equal.
    rewrite IH. apply map_ext_in. intros r Hr. apply in_seq in Hr. replace (r - s)%nat with (S (r - S s)) by lia. auto. }
  rewrite G. apply map_ext. intros. rewrite Nat.sub_0_r. auto.
Qed.
Lemma pm_grid g npdf m xs : pointwise_method g m -> (0 < npdf)%nat ->
  rv_pdf npdf m (PGrid xs) = table npdf (fun r x => Fin (g x r)) xs.
Proof.
  intros Hm Hn.
  assert (Er : rv_pdf npdf m (PGrid xs) = rv_pdf npdf m (PMat (repeat xs npdf))).
  { unfold rv_pdf, rv_eval. cbn [broadcast_points]. rewrite repeat_length, Nat.eqb_refl. reflexivity. }
  rewrite Er, (pm_mat g npdf m _ (length xs)); auto.
  - unfold table. f_equal. apply map_seq_ext. intros r Hr. rewrite nth_indep with (d' := xs) by (rewrite repeat_length; auto).
    rewrite nth_repeat. auto.
  - apply repeat_length.
  - intros l Hl. apply repeat_spec in Hl. subst. auto.
Qed.

Lemma pm_one g m X w : pointwise_method g m -> X <> [] -> (forall l, In l X -> length l = w) ->
  rv_pdf 1 m (PMat X) = Ok (map (map (fun x => Fin (g x 0%nat))) X).
Proof.
  intros Hm Hne Hl. unfold rv_pdf, rv_eval.
  assert (Eb : broadcast_points 1 (PMat X) = Ok (X, repeat 0%nat (length X))).
  { cbn [broadcast_points]. destruct (Nat.eqb_spec (length X) 1) as [E|E]; [rewrite E; reflexivity|reflexivity]. }
  rewrite Eb. cbn [bind].
  pose proof (rv_eval_pointwise g (length X) m (fun _ => NaN) X (repeat 0%nat (length X)) w Hm ltac:(destruct X; [congruence|simpl; lia]) eq_refl (repeat_length _ _) Hl) as H. cbv zeta in H.
  assert (Hf : forallb (fun _ : R => true) (concat X) = true) by (apply forallb_forall; auto). rewrite Hf in *.
  rewrite H. f_equal. clear. induction X as [|l X IH]; [reflexivity|]. cbn [length repeat map2 map]. f_equal. exact IH.
Qed.

(** A method that answers every grid and every per-PDF matrix point by point. *)
Definition always_faithful (e : points R -> res (list (list (xnum R)))) (npdf : nat) (F : nat -> R -> xnum R) : Prop :=
  (forall xs, e (PGrid xs) = table npdf F xs) /\
  (forall X w, length X = npdf -> (forall l, In l X -> length l = w) ->
     e (PMat X) = Ok (map (fun r => map (F r) (nth r X [])) (seq 0 npdf))).

(** ** Minima and maxima *)
Lemma nmin_le (a b : R) : nmin a b <= a /\ nmin a b <= b.
Proof. unfold nmin. destruct (nleb_reflect a b); lra. Qed.
Lemma nmax_ge (a b : R) : a <= nmax a b /\ b <= nmax a b.
Proof. unfold nmax. destruct (nleb_reflect a b); lra. Qed.
Lemma nminimum_le (l : list R) d x : In x (d :: l) -> nminimum d l <= x.
Proof.
  unfold nminimum. revert d x. induction l as [|y l IH]; intros d x Hx; cbn [fold_left].
  - destruct Hx as [->|[]]. lra.
  - destruct (nmin_le d y). assert (fold_left nmin l (nmin d y) <= nmin d y) by (apply IH; left; auto).
    destruct Hx as [->|[->|Hx]]; try lra. apply IH. right. auto.
Qed.
Lemma nmaximum_ge (l : list R) d x : In x (d :: l) -> x <= nmaximum d l.
Proof.
  unfold nmaximum. revert d x. induction l as [|y l IH]; intros d x Hx; cbn [fold_left].
  - destruct Hx as [->|[]]. lra.
  - destruct (nmax_ge d y). assert (nmax d y <= fold_left nmax l (nmax d y)) by (apply IH; left; auto).
    destruct Hx as [->|[->|Hx]]; try lra. apply IH. right. auto.
Qed.
Lemma min_in_list (l : list R) x : In x l -> nminimum (nhead l) (tl l) <= x.
Proof. destruct l; [intros []|]. apply nminimum_le. Qed.
Lemma max_in_list (l : list R) x : In x l -> x <= nmaximum (nhead l) (tl l).
Proof. destruct l; [intros []|]. apply nmaximum_ge. Qed.
Lemma in_map2_concat (f : R -> R -> R) A B r i : (r < length A)%nat -> (r < length B)%nat ->
  (i < length (nth r A []))%nat -> (i < length (nth r B []))%nat ->
  In (f (at2 A r i) (at2 B r i)) (concat (map2 (map2 f) A B)).
Proof.
  revert B r. induction A as [|a A IH]; intros B r; [simpl; lia|]. destruct B as [|b B]; [simpl; lia|].
  intros HA HB Ha Hb. cbn [map2 concat]. apply in_or_app. destruct r.
  - left. unfold at2. cbn [nth] in *. rewrite <- nth0_map2 by auto. apply nth_In. rewrite map2_len. lia.
  - right. apply (IH B r); simpl in *; auto; lia.
Qed.

(** ** The constructor *)
Definition wnorm (weights : list (list R)) := map (fun r => map (fun w => ndiv w (nsum r)) r) weights.
Lemma mix_init_build k means stds weights :
  (forall l, In l means -> length l = k) -> (forall l, In l stds -> length l = k) -> (forall l, In l weights -> length l = k) ->
  (forall l w, In l weights -> In w l -> 0 <= w) ->
  mixmod_init (nd2 k means) (nd2 k stds) (nd2 k weights) = Ok (mkmixmod means stds (wnorm weights) [length means]).
Proof.
  intros Lm Ls Lw Pw. unfold mixmod_init. rewrite !reshape_nd2 by auto. cbn [bind]. rewrite !rows_of_nd2 by auto.
  assert (E : existsb (existsb (fun w => nltb w n0)) weights = false).
  { apply not_true_is_false. intros E. apply existsb_exists in E. destruct E as (l & Hl & E).
    apply existsb_exists in E. destruct E as (w & Hw' & E).
    pose proof (Pw l w Hl Hw'). destruct (nltb_reflect w n0) as [L|L]; [|discriminate]. revert L. numR. lra. }
  rewrite E. unfold wnorm. do 2 f_equal. apply map_ext. intros r. rewrite npsum_R. reflexivity.
Qed.
(** Normalising the weights a second time changes nothing. *)
Lemma weights_sum s (r : list R) : nsum (map (fun w => w / s) r) = nsum r * / s.
Proof. induction r as [|a r IH]; [simpl; lra|]. cbn [map]. rewrite !nsum_cons, IH. simpl. unfold Rdiv. ring. Qed.
Lemma weights_twice (r : list R) :
  map (fun w => ndiv w (nsum (map (fun w => ndiv w (nsum r)) r))) (map (fun w => ndiv w (nsum r)) r) = map (fun w => ndiv w (nsum r)) r.
Proof. change (ndiv (T := R)) with Rdiv. rewrite weights_sum. apply scaled_twice. Qed.
Lemma nsum_nonneg (l : list R) : (forall x, In x l -> 0 <= x) -> 0 <= nsum l.
Proof.
  induction l as [|a l IH]; intros H; [simpl; lra|]. rewrite nsum_cons. simpl.
  assert (0 <= a) by (apply H; left; auto). assert (0 <= nsum l) by (apply IH; intros; apply H; right; auto). lra.
Qed.
Lemma Rinv_nonneg x : 0 <= x -> 0 <= / x.
Proof. intros [H|<-]; [left; apply Rinv_0_lt_compat; auto|rewrite Rinv_0; lra]. Qed.

Section Mix.
  Variables (k : nat) (means stds weights : list (list R)).
  Hypothesis Hin : mix_input k means stds weights.
  Let npdf := length means.
  Definition mwnorm := map (fun r => map (fun w => ndiv w (nsum r)) r) weights.

  Lemma mix_build : mixmod_ctor (nd2 k means) (nd2 k stds) (nd2 k weights) =
    Ok (mkmixmod means stds mwnorm [length means]).
  Proof using Hin.
    destruct Hin as (Hk & Hne & Hs & Hw & Lm & Ls & Lw & Ps & Pw & Pt).
    assert (Hpos : forall l w, In l weights -> In w l -> 0 <= w).
    { intros l w Hl Hw'.
      destruct (In_nth _ _ [] Hl) as (r & Hr & El). destruct (In_nth _ _ 0 Hw') as (i & Hi & Ei).
      specialize (Pw r i ltac:(lia) ltac:(rewrite <- (Lw _ Hl); auto)). unfold at2, nth0 in Pw. rewrite El in Pw.
      change (@n0 R RNum) with 0 in Pw. rewrite Ei in Pw. exact Pw. }
    unfold mixmod_ctor. rewrite mix_init_build by auto. cbn [bind]. unfold mixmod_freeze. cbn [m_means m_stds m_weights m_shape].
    change (last (shp (nd2 k means)) 0%nat) with k. rewrite mix_init_build; auto.
    - cbn [bind m_means m_stds m_weights]. do 2 f_equal. unfold mwnorm, wnorm. rewrite map_map. apply map_ext. intros r. apply weights_twice.
    - intros l H. apply in_map_iff in H. destruct H as (r & <- & H). rewrite map_length. auto.
    - intros l w H. apply in_map_iff in H. destruct H as (r & <- & H). intros G. apply in_map_iff in G. destruct G as (w0 & <- & G).
      simpl. apply Rmult_le_pos; [eauto|]. apply Rinv_nonneg. apply nsum_nonneg. intros; eapply Hpos; eauto.
  Qed.

  Definition mm := mkmixmod means stds mwnorm [length means].
  Definition mw (r i : nat) : R := at2 weights r i / rsum k (fun j => at2 weights r j).

  Lemma mw_eq r i : (r < npdf)%nat -> (i < k)%nat -> at2 mwnorm r i = mw r i.
  Proof using Hin.
    destruct Hin as (Hk & Hne & Hs & Hw & Lm & Ls & Lw & Ps & Pw & Pt). intros Hr Hi.
    unfold at2, mwnorm. rewrite nth_map_in with (d' := []) by lia.
    assert (L : length (nth r weights []) = k) by (apply Lw, nth_In; lia).
    rewrite nth0_map by lia. unfold mw, at2. rewrite nsum_rsum, L. reflexivity.
  Qed.
  Lemma mw_ge0 r i : (r < npdf)%nat -> (i < k)%nat -> 0 <= mw r i.
  Proof using Hin.
    destruct Hin as (Hk & Hne & Hs & Hw & Lm & Ls & Lw & Ps & Pw & Pt). intros Hr Hi. unfold mw.
    apply Rmult_le_pos; auto. apply Rlt_le, Rinv_0_lt_compat, Pt. auto.
  Qed.
  Lemma mw_sum r : (r < npdf)%nat -> rsum k (mw r) = 1.
  Proof using Hin.
    destruct Hin as (Hk & Hne & Hs & Hw & Lm & Ls & Lw & Ps & Pw & Pt). intros Hr. unfold mw.
    rewrite (rsum_div k (fun i => at2 weights r i)). field. specialize (Pt r Hr). lra.
  Qed.
  Lemma mix_sum_eq f r x : (r < npdf)%nat ->
    mix_sum f mm x r = rsum k (fun i => mw r i * f (at2 means r i) (at2 stds r i) x).
  Proof using Hin.
    pose proof Hin as (Hk & Hne & Hs & Hw & Lm & Ls & Lw & Ps & Pw & Pt). intros Hr.
    assert (L1 : length (nth r means []) = k) by (apply Lm, nth_In; auto).
    assert (L2 : length (nth r stds []) = k) by (apply Ls, nth_In; unfold npdf in *; lia).
    assert (L3 : length (nth r mwnorm []) = k).
    { unfold mwnorm. rewrite nth_map_in with (d' := []) by (unfold npdf in *; lia). rewrite map_length. apply Lw, nth_In. unfold npdf in *; lia. }
    unfold mix_sum, mm. cbn [m_weights m_means m_stds]. rewrite nsum_combine3, L1 by lia.
    apply rsum_ext. intros i Hi. cbn [fst snd]. rewrite <- mw_eq by auto. reflexivity.
  Qed.

  Variables phi Phi : R -> R.
  Definition mf (r : nat) (x : R) : R := rsum k (fun i => mw r i * (phi ((x - at2 means r i) / at2 stds r i) / at2 stds r i)).
  Definition mF (r : nat) (x : R) : R := rsum k (fun i => mw r i * Phi ((x - at2 means r i) / at2 stds r i)).

  Lemma mf_faithful : always_faithful (mixmod_ens_pdf phi mm) npdf (fin mf).
  Proof using Hin.
    pose proof Hin as (Hk & Hne & _).
    assert (Hp : (0 < npdf)%nat) by (unfold npdf; destruct means; [congruence|simpl; lia]).
    assert (Hm : pointwise_method (mix_sum (comp_pdf phi) mm) (mixmod_pdf phi mm)).
    { intros xf rf Hl Hn'. unfold mixmod_pdf. cbn [nd1 dat]. rewrite vectorize2_same by auto. auto. }
    split.
    - intros xs. unfold mixmod_ens_pdf. rewrite (pm_grid _ _ _ _ Hm) by auto. unfold table. f_equal. apply map_seq_ext.
      intros r Hr. apply map_ext. intros x. rewrite mix_sum_eq by auto. reflexivity.
    - intros X w HX Hl. unfold mixmod_ens_pdf. rewrite (pm_mat _ _ _ X w Hm) by auto. f_equal. apply map_seq_ext.
      intros r Hr. apply map_ext. intros x. rewrite mix_sum_eq by auto. reflexivity.
  Qed.
  Lemma mF_faithful : always_faithful (mixmod_ens_cdf Phi mm) npdf (fin mF).
  Proof using Hin.
    pose proof Hin as (Hk & Hne & _).
    assert (Hp : (0 < npdf)%nat) by (unfold npdf; destruct means; [congruence|simpl; lia]).
    assert (Hm : pointwise_method (mix_sum (comp_cdf Phi) mm) (mixmod_cdf Phi mm)).
    { intros xf rf Hl Hn'. unfold mixmod_cdf. cbn [nd1 dat]. rewrite vectorize2_same by auto. auto. }
    split.
    - intros xs. unfold mixmod_ens_cdf. rewrite (pm_grid _ _ _ _ Hm) by auto. unfold table. f_equal. apply map_seq_ext.
      intros r Hr. apply map_ext. intros x. rewrite mix_sum_eq by auto. reflexivity.
    - intros X w HX Hl. unfold mixmod_ens_cdf. rewrite (pm_mat _ _ _ X w Hm) by auto. f_equal. apply map_seq_ext.
      intros r Hr. apply map_ext. intros x. rewrite mix_sum_eq by auto. reflexivity.
  Qed.
  Lemma mf_one X w : npdf = 1%nat -> X <> [] -> (forall l, In l X -> length l = w) -> mixmod_ens_pdf phi mm (PMat X) = Ok (map (map (fin mf 0%nat)) X).
  Proof using Hin.
    intros E1 Hne Hl. pose proof Hin as (Hk & _). unfold mixmod_ens_pdf.
    assert (Hm : pointwise_method (mix_sum (comp_pdf phi) mm) (mixmod_pdf phi mm)).
    { intros xf rf Hl' Hn'. unfold mixmod_pdf. cbn [nd1 dat]. rewrite vectorize2_same by auto. auto. }
    change (m_npdf mm) with npdf. rewrite E1. rewrite (pm_one _ _ X w Hm) by auto. f_equal. apply map_ext. intros l. apply map_ext. intros x. rewrite mix_sum_eq by (rewrite ?E1; auto; fold npdf; lia). reflexivity.
  Qed.
  Lemma mF_one X w : npdf = 1%nat -> X <> [] -> (forall l, In l X -> length l = w) -> mixmod_ens_cdf Phi mm (PMat X) = Ok (map (map (fin mF 0%nat)) X).
  Proof using Hin.
    intros E1 Hne Hl. pose proof Hin as (Hk & _). unfold mixmod_ens_cdf.
    assert (Hm : pointwise_method (mix_sum (comp_cdf Phi) mm) (mixmod_cdf Phi mm)).
    { intros xf rf Hl' Hn'. unfold mixmod_cdf. cbn [nd1 dat]. rewrite vectorize2_same by auto. auto. }
    change (m_npdf mm) with npdf. rewrite E1. change (@rv_cdf R) with (@rv_pdf R). rewrite (pm_one _ _ X w Hm) by auto. f_equal. apply map_ext. intros l. apply map_ext. intros x. rewrite mix_sum_eq by (rewrite ?E1; auto; fold npdf; lia). reflexivity.
  Qed.
  Lemma faithful_evaluates e n F : always_faithful e n (fin F) -> (forall x, e (PScalar x) = e (PGrid [x])) -> evaluates e n F.
  Proof. intros [H _] E x. rewrite E, H. reflexivity. Qed.

  Hypothesis HP : normal_laws phi Phi.
  Lemma mf_ge0 r x : (r < npdf)%nat -> 0 <= mf r x.
  Proof.
    destruct HP as (P1 & _). pose proof Hin as (Hk & Hne & Hs & Hw & Lm & Ls & Lw & Ps & Pw & Pt).
    intros Hr. apply rsum_ge0. intros i Hi. apply Rmult_le_pos; [apply mw_ge0; auto|].
    apply Rmult_le_pos; auto. apply Rlt_le, Rinv_0_lt_compat. apply Ps; auto.
  Qed.
  Lemma mF_mono r x y : (r < npdf)%nat -> x <= y -> mF r x <= mF r y.
  Proof.
    destruct HP as (_ & _ & P3 & _). pose proof Hin as (Hk & Hne & Hs & Hw & Lm & Ls & Lw & Ps & Pw & Pt).
    intros Hr Hxy. apply rsum_le. intros i Hi. apply Rmult_le_compat_l; [apply mw_ge0; auto|]. apply P3.
    apply Rmult_le_compat_r; [apply Rlt_le, Rinv_0_lt_compat, Ps; auto|]. lra.
  Qed.
  Lemma mF_range r x : (r < npdf)%nat -> 0 <= mF r x <= 1.
  Proof.
    destruct HP as (_ & P2 & _). intros Hr. split.
    - apply rsum_ge0. intros i Hi. apply Rmult_le_pos; [apply mw_ge0; auto|apply P2].
    - rewrite <- (mw_sum r Hr). apply rsum_le. intros i Hi.
      assert (0 <= mw r i) by (apply mw_ge0; auto). destruct (P2 ((x - at2 means r i) / at2 stds r i)). nra.
  Qed.
  Lemma mF_derive r x : (r < npdf)%nat -> is_derive (mF r) x (mf r x).
  Proof.
    destruct HP as (_ & _ & _ & P4). pose proof Hin as (Hk & Hne & Hs & Hw & Lm & Ls & Lw & Ps & Pw & Pt).
    intros Hr. unfold mF, mf.
    apply (rsum_derive k (fun i x => mw r i * Phi ((x - at2 means r i) / at2 stds r i))
             (fun i => mw r i * (phi ((x - at2 means r i) / at2 stds r i) / at2 stds r i))).
    intros i Hi. specialize (Ps r i Hr Hi). apply is_derive_scal.
    evar_last. apply (is_derive_comp Phi (fun y => (y - at2 means r i) / at2 stds r i)).
    - apply P4.
    - auto_derive; auto.
    - unfold scal; simpl; unfold mult; simpl. field. lra.
  Qed.

End Mix.

(** ** ppf *)
Lemma linspace_length (a b : R) n : length (np_linspace a b n) = n.
Proof. unfold np_linspace. destruct n as [|[|n]]; auto. rewrite map_length, seq_length. auto. Qed.
Lemma linspace_nth (a b : R) n i : (i < S (S n))%nat ->
  nth0 i (np_linspace a b (S (S n))) = a + INR i * ((b - a) / INR (S n)).
Proof.
  intros Hi. unfold np_linspace, nth0. 
  rewrite nth_indep with (d' := (fun i => a + nofZ (Z.of_nat i) * ((b - a) / nofZ (Z.of_nat (S n)))) 0%nat)
    by (rewrite map_length, seq_length; auto).
  rewrite (map_nth (fun i => a + nofZ (Z.of_nat i) * ((b - a) / nofZ (Z.of_nat (S n)))) (seq 0 (S (S n))) 0%nat i).
  rewrite seq_nth by auto. cbn [nofZ RNum]. rewrite <- !INR_IZR_INZ. reflexivity.
Qed.
Lemma linspace_inc (a b : R) n : a < b -> increasing (np_linspace a b (S (S n))).
Proof.
  intros H. apply nth_ss. intros i j Hij. rewrite linspace_length in Hij.
  rewrite !linspace_nth by lia. apply Rplus_lt_compat_l. apply Rmult_lt_compat_r.
  - apply Rdiv_lt_0_compat; [lra|]. apply lt_0_INR. lia.
  - apply lt_INR. lia.
Qed.
Lemma linspace_first (a b : R) n : nth0 0 (np_linspace a b (S (S n))) = a.
Proof. rewrite linspace_nth by lia. simpl (INR 0). lra. Qed.
Lemma linspace_last (a b : R) n : nlast (np_linspace a b (S (S n))) = b.
Proof.
  rewrite nlast_nth0, linspace_length. rewrite linspace_nth by (simpl; lia). cbn [pred].
  field. apply not_0_INR. lia.
Qed.

Section MixPpf.
  Variables (k : nat) (means stds weights : list (list R)).
  Hypothesis Hin : mix_input k means stds weights.
  Variables phi Phi : R -> R.
  Hypothesis HP : normal_laws phi Phi.
  Let npdf := length means.
  Let M := mm means stds weights.
  Let G := mixmod_grid M.

  Lemma mix_lohi r i : (r < npdf)%nat -> (i < k)%nat ->
    mixmod_min M <= at2 means r i - 6 * at2 stds r i /\ at2 means r i + 6 * at2 stds r i <= mixmod_max M.
  Proof using Hin.
    pose proof Hin as (Hk & Hne & Hs & Hw & Lm & Ls & Lw & Ps & Pw & Pt). intros Hr Hi.
    assert (L1 : length (nth r means []) = k) by (apply Lm, nth_In; auto).
    assert (L2 : length (nth r stds []) = k) by (apply Ls, nth_In; unfold npdf in *; lia).
    split.
    - apply min_in_list. unfold mixmod_lows, M, mm. cbn [m_means m_stds].
      refine (in_map2_concat (fun mu s => nsub mu (nmul (nofZ 6) s)) means stds r i _ _ _ _); unfold npdf in *; lia.
    - apply max_in_list. unfold mixmod_highs, M, mm. cbn [m_means m_stds].
      refine (in_map2_concat (fun mu s => nadd mu (nmul (nofZ 6) s)) means stds r i _ _ _ _); unfold npdf in *; lia.
  Qed.
  Lemma mix_npdf_pos : (0 < npdf)%nat.
  Proof using Hin. destruct Hin as (_ & Hne & _). unfold npdf. destruct means; [congruence|simpl; lia]. Qed.
  Lemma mix_min_max : mixmod_min M < mixmod_max M.
  Proof using Hin.
    pose proof Hin as (Hk & _ & _ & _ & _ & _ & _ & Ps & _).
    destruct (mix_lohi 0 0 mix_npdf_pos Hk). specialize (Ps 0%nat 0%nat mix_npdf_pos Hk). lra.
  Qed.
  Lemma G_inc : increasing G.
  Proof using Hin. apply linspace_inc, mix_min_max. Qed.
  Lemma G_len : length G = 201%nat.
  Proof. apply linspace_length. Qed.

  (** the cdf table of PDF [r] *)
  Definition mtab (r : nat) : list R := map (fun g => mix_sum (comp_cdf Phi) (mm means stds weights) g r) (mixmod_grid (mm means stds weights)).
  Definition mQ (r : nat) (p : R) : R :=
    interp1d (mtab r) (mixmod_grid (mm means stds weights)) (mixmod_min (mm means stds weights)) (mixmod_max (mm means stds weights)) p.

  Lemma mtab_nth r j : (r < npdf)%nat -> (j < 201)%nat -> nth0 j (mtab r) = mF k means stds weights Phi r (nth0 j G).
  Proof using Hin.
    intros Hr Hj. unfold mtab. fold M G. rewrite nth0_map by (rewrite G_len; auto).
    rewrite (mix_sum_eq k means stds weights Hin) by auto. reflexivity.
  Qed.
  Lemma mtab_len r : length (mtab r) = 201%nat.
  Proof. unfold mtab. rewrite map_length. apply G_len. Qed.
  Lemma mtab_nd r : (r < npdf)%nat -> nondecreasing (mtab r).
  Proof using Hin HP.
    intros Hr. apply nth_ss. intros i j Hij. rewrite mtab_len in Hij. rewrite !mtab_nth by (auto; lia).
    apply (mF_mono k means stds weights Hin phi Phi HP); auto. apply inc_le; [apply G_inc|rewrite G_len; lia].
  Qed.

  (** the answer is in the grid cell of the exact quantile *)
  Lemma mQ_cell r p : (r < npdf)%nat ->
    mF k means stds weights Phi r (mixmod_min M) <= p < mF k means stds weights Phi r (mixmod_max M) ->
    exists a b, a < b /\ b - a = (mixmod_max M - mixmod_min M) / 200 /\
      mixmod_min M <= a /\ b <= mixmod_max M /\
      a <= mQ r p <= b /\ mF k means stds weights Phi r a <= p < mF k means stds weights Phi r b.
  Proof using Hin HP.
    intros Hr Hp. assert (Hnd := mtab_nd r Hr).
    assert (G0 : nth0 0 G = mixmod_min M) by apply linspace_first.
    assert (Gl : nth0 200 G = mixmod_max M).
    { rewrite <- (linspace_last (mixmod_min M) (mixmod_max M) 199). rewrite nlast_nth0, linspace_length. reflexivity. }
    destruct (segment_exists (mtab r) p) as (j & Hj & Hx); auto.
    - intros E. pose proof (mtab_len r) as L. rewrite E in L. discriminate.
    - rewrite nlast_nth0, mtab_len, !mtab_nth by (auto; simpl; lia). cbn [pred]. rewrite G0, Gl. auto.
    - rewrite mtab_len in Hj. exists (nth0 j G), (nth0 (S j) G).
      assert (Hlt : nth0 j G < nth0 (S j) G) by (apply inc_lt; [apply G_inc|rewrite G_len; lia]).
      split; auto. split.
      { unfold G, mixmod_grid. rewrite !linspace_nth by lia. rewrite S_INR.
        replace (INR 200) with 200 by (simpl; lra). field. }
      split; [rewrite <- G0; apply inc_le; [apply G_inc|rewrite G_len; lia]|].
      split; [rewrite <- Gl; apply inc_le; [apply G_inc|rewrite G_len; lia]|].
      rewrite <- !mtab_nth by (auto; lia). split; auto.
      unfold mQ. rewrite (interp1d_seg (mtab r) _ _ _ p j) by (auto; rewrite mtab_len; auto).
      apply seg_between; fold M G; lra.
  Qed.

  (** [_ppf] called with the flattened points of a common grid *)
  Lemma ppf_call ps : increasing ps -> ps <> [] ->
    mixmod_ppf Phi M (nd1 (concat (repeat ps npdf))) (nd1 (flat_rows (repeat ps npdf) (seq 0 npdf))) =
    interpolate_multi_x_y (fun xs ys => interp1d xs ys (mixmod_min M) (mixmod_max M))
      (nd1 (concat (repeat ps npdf))) (nd1 (flat_rows (repeat ps npdf) (seq 0 npdf)))
      (map mtab (seq 0 npdf)) G.
  Proof using Hin.
    intros Hps Hne. pose proof mix_npdf_pos as Hk.
    set (xf := concat (repeat ps npdf)). set (rf := flat_rows (repeat ps npdf) (seq 0 npdf)).
    assert (Hlen : length xf = length rf).
    { unfold xf, rf. rewrite flat_rows_length; auto. rewrite repeat_length, seq_length; auto. }
    assert (Hxf : length xf = (npdf * length ps)%nat) by apply concat_repeat_length.
    assert (Hrin : forall r, In r rf <-> In r (seq 0 npdf)).
    { intros. unfold rf. rewrite <- (seq_length npdf 0) at 1. apply flat_rows_in; auto. }
    assert (Hm1 : (0 < length ps)%nat) by (destruct ps; simpl; [congruence|lia]).
    assert (Hux : np_unique xf = ps).
    { rewrite (np_unique_ext xf ps) by (intros; apply concat_repeat_in; auto).
      apply (unique_by_id (@nleb R RNum) Rnleb_total Rnleb_trans Rnleb_antisym).
      eapply ss_weaken; [|exact Hps]. intros a b Hab. split; [|lra]. destruct (nleb_reflect a b); auto. lra. }
    assert (Hur : np_unique_nat rf = seq 0 npdf).
    { rewrite (np_unique_nat_ext rf (seq 0 npdf)); auto. apply np_unique_nat_sorted_id, seq_sorted. }
    assert (Hcase : exists c xx rr, get_eval_case (nd1 xf) (nd1 rf) = Ok (c, xx, rr) /\
              (c = CASE_FACTOR \/ c = CASE_FLAT) /\ dat rr = seq 0 npdf).
    { unfold get_eval_case, np_ndim, np_size. cbn [nd1 shp dat length prod fold_right Nat.leb andb negb Nat.eqb].
      rewrite !Nat.mul_1_r. rewrite <- Hlen, Hux, Hur, Hxf, seq_length, orb_diag.
      assert (one : length ps = 1%nat -> rf = seq 0 npdf).
      { intros E. destruct ps as [|t [|? ?]]; simpl in E; try lia.
        unfold rf. rewrite <- (seq_length npdf 0) at 1. apply flat_rows_single. }
      destruct (Nat.eqb_spec (npdf * length ps) 1) as [E|E].
      - do 3 eexists. split; [reflexivity|]. split; auto. cbn [nd1 dat]. apply one. nia.
      - assert (Hrr : dat (if (npdf =? npdf * length ps)%nat then nd1 rf else nd1 (seq 0 npdf)) = seq 0 npdf).
        { destruct (Nat.eqb_spec npdf (npdf * length ps)); auto. cbn [nd1 dat]. apply one. nia. }
        assert (S1 : prod (shp (if (length ps =? npdf * length ps)%nat then nd1 xf else nd1 ps)) = length ps).
        { destruct (Nat.eqb_spec (length ps) (npdf * length ps)); simpl; lia. }
        assert (S2 : prod (shp (if (npdf =? npdf * length ps)%nat then nd1 rf else nd1 (seq 0 npdf))) = npdf).
        { destruct (Nat.eqb_spec npdf (npdf * length ps)); simpl; try rewrite seq_length; lia. }
        rewrite S1, S2, Nat.mul_comm, Nat.eqb_refl. cbn [negb].
        do 3 eexists. split; [reflexivity|]. split; auto. }
    destruct Hcase as (c & xx & rr & E & Hc & Hrr).
    unfold mixmod_ppf. rewrite E. cbn [bind]. rewrite Hrr.
    assert (Hx : existsb (fun r => (length (map (fun r0 => map (fun g => mix_sum (comp_cdf Phi) M g r0) (mixmod_grid M)) (seq 0 npdf)) <=? r)%nat)
                   (dat (nd1 rf)) = false).
    { apply not_true_is_false. intros Ex. apply existsb_exists in Ex. destruct Ex as (r & Hr & Ex).
      rewrite map_length, seq_length in Ex. apply Nat.leb_le in Ex. cbn [nd1 dat] in Hr. apply Hrin, in_seq in Hr. lia. }
    rewrite Hx. destruct Hc as [-> | ->]; reflexivity.
  Qed.

  Lemma ppf_grid ps : increasing ps -> (forall p, In p ps -> 0 < p < 1) ->
    mixmod_ens_ppf Phi M (PGrid ps) = table npdf (fin mQ) ps.
  Proof using Hin.
    intros Hps Hp01. pose proof mix_npdf_pos as Hk.
    set (m' := fun x row => interpolate_multi_x_y (fun xs ys => interp1d xs ys (mixmod_min M) (mixmod_max M)) x row
                 (map mtab (seq 0 npdf)) G).
    assert (Hall : forallb (fun p => nltb n0 p && nltb p n1) (concat (repeat ps npdf)) = true).
    { apply forallb_forall. intros p Hp. apply concat_repeat_in in Hp; auto. specialize (Hp01 p Hp).
      destruct (nltb_reflect n0 p) as [L|L]; [|exfalso; revert L; numR; lra].
      destruct (nltb_reflect p n1) as [L2|L2]; [auto|exfalso; revert L2; numR; lra]. }
    assert (E : mixmod_ens_ppf Phi M (PGrid ps) = rv_ppf npdf m' (PGrid ps)).
    { unfold mixmod_ens_ppf, rv_ppf, rv_eval. cbn [broadcast_points bind].
      change (m_npdf M) with npdf. rewrite Hall.
      destruct (length (concat (repeat ps npdf)) =? 0)%nat eqn:E0; auto.
      rewrite ppf_call; auto. intros ->. rewrite concat_repeat_length in E0. simpl in E0.
      rewrite Nat.mul_0_r in E0. discriminate. }
    rewrite E.
    destruct (gen_ppf _ npdf m' mQ (rv_ppf npdf m')
                (multi_x_y_dispatches (fun xs ys => interp1d xs ys (mixmod_min M) (mixmod_max M)) (map mtab (seq 0 npdf)) G npdf)
                Hk (fun _ => eq_refl)) as [Hg _].
    { intros r x Hr. rewrite nth_map_in with (d' := 0%nat) by (rewrite seq_length; auto). rewrite seq_nth by auto. reflexivity. }
    rewrite Hg by auto. unfold table. f_equal. apply map_ext. intros r. apply map_ext_in. intros p Hp.
    specialize (Hp01 p Hp). unfold with_ends, fin. destruct (Rlt_dec 0 p); [|lra]. destruct (Rlt_dec p 1); [auto|lra].
  Qed.
End MixPpf.

(** The call that scipy makes for points that do not form a common grid. *)
Lemma flat_rows_nth (X : list (list R)) w s j : (forall l, In l X -> length l = w) -> (j < length X * w)%nat ->
  nth j (flat_rows X (seq s (length X))) 0%nat = (s + j / w)%nat.
Proof.
  revert s j. induction X as [|l X IH]; intros s j Hl Hj; [simpl in Hj; lia|].
  assert (Ll : length l = w) by (apply Hl; left; auto).
  unfold flat_rows in *. cbn [length seq map2 concat] in *.
  assert (Hw : (0 < w)%nat) by nia.
  destruct (Nat.lt_ge_cases j w) as [H|H].
  - rewrite app_nth1 by (rewrite map_length; lia). rewrite nth_indep with (d' := s) by (rewrite map_length; lia).
    rewrite (map_nth (fun _ => s) l 0 j). rewrite Nat.div_small by auto. lia.
  - rewrite app_nth2 by (rewrite map_length; lia). rewrite map_length, Ll.
    rewrite IH by (try (intros; apply Hl; right; auto); nia).
    replace j with ((j - w) + 1 * w)%nat at 2 by lia. rewrite Nat.div_add by lia. lia.
Qed.

Section MixPpfFlat.
  Variables (k : nat) (means stds weights : list (list R)).
  Hypothesis Hin : mix_input k means stds weights.
  Variable Phi : R -> R.
  Let npdf := length means.
  Let M := mm means stds weights.
  Let G := mixmod_grid M.

  Lemma ppf_flat X w : (2 <= npdf)%nat -> (2 <= w)%nat -> length X = npdf -> (forall l, In l X -> length l = w) ->
    distinct (concat X) <> w -> (forall p, In p (concat X) -> 0 < p < 1) ->
    mixmod_ens_ppf Phi M (PMat X) =
    Ok (map (fun r => map (fun p => Fin (mQ means stds weights Phi (r / w) p)) (nth r X [])) (seq 0 npdf)).
  Proof using.
    intros H2 Hw HX Hl Hd H01.
    set (xf := concat X). set (rf := flat_rows X (seq 0 npdf)).
    assert (Hxf : length xf = (npdf * w)%nat) by (unfold xf; rewrite (concat_length_const X w Hl), HX; auto).
    assert (Hlen : length xf = length rf) by (unfold rf; rewrite flat_rows_length; auto; rewrite seq_length; auto).
    assert (Hrin : forall r, In r rf <-> In r (seq 0 npdf)).
    { intros r. unfold rf. apply (flat_rows_in_mat X (seq 0 npdf) r w); auto; [lia|rewrite seq_length; auto]. }
    assert (Hur : np_unique_nat rf = seq 0 npdf).
    { rewrite (np_unique_nat_ext rf (seq 0 npdf)); auto. apply np_unique_nat_sorted_id, seq_sorted. }
    assert (Hc : get_eval_case (nd1 xf) (nd1 rf) = Ok (CASE_FLAT, nd1 xf, nd1 rf)).
    { unfold get_eval_case, np_ndim, np_size. cbn [nd1 shp dat length prod fold_right Nat.leb andb negb Nat.eqb].
      rewrite !Nat.mul_1_r, <- Hlen, Hur, Hxf, seq_length, orb_diag, np_unique_distinct.
      destruct (Nat.eqb_spec (npdf * w) 1); [nia|].
      destruct (Nat.eqb_spec npdf (npdf * w)); [nia|].
      assert (S2 : prod (shp (nd1 (seq 0 npdf))) = npdf) by (simpl; rewrite seq_length; lia).
      assert (S1 : prod (shp (if (distinct xf =? npdf * w)%nat then nd1 xf else nd1 (np_unique xf))) = distinct xf).
      { destruct (Nat.eqb_spec (distinct xf) (npdf * w)); simpl; [lia|]. rewrite np_unique_distinct. lia. }
      rewrite S1, S2. destruct (Nat.eqb_spec (distinct xf * npdf) (npdf * w)) as [E|E]; auto.
      exfalso. apply Hd. fold xf. nia. }
    assert (Hall : forallb (fun p => nltb n0 p && nltb p n1) xf = true).
    { apply forallb_forall. intros p Hp. specialize (H01 p Hp).
      destruct (nltb_reflect n0 p) as [L|L]; [|exfalso; revert L; numR; lra].
      destruct (nltb_reflect p n1) as [L2|L2]; [auto|exfalso; revert L2; numR; lra]. }
    unfold mixmod_ens_ppf, rv_ppf, rv_eval. change (m_npdf M) with npdf. cbn [broadcast_points].
    rewrite HX, Nat.eqb_refl. cbn [bind]. fold xf rf. rewrite Hall, HX.
    destruct (Nat.eqb_spec (length xf) 0) as [E0|E0]; [nia|].
    set (tabs := map (fun r => map (fun g => mix_sum (comp_cdf Phi) M g r) G) rf).
    assert (Hm : mixmod_ppf Phi M (nd1 xf) (nd1 rf) = Ok (map2 (fun p r => mQ means stds weights Phi (r / w) p) xf rf)).
    { unfold mixmod_ppf. rewrite Hc. cbn [bind dat nd1]. fold G tabs.
      assert (Hx : existsb (fun r => (length tabs <=? r)%nat) rf = false).
      { apply not_true_is_false. intros Ex. apply existsb_exists in Ex. destruct Ex as (r & Hr & Ex).
        unfold tabs in Ex. rewrite map_length in Ex. apply Nat.leb_le in Ex. apply Hrin, in_seq in Hr. nia. }
      rewrite Hx. unfold interpolate_multi_x_y, dispatch. 
      change (mknd [length xf] xf) with (nd1 xf). change (mknd [length rf] rf) with (nd1 rf).
      rewrite Hc. cbn [bind dat nd1]. rewrite vectorize2_same by auto.
      f_equal.
      assert (Ex : forall xs rs, (forall r, In r rs -> In r rf) ->
         map2 (fun (xv : R) rv => interp1d (nth rv tabs []) G (mixmod_min M) (mixmod_max M) xv) xs rs =
         map2 (fun p r => mQ means stds weights Phi (r / w) p) xs rs).
      { induction xs; destruct rs; simpl; intros Hrs; auto. f_equal; [|apply IHxs; auto].
        assert (Hn : (n < npdf)%nat) by (specialize (Hrs n (or_introl eq_refl)); apply Hrin, in_seq in Hrs; lia).
        unfold tabs. rewrite nth_map_in with (d' := 0%nat) by (rewrite <- Hlen, Hxf; nia).
        assert (En : nth n rf 0%nat = (n / w)%nat).
        { unfold rf. replace (seq 0 npdf) with (seq 0 (length X)) by (rewrite HX; auto).
          rewrite (flat_rows_nth X w) by (auto; rewrite HX; nia). reflexivity. }
        rewrite En. reflexivity. }
      apply Ex. auto. }
    rewrite Hm. cbn [bind]. f_equal.
    assert (Hwd : match X with [] => 0%nat | l :: _ => length l end = w).
    { destruct X as [|l X']; [simpl in HX; lia|]. apply Hl. left. auto. }
    rewrite Hwd. unfold xf at 2, rf. rewrite map2_flat by (rewrite seq_length; auto).
    rewrite pointwise_nth by auto.
    rewrite place_all.
    -
      rewrite concat_map. 
      assert (C : forall n (ls : list (list (xnum R))), length ls = n -> (forall l0, In l0 ls -> length l0 = w) ->
                  chunks n w (concat ls) = ls) by (intros n ls <- Hls; apply chunks_concat; auto).
      rewrite C.
      + rewrite map_map. apply map_ext. intros r. rewrite map_map. auto.
      + rewrite !map_length, seq_length. auto.
      + intros l0 H0. rewrite map_map in H0. apply in_map_iff in H0. destruct H0 as (r & <- & Hr).
        rewrite !map_length. apply Hl, nth_In. apply in_seq in Hr. lia.
    - rewrite Hxf.
      rewrite (concat_length_const _ w).
      + rewrite map_length, seq_length. auto.
      + intros l0 H0. apply in_map_iff in H0. destruct H0 as (r & <- & Hr). rewrite map_length. apply Hl, nth_In. apply in_seq in Hr. lia.
    - intros p Hp. rewrite forallb_forall in Hall. apply Hall. auto.
  Qed.
End MixPpfFlat.

(** ** Assembled statements *)
Lemma c15_weights : forall k means stds weights, mix_input k means stds weights ->
  exists m, mixmod_ctor (nd2 k means) (nd2 k stds) (nd2 k weights) = Ok m /\
    m_means m = means /\ m_stds m = stds /\ length (m_weights m) = length weights /\
    forall r, (r < length means)%nat ->
      (forall i, (i < k)%nat -> 0 <= at2 (m_weights m) r i) /\
      rsum k (fun i => at2 (m_weights m) r i) = 1 /\
      exists c, 0 < c /\ forall i, (i < k)%nat -> at2 (m_weights m) r i = c * at2 weights r i.
Proof.
  intros k means stds weights Hin. eexists. split; [apply mix_build; auto|].
  split; auto. split; auto. split; [apply map_length|]. cbn [m_weights]. intros r Hr.
  assert (E : forall i, (i < k)%nat -> at2 (mwnorm weights) r i = mw k weights r i) by (intros; eapply mw_eq; eauto).
  split; [|split].
  - intros i Hi. rewrite E by auto. eapply mw_ge0; eauto.
  - rewrite (rsum_ext k _ (mw k weights r)) by auto. eapply mw_sum; eauto.
  - destruct Hin as (_ & _ & _ & _ & _ & _ & _ & _ & _ & Pt). specialize (Pt r Hr).
    exists (/ rsum k (fun i => at2 weights r i)). split; [apply Rinv_0_lt_compat; auto|].
    intros i Hi. rewrite E by auto. unfold mw, Rdiv. lra.
Qed.
Lemma c15_eval : forall k means stds weights m, mix_input k means stds weights ->
  mixmod_ctor (nd2 k means) (nd2 k stds) (nd2 k weights) = Ok m ->
  forall phi Phi, normal_laws phi Phi ->
  exists f F, evaluates (mixmod_ens_pdf phi m) (length means) f /\ evaluates (mixmod_ens_cdf Phi m) (length means) F /\
    forall r, (r < length means)%nat ->
      (forall x, f r x = rsum k (fun i => at2 (m_weights m) r i *
                           (phi ((x - at2 means r i) / at2 stds r i) / at2 stds r i))) /\
      (forall x, F r x = rsum k (fun i => at2 (m_weights m) r i * Phi ((x - at2 means r i) / at2 stds r i))) /\
      (forall x, 0 <= f r x) /\ (forall x, 0 <= F r x <= 1) /\
      (forall x y, x <= y -> F r x <= F r y) /\ (forall x, is_derive (F r) x (f r x)).
Proof.
  intros k means stds weights m Hin E phi Phi HP. rewrite (mix_build k means stds weights Hin) in E. injection E as <-.
  exists (mf k means stds weights phi), (mF k means stds weights Phi).
  split; [apply faithful_evaluates; [apply mf_faithful; auto|reflexivity]|].
  split; [apply faithful_evaluates; [apply mF_faithful; auto|reflexivity]|].
  cbn [m_weights]. intros r Hr.
  assert (E : forall i, (i < k)%nat -> at2 (mwnorm weights) r i = mw k weights r i) by (intros; eapply mw_eq; eauto).
  split; [|split; [|split; [|split; [|split]]]].
  - intros x. apply rsum_ext. intros. rewrite E by auto. auto.
  - intros x. apply rsum_ext. intros. rewrite E by auto. auto.
  - intros x. apply (mf_ge0 k means stds weights Hin phi Phi HP); auto.
  - intros x. apply (mF_range k means stds weights Hin phi Phi HP); auto.
  - intros x y. apply (mF_mono k means stds weights Hin phi Phi HP); auto.
  - intros x. apply (mF_derive k means stds weights Hin phi Phi HP); auto.
Qed.
Lemma c15_negative : forall k means stds weights,
  (forall l, In l means -> length l = k) -> (forall l, In l stds -> length l = k) -> (forall l, In l weights -> length l = k) ->
  (exists l w, In l weights /\ In w l /\ w < 0) ->
  mixmod_ctor (nd2 k means) (nd2 k stds) (nd2 k weights) = Err ValueError.
Proof.
  intros k means stds weights Lm Ls Lw (l & w & Hl & Hw & Hn).
  unfold mixmod_ctor, mixmod_init. rewrite !reshape_nd2 by auto. cbn [bind]. rewrite !rows_of_nd2 by auto.
  assert (E : existsb (existsb (fun w => nltb w n0)) weights = true).
  { apply existsb_exists. exists l. split; auto. apply existsb_exists. exists w. split; auto.
    destruct (nltb_reflect w n0) as [L|L]; [reflexivity|exfalso; apply L; exact Hn]. }
  rewrite E. reflexivity.
Qed.
Lemma c68_faithful : forall k means stds weights m phi Phi, mix_input k means stds weights ->
  mixmod_ctor (nd2 k means) (nd2 k stds) (nd2 k weights) = Ok m ->
  exists f F, evaluates (mixmod_ens_pdf phi m) (length means) f /\ evaluates (mixmod_ens_cdf Phi m) (length means) F /\
    (forall xs, mixmod_ens_pdf phi m (PGrid xs) = table (length means) (fin f) xs) /\
    (forall xs, mixmod_ens_cdf Phi m (PGrid xs) = table (length means) (fin F) xs) /\
    (forall X w, length X = length means -> (forall l, In l X -> length l = w) ->
       mixmod_ens_pdf phi m (PMat X) = Ok (map (fun r => map (fin f r) (nth r X [])) (seq 0 (length means))) /\
       mixmod_ens_cdf Phi m (PMat X) = Ok (map (fun r => map (fin F r) (nth r X [])) (seq 0 (length means)))).
Proof.
  intros k means stds weights m phi Phi Hin E. rewrite (mix_build k means stds weights Hin) in E. injection E as <-.
  exists (mf k means stds weights phi), (mF k means stds weights Phi).
  pose proof (mf_faithful k means stds weights Hin phi) as Hf. pose proof (mF_faithful k means stds weights Hin Phi) as HF.
  split; [apply faithful_evaluates; [apply Hf|reflexivity]|].
  split; [apply faithful_evaluates; [apply HF|reflexivity]|].
  destruct Hf as [Hf1 Hf2], HF as [HF1 HF2]. split; auto. split; auto.
  intros X w HX Hl. split; [apply (Hf2 X w); auto|apply (HF2 X w); auto].
Qed.
(** The range of the table: six standard deviations beyond every component. *)
Definition mix_range (k : nat) (means stds : list (list R)) (lo hi : R) : Prop :=
  (forall r i, (r < length means)%nat -> (i < k)%nat ->
     lo <= at2 means r i - 6 * at2 stds r i /\ at2 means r i + 6 * at2 stds r i <= hi).
Lemma c54_ppf : forall k means stds weights m phi Phi, mix_input k means stds weights ->
  mixmod_ctor (nd2 k means) (nd2 k stds) (nd2 k weights) = Ok m -> normal_laws phi Phi ->
  exists F Q lo hi, evaluates (mixmod_ens_cdf Phi m) (length means) F /\
    evaluates_on 0 1 (mixmod_ens_ppf Phi m) (length means) Q /\
    (forall ps, increasing ps -> (forall p, In p ps -> 0 < p < 1) ->
       mixmod_ens_ppf Phi m (PGrid ps) = table (length means) (fin Q) ps) /\
    mix_range k means stds lo hi /\
    forall r p, (r < length means)%nat -> F r lo <= p < F r hi ->
      exists a b, b - a = (hi - lo) / 200 /\ lo <= a < b /\ b <= hi /\ a <= Q r p <= b /\ F r a <= p < F r b.
Proof.
  intros k means stds weights m phi Phi Hin E HP. rewrite (mix_build k means stds weights Hin) in E. injection E as <-.
  exists (mF k means stds weights Phi), (mQ means stds weights Phi),
    (mixmod_min (mm means stds weights)), (mixmod_max (mm means stds weights)).
  pose proof (ppf_grid k means stds weights Hin Phi) as Hg.
  split; [apply faithful_evaluates; [apply mF_faithful; auto|reflexivity]|].
  split; [|split; [exact Hg|split]].
  - intros p Hp.
    assert (E : mixmod_ens_ppf Phi (mm means stds weights) (PGrid [p]) = table (length means) (fin (mQ means stds weights Phi)) [p]).
    { apply Hg; [repeat constructor|]. intros p' [<-|[]]. auto. }
    exact E.
  - intros r i Hr Hi. apply (mix_lohi k means stds weights Hin); auto.
  - intros r p Hr Hp. destruct (mQ_cell k means stds weights Hin phi Phi HP r p Hr Hp) as (a & b & H1 & H2 & H3 & H4 & H5 & H6).
    exists a, b. repeat split; auto; try lra.
Qed.

Lemma c69_flat : forall k means stds weights m phi Phi, mix_input k means stds weights ->
  mixmod_ctor (nd2 k means) (nd2 k stds) (nd2 k weights) = Ok m -> normal_laws phi Phi ->
  exists Q, evaluates_on 0 1 (mixmod_ens_ppf Phi m) (length means) Q /\
    forall X w, (2 <= length means)%nat -> (2 <= w)%nat -> length X = length means ->
      (forall l, In l X -> length l = w) -> (forall p, In p (concat X) -> 0 < p < 1) ->
      distinct (concat X) <> w ->
      mixmod_ens_ppf Phi m (PMat X) =
      Ok (map (fun r => map (fun p => Fin (Q (r / w)%nat p)) (nth r X [])) (seq 0 (length means))).
Proof.
  intros k means stds weights m phi Phi Hin E HP. rewrite (mix_build k means stds weights Hin) in E. injection E as <-.
  exists (mQ means stds weights Phi). split.
  - intros p Hp.
    assert (E : mixmod_ens_ppf Phi (mm means stds weights) (PGrid [p]) = table (length means) (fin (mQ means stds weights Phi)) [p]).
    { apply (ppf_grid k means stds weights Hin Phi); [repeat constructor|]. intros p' [<-|[]]. auto. }
    exact E.
  - intros X w H1 H2 H3 H4 H5 H6. apply (ppf_flat means stds weights Phi X w); auto.
Qed.

(** ** Refutations, computed over Q with the distribution function of the uniform law on [-1,1] *)
Definition uPhi (z : Q) : Q := nclip 0%Q 1%Q (nmul (1 # 2)%Q (nadd z 1%Q)).
(** two narrow PDFs, at 0 and at 10 *)
Definition mix_means : list (list Q) := [[0]; [10]]%Q.
Definition mix_ones : list (list Q) := [[1]; [1]]%Q.
Lemma c54_repeated_grid_refuted :
  exists m, mixmod_ctor (nd2 1 mix_means) (nd2 1 mix_ones) (nd2 1 mix_ones) = Ok m /\
    mixmod_ens_ppf uPhi m (PScalar (1 # 2)%Q) = Ok [[Fin (0 # 1)]; [Fin (10 # 1)]]%Q /\
    mixmod_ens_ppf uPhi m (PGrid [1 # 2; 1 # 2]%Q) = Ok [[Fin (0 # 1); Fin (0 # 1)]; [Fin (0 # 1); Fin (0 # 1)]]%Q.
Proof. eexists. split; [vm_compute; reflexivity|]. split; vm_compute; reflexivity. Qed.
Lemma c54_matrix_refuted :
  exists m, mixmod_ctor (nd2 1 mix_means) (nd2 1 mix_ones) (nd2 1 mix_ones) = Ok m /\
    mixmod_ens_ppf uPhi m (PScalar (1 # 2)%Q) = Ok [[Fin (0 # 1)]; [Fin (10 # 1)]]%Q /\
    mixmod_ens_ppf uPhi m (PMat [[1 # 2; 1 # 4]; [1 # 2; 3 # 4]]%Q) =
      Ok [[Fin (0 # 1); Fin (-(1 # 2))]; [Fin (0 # 1); Fin (1 # 2)]]%Q.
Proof. eexists. split; [vm_compute; reflexivity|]. split; vm_compute; reflexivity. Qed.
(** One PDF asked for a grid of probabilities that includes 0: an exception. *)
Lemma c54_single_refuted :
  exists m, mixmod_ctor (nd2 1 [[0]]%Q) (nd2 1 [[1]]%Q) (nd2 1 [[1]]%Q) = Ok m /\
    mixmod_ens_ppf uPhi m (PGrid [0; 1 # 2]%Q) = Err ValueError.
Proof. eexists. split; [vm_compute; reflexivity|]. vm_compute; reflexivity. Qed.

(** ** The hypotheses can be met *)
Lemma mix_input_example : mix_input 2 [[0; 1]; [3; 5]] [[1; 2]; [1; 1]] [[1; 3]; [2; 0]].
Proof.
  unfold mix_input. split; [lia|]. split; [discriminate|]. do 2 (split; [reflexivity|]).
  do 3 (split; [intros l H; simpl in H; repeat (destruct H as [<-|H]; auto); destruct H|]).
  split; [|split].
  - intros [|[|r]] [|[|i]] Hr Hi; simpl in *; try lia; unfold at2, nth0; simpl; lra.
  - intros [|[|r]] [|[|i]] Hr Hi; simpl in *; try lia; unfold at2, nth0; simpl; lra.
  - intros [|[|r]] Hr; simpl in *; try lia; unfold at2, nth0; simpl; lra.
Qed.
Lemma logistic_laws : normal_laws (fun z => exp (- z) / (1 + exp (- z)) ^ 2) (fun z => / (1 + exp (- z))).
Proof.
  assert (P : forall z, 0 < exp z) by apply exp_pos.
  split; [|split; [|split]].
  - intros z. specialize (P (- z)). apply Rmult_le_pos; [lra|]. apply Rlt_le, Rinv_0_lt_compat, pow_lt. lra.
  - intros z. specialize (P (- z)). split; [apply Rlt_le, Rinv_0_lt_compat; lra|].
    rewrite <- Rinv_1. apply Rinv_le_contravar; lra.
  - intros x y H. pose proof (P (- y)). apply Rinv_le_contravar; [lra|].
    apply Rplus_le_compat_l. destruct H as [H| ->]; [|lra]. apply Rlt_le, exp_increasing. lra.
  - intros z. specialize (P (- z)). auto_derive; [lra|]. field. lra.
Qed.
