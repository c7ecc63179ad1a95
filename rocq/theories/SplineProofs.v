(** The spline class: construction, pointwise evaluation. *)
From Coq Require Import List Arith ZArith Bool Lia Reals Lra.
From Verif Require Import Num NumProofs Py NdArray NumpyLib Utils ScipyWrap Spec SplinePdf SortProofs EvalProofs NdProofs InterpProofs BinProofs HistProofs EvalTheorems MixmodTheorems.
Import ListNotations.
Local Open Scope list_scope.
Local Open Scope R_scope.

Lemma spline_init_build n w (x y k : list (list R)) : (0 < n)%nat -> x <> [] -> length y = length x -> (forall l, In l x -> length l = n) -> (forall l, In l y -> length l = n) ->
  (forall l, In l k -> length l = w) ->
  spline_init (nd2 n x) (nd2 n y) (nd2 w k) = Ok (mkspline x y k (nminimum (nhead (concat x)) (tl (concat x))) [length x]).
Proof.
  intros Hn Hne Hy Lx Ly Lk. unfold spline_init. cbn [nd2 shp dat]. rewrite Hy. destruct (list_eq_dec Nat.eq_dec [length x; n] [length x; n]) as [_|H]; [|congruence]. cbn [negb].
  replace (length (concat x) =? 0)%nat with false.
  2:{ symmetry. apply Nat.eqb_neq. destruct x as [|l x]; [congruence|]. cbn [concat]. rewrite app_length, (Lx l) by (left; reflexivity). lia. }
  change (mknd [length x; n] (concat x)) with (nd2 n x). rewrite <- Hy. change (mknd [length y; n] (concat y)) with (nd2 n y). change (mknd [length k; w] (concat k)) with (nd2 w k).
  rewrite !reshape_nd2 by auto. cbn [bind]. rewrite !rows_of_nd2 by auto. cbn [nd2 shp removelast]. reflexivity.
Qed.
Lemma spline_build n w (x y k : list (list R)) : (0 < n)%nat -> x <> [] -> length y = length x -> (forall l, In l x -> length l = n) -> (forall l, In l y -> length l = n) ->
  (forall l, In l k -> length l = w) ->
  spline_ctor (nd2 n x) (nd2 n y) (nd2 w k) = Ok (mkspline x y k (nminimum (nhead (concat x)) (tl (concat x))) [length x]).
Proof.
  intros Hn Hne Hy Lx Ly Lk. unfold spline_ctor. rewrite spline_init_build by auto. cbn [bind]. unfold spline_freeze. cbn [sp_x sp_y sp_n sp_shape].
  change (last (shp (nd2 n x)) 0%nat) with n. change (last (shp (nd2 w k)) 0%nat) with w. rewrite spline_init_build by auto. reflexivity.
Qed.
Lemma order_value k : Z.to_nat (nfloor (nth0 0 [INR k])) = k.
Proof. cbn [nth0 nth]. rewrite (nfloor_unique (INR k) (Z.of_nat k)) by (rewrite INR_IZR_INZ; lra). apply Nat2Z.id. Qed.
Lemma spline_orders (s : spline R) : (length (sp_x s) <= length (sp_n s))%nat -> (forall l, In l (sp_n s) -> exists k : nat, (k <= 5)%nat /\ l = [INR k]) -> orders_ok s = Ok tt.
Proof.
  intros H1 H2. unfold orders_ok, sp_npdf. destruct (Nat.ltb_spec (length (sp_n s)) (length (sp_x s))); [lia|].
  replace (forallb _ (sp_n s)) with true; [reflexivity|]. symmetry. apply forallb_forall. intros l Hl. destruct (H2 l Hl) as (k & Hk & ->).
  apply andb_true_intro. split.
  - destruct (nleb_reflect n0 (INR k)) as [A|A]; [reflexivity|]. exfalso. revert A. numR. pose proof (pos_INR k). lra.
  - destruct (nleb_reflect (INR k) (nofZ 5)) as [A|A]; [reflexivity|]. exfalso. revert A. numR. apply le_INR in Hk. simpl in Hk. lra.
Qed.
Lemma spline_pointwise_pdf (s : spline R) : orders_ok s = Ok tt ->
  let F r x := Fin (splev (nth r (sp_x s) []) (nth r (sp_y s) []) (order_of s r) x) in
  ((0 < sp_npdf s)%nat -> always_faithful (spline_ens_pdf s) (sp_npdf s) F) /\
  (forall X w, sp_npdf s = 1%nat -> X <> [] -> (forall l, In l X -> length l = w) -> spline_ens_pdf s (PMat X) = Ok (map (map (F 0%nat)) X)).
Proof.
  intros Hs F. set (g := fun xv r => splev (nth r (sp_x s) []) (nth r (sp_y s) []) (order_of s r) xv).
  assert (Hm : pointwise_method g (spline_pdf s)).
  { intros xf rf Hl Hn. unfold spline_pdf. rewrite Hs. cbn [bind nd1 dat]. rewrite vectorize2_same by auto. reflexivity. }
  split; [intros Hp; split|].
  - intros xs. unfold spline_ens_pdf. rewrite (pm_grid _ _ _ _ Hm) by auto. reflexivity.
  - intros X w HX Hl. unfold spline_ens_pdf. rewrite (pm_mat _ _ _ X w Hm) by auto. reflexivity.
  - intros X w E1 Hne Hl. unfold spline_ens_pdf. rewrite E1, (pm_one _ _ X w Hm) by auto. reflexivity.
Qed.
Lemma spline_pointwise_cdf (s : spline R) : orders_ok s = Ok tt ->
  let F r x := Fin (splint (nth r (sp_x s) []) (nth r (sp_y s) []) (order_of s r) (sp_min s) x) in
  ((0 < sp_npdf s)%nat -> always_faithful (spline_ens_cdf s) (sp_npdf s) F) /\
  (forall X w, sp_npdf s = 1%nat -> X <> [] -> (forall l, In l X -> length l = w) -> spline_ens_cdf s (PMat X) = Ok (map (map (F 0%nat)) X)).
Proof.
  intros Hs F. set (g := fun xv r => splint (nth r (sp_x s) []) (nth r (sp_y s) []) (order_of s r) (sp_min s) xv).
  assert (Hm : pointwise_method g (spline_cdf s)).
  { intros xf rf Hl Hn. unfold spline_cdf. rewrite Hs. cbn [bind nd1 dat]. rewrite vectorize2_same by auto. reflexivity. }
  split; [intros Hp; split|].
  - intros xs. unfold spline_ens_cdf. change (@rv_cdf R) with (@rv_pdf R). rewrite (pm_grid _ _ _ _ Hm) by auto. reflexivity.
  - intros X w HX Hl. unfold spline_ens_cdf. change (@rv_cdf R) with (@rv_pdf R). rewrite (pm_mat _ _ _ X w Hm) by auto. reflexivity.
  - intros X w E1 Hne Hl. unfold spline_ens_cdf. change (@rv_cdf R) with (@rv_pdf R). rewrite E1, (pm_one _ _ X w Hm) by auto. reflexivity.
Qed.
(** below all knots the lower limit does not matter *)
Lemma clip_low (lo hi a : R) : a <= lo -> nclip lo hi a = nmin lo hi.
Proof. intros H. unfold nclip, nmax. destruct (nleb_reflect a lo) as [A|A]; [reflexivity|]. contradiction. Qed.
Lemma splint_low (t c : list R) k a a' x : (2 * k + 2 <= length t)%nat -> (forall y, In y t -> a <= y) -> (forall y, In y t -> a' <= y) -> splint t c k a x = splint t c k a' x.
Proof.
  intros Hk Ha Ha'. unfold splint. f_equal. apply map_ext_in. intros l Hl. apply in_seq in Hl. unfold last_steps in Hl.
  assert (Hi : In (nth0 l t) t) by (apply nth_In; lia). rewrite (clip_low _ _ a), (clip_low _ _ a') by auto. reflexivity.
Qed.
