(** Statements about the point-estimate metrics and about chunked evaluation. *)
From Coq Require Import String List Arith ZArith Bool Lia Reals Lra Sorted Permutation.
From Verif Require Import Num NumProofs Py NdArray NumpyLib ScipyWrap Spec Values SortProofs EvalProofs QuantPdf FitProofs PointMetrics PointProofs.
Import ListNotations.
Local Open Scope list_scope.
Local Open Scope R_scope.

(** ** Specification *)
(** The sample a metric is computed from: the scaled residuals, one per object *)
Definition residual (er : R * R) : R := (fst er - snd er) / (1 + snd er).
Definition residuals (est ref : list R) : list R := map residual (combine est ref).
(** One reference per estimate, none of them -1 *)
Definition usable (est ref : list R) : Prop := length est = length ref /\ (forall r, In r ref -> r <> -1).
(** [v] is the quantile of [l] at [q], with linear interpolation between the order statistics *)
Definition lin_quantile (l : list R) (q v : R) : Prop :=
  exists s i t, Permutation l s /\ StronglySorted Rle s /\ (i < length s)%nat /\ 0 <= t < 1 /\ q * (INR (length s) - 1) = INR i + t /\
    v = (1 - t) * nth i s 0 + t * nth (S i) s 0.
(** The standard deviation of a normal with the given inter-quartile range or median absolute deviation *)
Definition is_iqr (l : list R) (v : R) : Prop := exists a b, lin_quantile l (1 / 4) a /\ lin_quantile l (3 / 4) b /\ v = (b - a) / 1.349.
Definition is_mad (l : list R) (v : R) : Prop := exists m d, lin_quantile l (1 / 2) m /\ lin_quantile (map (fun x => Rabs (x - m)) l) (1 / 2) d /\ v = d * 1.4826.

(** ** The quantile *)
Lemma quantile_lin l q v : l <> [] -> 0 <= q <= 1 -> np_quantile l q = Ok v -> lin_quantile l q v.
Proof.
  intros Hl Hq E. rewrite (quantile_value l q Hl Hq) in E. apply ok_inj in E. destruct (i_range l q Hl Hq) as [Ih Hi]. pose proof (j_cases l q Hl Hq) as Hj. pose proof (t_range l q Hl Hq) as Ht.
  set (i := Z.to_nat (nfloor (q * (INR (length l) - 1)))) in *. exists (np_sort l), i, (q * (INR (length l) - 1) - INR i).
  rewrite np_sort_length. split; [apply np_sort_perm|]. split; [apply np_sort_sorted|]. split; [exact Hi|]. split; [exact Ht|]. split; [ring|].
  destruct Hj as [[Ej _]|[Ej [Et _]]]; rewrite Ej in E; [rewrite E; ring|]. rewrite Et in E |- *. rewrite E. ring.
Qed.
Lemma lin_quantile_unique l q v w : lin_quantile l q v -> lin_quantile l q w -> v = w.
Proof.
  intros (s & i & t & Hp & Hs & Hi & Ht & Eh & ->) (s' & i' & t' & Hp' & Hs' & Hi' & Ht' & Eh' & ->).
  assert (s = s') as <- by (rewrite <- (np_sort_id s Hs), <- (np_sort_id s' Hs'); apply np_sort_perm_eq; eapply perm_trans; [apply Permutation_sym; exact Hp|exact Hp']).
  assert (i = i') as <- by (assert (L1 : (i < S i')%nat) by (apply INR_lt; rewrite S_INR; lra); assert (L2 : (i' < S i)%nat) by (apply INR_lt; rewrite S_INR; lra); lia).
  assert (t = t') as <- by lra. reflexivity.
Qed.

(** ** The residuals *)
Lemma ez_residuals est ref : usable est ref -> ez est ref = Ok (residuals est ref).
Proof.
  intros [Hl Hr]. unfold ez, broadcast1. rewrite Hl, Nat.eqb_refl. cbn [bind]. unfold residuals.
  assert (G : forall p, (forall er, In er p -> snd er <> -1) ->
    mapM (fun er : R * R => let d := nadd n1 (snd er) in if neqb d n0 then Err NotModelled else Ok (ndiv (nsub (fst er) (snd er)) d)) p = Ok (map residual p)).
  { induction p as [|er p IH]; intros Hp; [reflexivity|]. cbn [mapM map]. cbv zeta. destruct (neqb_reflect (nadd n1 (snd er)) n0) as [C|_].
    - exfalso. apply (Hp er (or_introl eq_refl)). numR. lra.
    - cbn [bind]. cbv zeta in IH. rewrite IH; [reflexivity|]. intros x Hx. apply Hp. right. exact Hx. }
  apply G. intros [e r] Her. apply in_combine_r in Her. exact (Hr r Her).
Qed.
Lemma residuals_length est ref : usable est ref -> length (residuals est ref) = length est.
Proof. intros [H _]. unfold residuals. rewrite map_length, combine_length. lia. Qed.
Lemma residuals_some est ref : usable est ref -> est <> [] -> residuals est ref <> [].
Proof. intros Hu He C. apply (f_equal (@length R)) in C. rewrite residuals_length in C by exact Hu. destruct est; [congruence|discriminate]. Qed.
Lemma frac_R a b : nfrac a b = IZR a / IZR b.
Proof. reflexivity. Qed.

(** ** Bias *)
Lemma c45_bias : forall est ref, usable est ref -> est <> [] ->
  exists b, point_bias est ref = Ok (Fin b) /\ lin_quantile (residuals est ref) (1 / 2) b /\ halves_at (residuals est ref) b.
Proof.
  intros est ref Hu He. pose proof (residuals_some est ref Hu He) as Hn. destruct (median_some _ Hn) as (b & E & Q). exists b.
  unfold point_bias. rewrite (ez_residuals est ref Hu). cbn [bind]. rewrite E. split; [reflexivity|]. split; [apply quantile_lin; auto; lra|apply median_halves; auto].
Qed.
(** ** IQR *)
Lemma iqr_of l : l <> [] -> exists a b, np_quantile l (1 / 4) = Ok a /\ np_quantile l (3 / 4) = Ok b /\ a <= b /\ sigma_iqr_of l = Ok ((b - a) / 1.349).
Proof.
  intros Hl. destruct (quantile_some l (1/4) Hl ltac:(lra)) as (a & Ea). destruct (quantile_some l (3/4) Hl ltac:(lra)) as (b & Eb). exists a, b.
  split; [exact Ea|]. split; [exact Eb|]. split; [apply (quantile_mono l (1/4) (3/4)); auto; lra|]. unfold sigma_iqr_of. rewrite !frac_R, Eb. cbn [bind]. rewrite Ea. cbn [bind].
  numR. reflexivity.
Qed.
Lemma c45_iqr : forall est ref, usable est ref -> est <> [] ->
  exists s, sigma_iqr est ref = Ok s /\ is_iqr (residuals est ref) s /\ 0 <= s.
Proof.
  intros est ref Hu He. pose proof (residuals_some est ref Hu He) as Hn. destruct (iqr_of _ Hn) as (a & b & Ea & Eb & Hab & E).
  exists ((b - a) / 1.349). unfold sigma_iqr. rewrite (ez_residuals est ref Hu). cbn [bind]. split; [exact E|]. split.
  - exists a, b. repeat split; try reflexivity; apply quantile_lin; auto; lra.
  - apply Rmult_le_pos; lra.
Qed.
(** ** MAD *)
Lemma mad_of est ref : usable est ref -> est <> [] -> exists m d, np_median (residuals est ref) = Fin m /\
  np_median (map (fun x => Rabs (x - m)) (residuals est ref)) = Fin d /\ sigma_mad est ref = Ok (Fin (d * 1.4826)).
Proof.
  intros Hu He. pose proof (residuals_some est ref Hu He) as Hn. destruct (median_some _ Hn) as (m & Em & _).
  assert (Hn' : map (fun x => Rabs (x - m)) (residuals est ref) <> []) by (destruct (residuals est ref); [congruence|discriminate]).
  destruct (median_some _ Hn') as (d & Ed & _). exists m, d. split; [exact Em|]. split; [exact Ed|]. unfold sigma_mad. rewrite (ez_residuals est ref Hu). cbn [bind]. rewrite Em.
  assert (Hm : map (fun x => nabs (nsub x m)) (residuals est ref) = map (fun x => Rabs (x - m)) (residuals est ref)) by (apply map_ext; intros x; rewrite nabs_R; reflexivity).
  rewrite Hm, Ed. rewrite frac_R. numR. reflexivity.
Qed.
Lemma c45_mad : forall est ref, usable est ref -> est <> [] ->
  exists s, sigma_mad est ref = Ok (Fin s) /\ is_mad (residuals est ref) s /\ 0 <= s.
Proof.
  intros est ref Hu He. pose proof (residuals_some est ref Hu He) as Hn. destruct (mad_of est ref Hu He) as (m & d & Em & Ed & E). exists (d * 1.4826). split; [exact E|].
  assert (Hn' : map (fun x => Rabs (x - m)) (residuals est ref) <> []) by (destruct (residuals est ref); [congruence|discriminate]). split.
  - exists m, d. split; [|split; [|reflexivity]].
    + destruct (median_some _ Hn) as (m' & Em' & Q). rewrite Em in Em'. injection Em' as <-. apply quantile_lin; auto; lra.
    + destruct (median_some _ Hn') as (d' & Ed' & Q). rewrite Ed in Ed'. injection Ed' as <-. apply quantile_lin; auto; lra.
  - apply Rmult_le_pos; [|lra]. destruct (median_halves _ d Hn' Ed) as [H1 _].
    destruct (filter (at_most d) (map (fun x => Rabs (x - m)) (residuals est ref))) as [|x r] eqn:Ef.
    + unfold count in H1. rewrite Ef in H1. destruct (residuals est ref); [congruence|cbn in H1; lia].
    + assert (Hx : In x (filter (at_most d) (map (fun x => Rabs (x - m)) (residuals est ref)))) by (rewrite Ef; left; reflexivity).
      apply filter_In in Hx. destruct Hx as [Hx Px]. apply in_map_iff in Hx. destruct Hx as (y & <- & _). unfold at_most in Px.
      destruct (Rle_dec (Rabs (y - m)) d); [|discriminate]. pose proof (Rabs_pos (y - m)). lra.
Qed.
(** ** Outliers *)
Lemma c45_outliers : forall est ref, usable est ref -> est <> [] ->
  exists s, is_iqr (residuals est ref) s /\
    outlier_rate est ref = Ok (INR (count (fun x => if Rlt_dec (Rmax 0.06 (3 * s)) (Rabs x) then true else false) (residuals est ref)) / INR (length est)) /\
    0 <= INR (count (fun x => if Rlt_dec (Rmax 0.06 (3 * s)) (Rabs x) then true else false) (residuals est ref)) / INR (length est) <= 1.
Proof.
  intros est ref Hu He. destruct (c45_iqr est ref Hu He) as (s & E & Hs & _). exists s. split; [exact Hs|].
  assert (Hlen : (0 < length est)%nat) by (destruct est; [congruence|cbn; lia]). apply lt_INR in Hlen. cbn in Hlen. split.
  - unfold outlier_rate. rewrite (ez_residuals est ref Hu). cbn [bind]. rewrite E. cbn [bind]. cbv zeta. rewrite residuals_length by exact Hu.
    replace (nmax (nfrac 6 100) (nmul (nofZ 3) s)) with (Rmax 0.06 (3 * s)).
    2:{ rewrite nmax_R, frac_R. numR. reflexivity. }
    assert (Hf : filter (fun x => nltb (Rmax 0.06 (3 * s)) (nabs x)) (residuals est ref) = filter (fun x => if Rlt_dec (Rmax 0.06 (3 * s)) (Rabs x) then true else false) (residuals est ref)).
    { apply filter_ext. intros x. rewrite nabs_R. destruct (nltb_reflect (Rmax 0.06 (3 * s)) (Rabs x)), (Rlt_dec (Rmax 0.06 (3 * s)) (Rabs x)); auto; numR; lra. }
    rewrite Hf. unfold count. numR. rewrite <- !INR_IZR_INZ. reflexivity.
  - unfold count. split; [apply Rmult_le_pos; [apply pos_INR|left; apply Rinv_0_lt_compat; exact Hlen]|].
    apply (Rmult_le_reg_r (INR (length est))); [exact Hlen|]. unfold Rdiv. rewrite Rmult_assoc, Rinv_l by lra. rewrite Rmult_1_r, Rmult_1_l. apply le_INR.
    rewrite <- (residuals_length est ref Hu). apply filter_len.
Qed.
(** ** Order *)
Lemma c45_order : forall est ref est' ref', usable est ref -> usable est' ref' -> Permutation (combine est ref) (combine est' ref') ->
  point_bias est ref = point_bias est' ref' /\ sigma_iqr est ref = sigma_iqr est' ref' /\ sigma_mad est ref = sigma_mad est' ref' /\ outlier_rate est ref = outlier_rate est' ref'.
Proof.
  intros est ref est' ref' Hu Hu' Hp. assert (Hr : Permutation (residuals est ref) (residuals est' ref')) by (apply Permutation_map; exact Hp).
  assert (Hi : sigma_iqr est ref = sigma_iqr est' ref').
  { unfold sigma_iqr. rewrite !ez_residuals by assumption. cbn [bind]. unfold sigma_iqr_of. rewrite !(quantile_perm _ _ _ Hr). reflexivity. }
  split; [|split; [exact Hi|split]].
  - unfold point_bias. rewrite !ez_residuals by assumption. cbn [bind]. rewrite (median_perm _ _ Hr). reflexivity.
  - unfold sigma_mad. rewrite !ez_residuals by assumption. cbn [bind]. rewrite (median_perm _ _ Hr). destruct (np_median (residuals est' ref')); try reflexivity.
    rewrite (median_perm _ _ (Permutation_map _ Hr)). reflexivity.
  - unfold outlier_rate. rewrite Hi, !ez_residuals by assumption. cbn [bind]. destruct (sigma_iqr est' ref'); [|reflexivity]. cbn [bind]. cbv zeta.
    rewrite (count_perm _ _ _ Hr), (Permutation_length Hr). reflexivity.
Qed.
(** ** Shift and scale: the estimates are moved by [c] per unit of [1 + reference], their errors multiplied by [k]. *)
Definition moved (k c : R) (est ref : list R) : list R := map (fun er => snd er + k * (fst er - snd er) + c * (1 + snd er)) (combine est ref).
Lemma moved_usable k c est ref : usable est ref -> usable (moved k c est ref) ref.
Proof. intros [Hl Hr]. split; [|exact Hr]. unfold moved. rewrite map_length, combine_length. lia. Qed.
Lemma moved_residuals k c est ref : usable est ref -> residuals (moved k c est ref) ref = map (fun x => k * x + c) (residuals est ref).
Proof.
  intros [Hl Hr]. unfold residuals, moved. revert ref Hl Hr. induction est as [|e est IH]; intros [|r ref] Hl Hr; try discriminate; [reflexivity|]. cbn [combine map].
  rewrite IH; [|cbn in Hl; lia|intros x Hx; apply Hr; right; exact Hx]. f_equal. unfold residual. cbn. field. intros C. apply (Hr r (or_introl eq_refl)). lra.
Qed.
Lemma quantile_move l q v k c : l <> [] -> 0 <= q <= 1 -> np_quantile l q = Ok v -> np_quantile (map (fun x => k * x + c) l) (if Rle_dec 0 k then q else 1 - q) = Ok (k * v + c).
Proof.
  intros Hl Hq E. destruct (Rle_dec 0 k) as [Hk|Hk]; [apply quantile_affine; auto|].
  replace (map (fun x => k * x + c) l) with (map (fun x => (- k) * x + c) (map Ropp l)) by (rewrite map_map; apply map_ext; intros; ring).
  replace (k * v + c) with ((- k) * (- v) + c) by ring. apply quantile_affine; [destruct l; [congruence|discriminate]|lra|lra|apply quantile_opp; auto].
Qed.
Lemma median_move l v k c : l <> [] -> np_median l = Fin v -> np_median (map (fun x => k * x + c) l) = Fin (k * v + c).
Proof.
  intros Hl E. destruct (median_some l Hl) as (v' & E' & Q). rewrite E in E'. injection E' as <-. apply median_quantile; [destruct l; [congruence|discriminate]|].
  pose proof (quantile_move l (1/2) v k c Hl ltac:(lra) Q) as H. destruct (Rle_dec 0 k); [exact H|]. replace (1 / 2) with (1 - 1 / 2) by lra. exact H.
Qed.
Lemma c45_move : forall k c est ref b s d, usable est ref -> est <> [] ->
  point_bias est ref = Ok (Fin b) -> sigma_iqr est ref = Ok s -> sigma_mad est ref = Ok (Fin d) ->
  point_bias (moved k c est ref) ref = Ok (Fin (k * b + c)) /\ sigma_iqr (moved k c est ref) ref = Ok (Rabs k * s) /\
  sigma_mad (moved k c est ref) ref = Ok (Fin (Rabs k * d)).
Proof.
  intros k c est ref b s d Hu He Eb Es Ed. pose proof (residuals_some est ref Hu He) as Hn. pose proof (moved_usable k c est ref Hu) as Hu'.
  assert (He' : moved k c est ref <> []) by (intros C; apply (f_equal (@length R)) in C; rewrite (proj1 Hu'), <- (proj1 Hu) in C; destruct est; [congruence|discriminate]).
  assert (Hk : forall x, Rabs (k * x) = Rabs k * Rabs x) by (intros; apply Rabs_mult).
  split; [|split].
  - unfold point_bias in *. rewrite ez_residuals in * by assumption. cbn [bind] in *. rewrite (moved_residuals k c est ref Hu). f_equal. apply median_move; [exact Hn|congruence].
  - unfold sigma_iqr in *. rewrite ez_residuals in * by assumption. cbn [bind] in *. rewrite (moved_residuals k c est ref Hu).
    destruct (iqr_of _ Hn) as (x & y & Ex & Ey & Hxy & E). rewrite E in Es. apply ok_inj in Es. subst s.
    assert (Hn' : map (fun x => k * x + c) (residuals est ref) <> []) by (destruct (residuals est ref); [congruence|discriminate]).
    destruct (iqr_of _ Hn') as (x' & y' & Ex' & Ey' & Hxy' & ->). f_equal.
    pose proof (quantile_move _ (1/4) x k c Hn ltac:(lra) Ex) as Qx. pose proof (quantile_move _ (3/4) y k c Hn ltac:(lra) Ey) as Qy.
    destruct (Rle_dec 0 k) as [Hk0|Hk0].
    + rewrite Ex' in Qx. rewrite Ey' in Qy. apply ok_inj in Qx, Qy. rewrite (Rabs_pos_eq k Hk0). subst x' y'. field; lra.
    + assert (H1 : 1 - 1 / 4 = 3 / 4) by lra. assert (H3 : 1 - 3 / 4 = 1 / 4) by lra. rewrite H1 in Qx. rewrite H3 in Qy. rewrite Ex' in Qy. rewrite Ey' in Qx. apply ok_inj in Qx, Qy. rewrite (Rabs_left k) by lra. subst x' y'. field; lra.
  - destruct (mad_of est ref Hu He) as (m & e & Em & Ee & E). rewrite E in Ed. injection Ed as <-. destruct (mad_of _ ref Hu' He') as (m' & e' & Em' & Ee' & ->).
    rewrite (moved_residuals k c est ref Hu) in *. rewrite (median_move _ m k c Hn Em) in Em'. injection Em' as <-. rewrite map_map in Ee'.
    assert (Hm : map (fun x => Rabs (k * x + c - (k * m + c))) (residuals est ref) = map (fun x => Rabs k * x + 0) (map (fun x => Rabs (x - m)) (residuals est ref))).
    { rewrite map_map. apply map_ext. intros x. rewrite <- Hk, Rplus_0_r. f_equal. ring. }
    assert (Hn' : map (fun x => Rabs (x - m)) (residuals est ref) <> []) by (destruct (residuals est ref); [congruence|discriminate]).
    rewrite Hm, (median_move _ e (Rabs k) 0 Hn' Ee) in Ee'. injection Ee' as <-. do 2 f_equal. ring.
Qed.
(** ** Inputs that are not samples *)
Lemma c45_empty : point_bias (@nil R) [] = Ok NaN /\ sigma_mad (@nil R) [] = Ok NaN /\ sigma_iqr (@nil R) [] = Err IndexError /\ outlier_rate (@nil R) [] = Err IndexError.
Proof.
  assert (H : ez (@nil R) [] = Ok []) by reflexivity. assert (Q : np_quantile (@nil R) (nfrac 3 4) = Err IndexError).
  { unfold np_quantile. replace (nltb (nfrac 3 4) n0 || nltb n1 (nfrac 3 4))%bool with false by (symmetry; apply unit_range; rewrite frac_R; lra). reflexivity. }
  unfold point_bias, sigma_mad, outlier_rate, sigma_iqr, sigma_iqr_of. rewrite H. cbn [bind]. rewrite Q. cbn [bind]. repeat split; reflexivity.
Qed.
Lemma c45_lengths : forall est ref : list R, length est <> length ref -> length est <> 1%nat -> length ref <> 1%nat ->
  point_bias est ref = Err ValueError /\ sigma_mad est ref = Err ValueError /\ sigma_iqr est ref = Err ValueError /\ outlier_rate est ref = Err ValueError.
Proof.
  intros est ref H H1 H2. assert (E : ez est ref = Err ValueError).
  { unfold ez, broadcast1. destruct (Nat.eqb_spec (length est) (length ref)); [contradiction|]. destruct est as [|a [|b est]], ref as [|x [|y ref]]; cbn in *; try reflexivity; lia. }
  unfold point_bias, sigma_mad, outlier_rate, sigma_iqr. rewrite E. repeat split; reflexivity.
Qed.

(** ** Chunks *)
(** A digest keeps a summary of the multiset it was computed from: [rep d l] says that [d] summarises [l] (for t-digests for example
    that they have the same total weight and mean). *)
Definition digest_laws {D Cs : Type} (digest_of : list R -> D) (centroids_of : D -> Cs) (of_centroids : Cs -> D) (add : D -> D -> D) (rep : D -> list R -> Prop) : Prop :=
  (forall l, rep (digest_of l) l) /\ (forall d l, rep d l -> rep (of_centroids (centroids_of d)) l) /\ (forall a b l m, rep a l -> rep b m -> rep (add a b) (l ++ m)).
Definition all_usable (chunks : list (list R * list R)) : Prop := List.Forall (fun c => usable (fst c) (snd c)) chunks.
Definition all_residuals (chunks : list (list R * list R)) : list R := concat (map (fun c => residuals (fst c) (snd c)) chunks).

Section Chunks.
  Context {D Cs A : Type} (digest_of : list R -> D) (centroids_of : D -> Cs) (of_centroids : Cs -> D) (add : D -> D -> D) (compute : D -> A).
  Lemma accumulate_usable est ref : usable est ref -> accumulate digest_of centroids_of est ref = Ok (centroids_of (digest_of (residuals est ref))).
  Proof. intros Hu. unfold accumulate. rewrite (ez_residuals est ref Hu). reflexivity. Qed.
  (** Calling [accumulate] on every chunk and [finalize] on all that it returned uses all chunks. *)
  Lemma c46_by_hand : forall rep chunks, digest_laws digest_of centroids_of of_centroids add rep -> all_usable chunks -> chunks <> [] ->
    exists cs d, mapM (fun c => accumulate digest_of centroids_of (fst c) (snd c)) chunks = Ok cs /\
      finalize_digests of_centroids add compute cs = Ok (compute d) /\ rep d (all_residuals chunks).
  Proof.
    intros rep chunks (L1 & L2 & L3) Hc Hn. set (g := fun c : list R * list R => centroids_of (digest_of (residuals (fst c) (snd c)))).
    exists (map g chunks). assert (Hm : mapM (fun c => accumulate digest_of centroids_of (fst c) (snd c)) chunks = Ok (map g chunks)).
    { clear Hn. induction Hc as [|c cs Hu Hc IH]; [reflexivity|]. cbn [mapM map]. rewrite (accumulate_usable _ _ Hu). cbn [bind]. rewrite IH. reflexivity. }
    destruct chunks as [|c cs]; [congruence|]. unfold finalize_digests. cbn [map].
    exists (fold_left add (map of_centroids (map g cs)) (of_centroids (g c))). split; [exact Hm|]. split; [reflexivity|].
    assert (G : forall cs d l, rep d l -> rep (fold_left add (map of_centroids (map g cs)) d) (l ++ all_residuals cs)).
    { induction cs0 as [|c0 cs0 IH]; intros d l Hd; unfold all_residuals; cbn [map fold_left concat]; [rewrite app_nil_r; exact Hd|]. rewrite app_assoc. apply IH. apply L3; [exact Hd|apply L2, L1]. }
    apply (G cs). apply L2, L1.
  Qed.
  (** [eval_from_iterator] on the other hand evaluates the last chunk only. *)
  Lemma last_is_last : forall chunks est ref c0, all_usable chunks -> usable est ref ->
    last_centroids digest_of centroids_of (chunks ++ [(est, ref)]) c0 = Ok (Some (centroids_of (digest_of (residuals est ref)))).
  Proof.
    intros chunks est ref c0 Hc Hu. revert c0. induction Hc as [|[e r] cs Hx Hc IH]; intros c0; cbn [last_centroids app].
    - rewrite (accumulate_usable _ _ Hu). reflexivity.
    - cbn in Hx. rewrite (accumulate_usable _ _ Hx). cbn [bind]. apply IH.
  Qed.
  Lemma c101_last : forall ests refs est ref, length ests = length refs -> all_usable (combine ests refs) -> usable est ref ->
    eval_from_iterator digest_of centroids_of of_centroids add compute (ests ++ [est]) (refs ++ [ref]) = Ok (compute (of_centroids (centroids_of (digest_of (residuals est ref))))).
  Proof.
    intros ests refs est ref Hl Hc Hu. unfold eval_from_iterator.
    assert (E : combine (ests ++ [est]) (refs ++ [ref]) = combine ests refs ++ [(est, ref)]).
    { revert refs Hl Hc. induction ests as [|e ests IH]; intros [|r refs] Hl Hc; try discriminate; [reflexivity|]. cbn. rewrite IH; auto. inversion Hc. assumption. }
    rewrite E, (last_is_last _ _ _ None Hc Hu). reflexivity.
  Qed.
  Lemma c101_none : forall ests refs, ests = [] \/ refs = [] -> eval_from_iterator digest_of centroids_of of_centroids add compute ests refs = Err UnboundLocalError.
  Proof. intros ests refs [->| ->]; [reflexivity|]. unfold eval_from_iterator. destruct ests; reflexivity. Qed.
  (** A chunk whose lengths do not fit raises, wherever it is. *)
  Lemma c101_misfit : forall ests refs i, (i < Nat.min (length ests) (length refs))%nat -> all_usable (firstn i (combine ests refs)) ->
    length (nth i ests []) <> length (nth i refs []) -> length (nth i ests []) <> 1%nat -> length (nth i refs []) <> 1%nat ->
    eval_from_iterator digest_of centroids_of of_centroids add compute ests refs = Err ValueError.
  Proof.
    intros ests refs i Hi Hc H H1 H2. unfold eval_from_iterator.
    assert (G : forall c0, last_centroids digest_of centroids_of (combine ests refs) c0 = Err ValueError); [|rewrite G; reflexivity].
    revert ests refs Hi Hc H H1 H2. induction i as [|i IH]; intros [|e ests] [|r refs] Hi Hc H H1 H2 c0; cbn in Hi; try lia; cbn [combine last_centroids nth] in *.
    - unfold accumulate. assert (E : ez e r = Err ValueError); [|rewrite E; reflexivity].
      unfold ez, broadcast1. destruct (Nat.eqb_spec (length e) (length r)); [contradiction|]. destruct e as [|a [|b e]], r as [|x [|y r]]; cbn in *; try reflexivity; lia.
    - cbn in Hc. inversion Hc as [|? ? Hu Hc' E0]; subst. cbn in Hu. rewrite (accumulate_usable _ _ Hu). cbn [bind]. apply IH; auto. lia.
  Qed.
End Chunks.
