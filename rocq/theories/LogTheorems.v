(** logpdf, logcdf and logsf (C126). *)
From Coq Require Import String List Arith ZArith Bool Lia Reals Lra.
From Verif Require Import Num NumProofs Py NdArray NumpyLib Utils ScipyWrap Spec HistPdf InterpPdf QuantPdf MixmodPdf Packing PackedPdf SplinePdf
  Values Ensemble Classes Kinds EnsembleProofs KindInputs ReachProofs EnsembleTheorems RowProofs IntegrateTheorems SortProofs InterpProofs EvalProofs NdProofs HistTheorems KindProofs
  MatrixTheorems MixmodTheorems Gauss GaussTheorems ConvertExamples Derived Logs.
Import ListNotations.
Local Open Scope string_scope.
Local Open Scope list_scope.
Local Open Scope R_scope.

(** ** Specification *)
(** [l] is the logarithm of [v]: minus infinity for 0, no number for negative ones *)
Inductive log_of : xnum R -> xnum R -> Prop :=
| log_positive x : 0 < x -> log_of (Fin x) (Fin (ln x))
| log_zero : log_of (Fin 0) NInf
| log_negative x : x < 0 -> log_of (Fin x) NaN
| log_nan : log_of NaN NaN.
Definition logs (t l : tbl R) : Prop := Forall2 (Forall2 log_of) t l.
(** an answer and its logarithm; failures are the same *)
Definition log_answer (a l : res (tbl R)) : Prop :=
  match a, l with Ok t, Ok u => logs t u | Err e, Err e' => e = e' | _, _ => False end.
Definition negation (v : xnum R) : xnum R := match v with Fin x => Fin (1 - x) | w => w end.
(** the exponential of an answer *)
Definition expo (v : xnum R) : xnum R := match v with Fin x => Fin (exp x) | NInf => Fin 0 | w => w end.
(** the methods logpdf, logcdf and logsf of the ensemble: scipy's, around the same functions of the class as pdf and cdf *)
Definition logpdf_method (e : ens R) (logpdf : points R -> res (tbl R)) : Prop :=
  exists n f, ens_pdf e = rv_pdf n f /\ logpdf = rv_logpdf ln n f.
Definition logcdf_method (e : ens R) (logcdf : points R -> res (tbl R)) : Prop :=
  exists n f, ens_cdf e = rv_cdf n f /\ logcdf = rv_logcdf ln n f.
Definition logsf_method (e : ens R) (logsf : points R -> res (tbl R)) : Prop :=
  exists n f, ens_cdf e = rv_cdf n f /\ logsf = rv_logsf ln n f.

(** ** Proofs *)
Lemma np_log_of x : log_of (Fin x) (np_log ln x).
Proof.
  unfold np_log. destruct (nltb_reflect n0 x) as [A|A]; [constructor; exact A|]. destruct (neqb_reflect x n0) as [B|B].
  - rewrite B. constructor.
  - constructor. revert A B. numR. intros. lra.
Qed.
Lemma log_fun v l l' : log_of v l -> log_of v l' -> l = l'.
Proof. intros A B. inversion A; subst; inversion B; subst; try reflexivity; try lra. Qed.
Lemma chunks_forall2 {A B} (P : A -> B -> Prop) k w : forall l l', Forall2 P l l' -> Forall2 (Forall2 P) (chunks k w l) (chunks k w l').
Proof.
  induction k as [|k IH]; intros l l' H; [constructor|]. cbn [chunks]. assert (S : Forall2 P (firstn w l) (firstn w l') /\ Forall2 P (skipn w l) (skipn w l')).
  { clear -H. revert w. induction H as [|a b l l' Hab H IH]; intros [|w]; cbn [firstn skipn]; try (split; constructor; auto; fail).
    - destruct (IH w). split; [constructor; auto|auto]. }
  constructor; [apply S|apply IH, S].
Qed.
Lemma rv_log_answer n (f : nd R -> nd nat -> res (list R)) (h : R -> R) x :
  log_answer (match rv_pdf n f x with Ok t => Ok (map (map (fun v => match v with Fin x => Fin (h x) | w => w end)) t) | Err e => Err e end) (rv_log ln n f h x).
Proof.
  unfold rv_pdf, rv_eval, rv_log. destruct (broadcast_points n x) as [[xs rows]|]; [|reflexivity]. cbn [bind]. cbv zeta.
  assert (E : forallb (fun _ : R => true) (concat xs) = true) by (apply forallb_forall; reflexivity). rewrite E. clear E.
  destruct (length (concat xs) =? 0)%nat eqn:E0.
  - cbn [bind log_answer]. apply Nat.eqb_eq in E0. destruct (concat xs); [|discriminate]. cbn [place place_all map]. unfold logs. clear.
    assert (G : forall k w, Forall2 (Forall2 log_of) (map (map (fun v => match v with Fin x => Fin (h x) | w => w end)) (chunks k w (@nil (xnum R)))) (chunks k w [])).
    { induction k as [|k IH]; intros w; [constructor|]. cbn [chunks map]. rewrite !firstn_nil, !skipn_nil. constructor; [constructor|apply IH]. }
    apply G.
  - destruct (f _ _) as [v|]; [|reflexivity]. cbn [bind log_answer].
    assert (C : forall k w (l : list (xnum R)) (g : xnum R -> xnum R), map (map g) (chunks k w l) = chunks k w (map g l)).
    { induction k as [|k IH]; intros w l g; [reflexivity|]. cbn [chunks map]. rewrite firstn_map, skipn_map, IH. reflexivity. }
    rewrite C. apply chunks_forall2. revert v. generalize (concat xs) as pts. induction pts as [|p ps IH]; intros v; [constructor|].
    destruct v as [|y v]; cbn [place map place_all]; constructor; [constructor|apply (IH [])|apply np_log_of|apply IH].
Qed.

Lemma tbl_id (t : tbl R) : map (map (fun v => match v with Fin x => Fin x | w => w end)) t = t.
Proof. rewrite <- (map_id t) at 2. apply map_ext. intros l. rewrite <- (map_id l) at 2. apply map_ext. intros []; reflexivity. Qed.
Lemma rv_logpdf_answer n f x : log_answer (rv_pdf n f x) (rv_logpdf ln n f x).
Proof. pose proof (rv_log_answer n f (fun v => v) x) as H. destruct (rv_pdf n f x) as [t|]; [|exact H]. rewrite tbl_id in H. exact H. Qed.
(** ** Every reachable ensemble *)
Definition wrapped (X : scipy) (g : gobj R) : Prop :=
  g_name g = "norm" /\ g_pdf g = wrap_eval (norm_pdf (s_phi X)) (g_data g) (g_npdf g) \/
  g_name g <> "norm" /\ (exists n f, g_pdf g = rv_pdf n f) /\ exists n f, g_cdf g = rv_cdf n f.
Ltac peel H :=
  repeat match type of H with
  | (if ?b then _ else _) = _ => destruct b; [discriminate H|]
  | match ?b with _ => _ end = _ => destruct b; [|discriminate H]
  | bind ?b _ = _ => destruct b; [cbn [bind] in H|discriminate H]
  end.
Lemma hist_wrapped X  d g : hist_create  d = Ok g -> wrapped X g.
Proof. unfold hist_create. intros H. peel H. injection H as <-. right. split; [discriminate|]. split; do 2 eexists; reflexivity. Qed.
Lemma interp_wrapped X  d g : interp_create  d = Ok g -> wrapped X g.
Proof. unfold interp_create. intros H. peel H. injection H as <-. right. split; [discriminate|]. split; do 2 eexists; reflexivity. Qed.
Lemma irr_wrapped X  d g : irr_create  d = Ok g -> wrapped X g.
Proof. unfold irr_create. intros H. peel H. injection H as <-. right. split; [discriminate|]. split; do 2 eexists; reflexivity. Qed.
Lemma mixmod_wrapped X phi Phi d g : mixmod_create phi Phi d = Ok g -> wrapped X g.
Proof. unfold mixmod_create. intros H. peel H. injection H as <-. right. split; [discriminate|]. split; do 2 eexists; reflexivity. Qed.
Lemma quant_wrapped X quad cubic dspline d g : quant_create quad cubic dspline d = Ok g -> wrapped X g.
Proof. unfold quant_create. intros H. peel H. injection H as <-. right. split; [discriminate|]. split; do 2 eexists; reflexivity. Qed.
Lemma packed_wrapped X pow10 d g : packed_create pow10 d = Ok g -> wrapped X g.
Proof. unfold packed_create. intros H. peel H. injection H as <-. right. split; [discriminate|]. split; do 2 eexists; reflexivity. Qed.
Lemma spline_wrapped X  d g : spline_create  d = Ok g -> wrapped X g.
Proof. unfold spline_create. intros H. peel H. injection H as <-. right. split; [discriminate|]. split; do 2 eexists; reflexivity. Qed.
Lemma sparse_wrapped X voigt sq d g : sparse_create voigt sq d = Ok g -> wrapped X g.
Proof.
  unfold sparse_create. intros H.
  repeat match type of H with
         | (let* _ := ?a in _) = _ => destruct a eqn:?; [cbn [bind] in H|discriminate]
         | match ?l with _ => _ end = _ => destruct l; try discriminate
         end.
  injection H as <-. right. split; [discriminate|]. split; do 2 eexists; reflexivity.
Qed.
Lemma class_wrapped X name c d g : qp X name = Some c -> c d = Ok g -> wrapped X g.
Proof.
  unfold qp, Kinds.classes, qp_classes. intros E Hg.
  repeat match type of E with (if ?b then _ else _) = _ => destruct b end; try discriminate; injection E as <-;
    [eapply hist_wrapped|eapply interp_wrapped|eapply irr_wrapped|eapply mixmod_wrapped|eapply quant_wrapped|eapply packed_wrapped|eapply spline_wrapped|eapply sparse_wrapped|]; try exact Hg.
  left. unfold wrap_create in Hg. peel Hg. injection Hg as <-. split; reflexivity.
Qed.
Section Made.
  Variables (X : scipy) (P : gobj R -> Prop).
  Hypothesis HP : forall name c d g, qp X name = Some c -> c d = Ok g -> P g.
  Definition makes (c : vdict R -> res (gobj R)) : Prop := forall d g, c d = Ok g -> P g.
  Lemma create_makes name : makes (create_of (qp X) name).
  Proof. intros d g Hg. unfold create_of in Hg. destruct (qp X name) as [c|] eqn:E; [|discriminate]. exact (HP name c d g E Hg). Qed.
  Definition kept (e : ens R) : Prop := makes (e_func e) /\ P (e_obj e).
  Lemma new_kept f d anc e : makes f -> ens_new f d anc = Ok e -> kept e.
  Proof. intros Hf. unfold ens_new. destruct (f d) as [g|] eqn:Eg; [|discriminate]. cbn [bind]. destruct (check_array_shapes _ _); [|discriminate]. cbn [bind]. intros E. injection E as <-. split; [exact Hf|exact (Hf d g Eg)]. Qed.
  Lemma set_kept e anc r e' : kept e -> set_ancil e anc = (r, e') -> kept e'.
  Proof. unfold set_ancil. intros H E. destruct (check_array_shapes _ _); injection E as <- <-; exact H. Qed.
  Lemma update_kept e d anc r e' : kept e -> update e d anc = (r, e') -> kept e'.
  Proof.
    intros H E. unfold update in E. destruct (e_func e d) as [g|] eqn:Eg; [|injection E as <- <-; exact H].
    destruct (set_ancil _ anc) as [r2 e2] eqn:Es. assert (H2 : kept e2) by (eapply set_kept; [|exact Es]; split; [exact (proj1 H)|exact (proj1 H d g Eg)]). destruct r2; injection E as <- <-; exact H2.
  Qed.
  Lemma gridded_kept e g : kept e -> kept (snd (gridded e g)).
  Proof. intros H. unfold gridded. destruct (e_gridded e) as [[g' v]|]; [destruct (array_equal _ _); [exact H|]|]; destruct (ens_pdf e (PGrid g)); exact H. Qed.
  Lemma made_kept M e : made X M e -> kept e.
  Proof.
    unfold made. induction 1 as [i anc e Hi E|M e key ps e' _ IH _ _ E|M e0 es e' _ IH _ _ _ E|M a b a' _ IHa _ _ _ E|M e i anc e' _ IH _ _ E|M e e' _ IH E|M e anc e' _ IH E|M e d e' _ IH E|M e g _ IH|M e g _ IH|M e n lo hi dx _ IH].
    - eapply new_kept; [|exact E]. apply create_makes.
    - unfold getitem in E. destruct (slice_dict _ _); [|discriminate]. cbn [bind] in E. match type of E with bind ?a _ = _ => destruct a; [|discriminate] end. cbn [bind] in E. eapply new_kept; [|exact E]. apply create_makes.
    - unfold concatenate in E. destruct (compare_dicts _) as [[]|]; try discriminate. cbn [bind] in E. destruct (concatenate_dicts _); [|discriminate]. cbn [bind] in E. match type of E with bind ?a _ = _ => destruct a; [|discriminate] end. cbn [bind] in E. destruct (ens_new _ _ _) as [e|] eqn:En; [|discriminate]. injection E as <-. eapply new_kept; [|exact En]. apply IH.
    - unfold append in E. match type of E with match ?p with _ => _ end = _ => destruct p as [[od an]|] end; [|injection E as E1 E2; discriminate]. unfold update_objdata in E. eapply update_kept; [exact IHa|exact E].
    - eapply update_kept; [exact IH|exact E].
    - unfold from_tables in E. destruct (build_data_dict _ _) as [data|]; [|discriminate]. cbn [bind] in E. destruct (vget data "pdf_name") as [n|]; [|discriminate]. destruct (vget data "pdf_version"); [|discriminate]. destruct (text_of n) as [name|]; [|discriminate].
      match type of E with match ?z with _ => _ end = _ => destruct z as [cc|] eqn:Ec; [|discriminate] end. eapply new_kept; [|exact E]. intros d g. exact (HP name cc d g Ec).
    - eapply set_kept; [exact IH|exact E].
    - unfold add_to_ancil in E. destruct (check_columns _ _); [|discriminate]. destruct (e_ancil e); [|discriminate]. injection E as <-. exact IH.
    - apply gridded_kept. exact IH.
    - pose proof (gridded_kept e g IH) as G. unfold mode. destruct (gridded e g) as [[[g' v]|] e']; cbn [snd] in *; [destruct (Nat.eqb _ _)|]; exact G.
    - unfold moment_partial. destruct (_ <? 0)%Z; [exact IH|]. match goal with |- context [gridded e ?g] => pose proof (gridded_kept e g IH) as G; destruct (gridded e g) as [[[g' v]|] e'] end; exact G.
  Qed.
End Made.

(** ** C126 *)
Lemma c126_methods : forall X M e, made X M e -> g_name (e_obj e) <> "norm" ->
  (exists l, logpdf_method e l) /\ (exists l, logcdf_method e l) /\ exists l, logsf_method e l.
Proof.
  intros X M e He Hn. destruct (made_kept X (wrapped X) (class_wrapped X) M e He) as [_ [[H _]|(_ & (n & f & Hp) & (n' & f' & Hc))]]; [contradiction|].
  split; [|split]; do 3 eexists; (split; [|reflexivity]); [exact Hp|exact Hc|exact Hc].
Qed.
Lemma c126_log : forall e logpdf logcdf logsf, logpdf_method e logpdf -> logcdf_method e logcdf -> logsf_method e logsf -> forall x,
  log_answer (ens_pdf e x) (logpdf x) /\ log_answer (ens_cdf e x) (logcdf x) /\
  log_answer (match ens_cdf e x with Ok t => Ok (map (map negation) t) | Err er => Err er end) (logsf x).
Proof.
  intros e lp lc ls (n1 & f1 & H1 & ->) (n2 & f2 & H2 & ->) (n3 & f3 & H3 & ->) x. split; [rewrite H1; apply rv_logpdf_answer|].
  split; [rewrite H2; apply rv_logpdf_answer|]. rewrite H3. apply (rv_log_answer n3 f3 (fun v => 1 - v)).
Qed.
Lemma log_expo v l : (forall x, v = Fin x -> 0 <= x) -> log_of v l -> expo l = v.
Proof. intros H L. destruct L; cbn [expo]; [rewrite exp_ln by auto; reflexivity|reflexivity|specialize (H _ eq_refl); lra|reflexivity]. Qed.
Lemma logs_expo t : forall u, (forall l v, In l t -> In (Fin v) l -> 0 <= v) -> logs t u -> map (map expo) u = t.
Proof.
  intros u H L. induction L as [|a b t u Hab L IH]; [reflexivity|]. cbn [map]. f_equal; [|apply IH; intros; eapply H; [right|]; eauto].
  assert (H' : forall v, In (Fin v) a -> 0 <= v) by (intros v; apply H; left; reflexivity). clear H IH L.
  induction Hab as [|x y a b Hxy Hab IH]; [reflexivity|]. cbn [map]. f_equal; [apply log_expo; [|exact Hxy]; intros z ->; apply H'; left; reflexivity|apply IH; intros; apply H'; right; assumption].
Qed.
Lemma logs_neg t : forall u, (forall l v, In l t -> In (Fin v) l -> v <= 1) -> logs t u -> forall l v, In l u -> In (Fin v) l -> v <= 0.
Proof.
  intros u H L. induction L as [|a b t u Hab L IH]; intros l v Hl Hv; [destruct Hl|]; destruct Hl as [<-|Hl]; [|apply (IH ltac:(intros; eapply H; [right|]; eauto) l v Hl Hv)].
  assert (H' : forall v, In (Fin v) a -> v <= 1) by (intros w; apply H; left; reflexivity). clear H IH L.
  induction Hab as [|x y a b Hxy Hab IH]; [destruct Hv|]. destruct Hv as [->|Hv]; [|apply IH; [exact Hv|intros; apply H'; right; assumption]].
  inversion Hxy; subst. specialize (H' x0 (or_introl eq_refl)). rewrite <- ln_1. destruct H' as [H'| ->]; [apply Rlt_le, ln_increasing; auto|lra].
Qed.
Lemma in_table n (F : nat -> R -> R) xs l v : In l (map (fun r => map (fin F r) xs) (seq 0 n)) -> In (Fin v) l -> exists r x, (r < n)%nat /\ v = F r x.
Proof. intros Hl Hv. apply in_map_iff in Hl. destruct Hl as (r & <- & Hr). apply in_seq in Hr. apply in_map_iff in Hv. destruct Hv as (x & Hx & _). injection Hx as <-. exists r, x. split; [lia|reflexivity]. Qed.
(** proper distributions on a grid: the exponentials are the density, the distribution function and its complement; no logarithm of a probability is positive *)
Lemma c126_grid : forall X M e logpdf logcdf logsf, fill_outside X -> normal_laws (s_phi X) (s_Phi X) -> made X M e -> proper_class e ->
  logpdf_method e logpdf -> logcdf_method e logcdf -> logsf_method e logsf ->
  exists f F, computes (ens_pdf e) (e_npdf e) f /\ computes (ens_cdf e) (e_npdf e) F /\ (forall r, (r < e_npdf e)%nat -> distribution (f r) (F r)) /\
    forall xs, increasing xs -> exists u v w, logpdf (PGrid xs) = Ok u /\ logcdf (PGrid xs) = Ok v /\ logsf (PGrid xs) = Ok w /\
      Ok (map (map expo) u) = table (e_npdf e) (fin f) xs /\ Ok (map (map expo) v) = table (e_npdf e) (fin F) xs /\
      Ok (map (map expo) w) = table (e_npdf e) (fin (fun r x => 1 - F r x)) xs /\
      forall l y, In l v \/ In l w -> In (Fin y) l -> y <= 0.
Proof.
  intros X M e lp lc ls HX HN He Hc H1 H2 H3. destruct (c81_proper X M e HX HN He Hc) as (f & F & Hf & HF & HD). exists f, F. split; [exact Hf|]. split; [exact HF|]. split; [exact HD|].
  intros xs Hx. destruct (c126_log e lp lc ls H1 H2 H3 (PGrid xs)) as (L1 & L2 & L3). rewrite (proj2 Hf xs Hx) in L1. rewrite (proj2 HF xs Hx) in L2, L3. unfold table in L1, L2, L3. cbn [log_answer] in L1, L2, L3.
  destruct (lp (PGrid xs)) as [u|]; [|destruct L1]. destruct (lc (PGrid xs)) as [v|]; [|destruct L2]. destruct (ls (PGrid xs)) as [w|]; [|destruct L3].
  rewrite map_map in L3. rewrite (map_ext _ (fun r => map (fin (fun r x => 1 - F r x) r) xs)) in L3 by (intros r; rewrite map_map; reflexivity).
  exists u, v, w. split; [reflexivity|]. split; [reflexivity|]. split; [reflexivity|].
  split; [unfold table; f_equal; apply logs_expo; [|exact L1]; intros l y Hl Hy; destruct (in_table _ _ _ _ _ Hl Hy) as (r & x & Hr & ->); apply (HD r Hr)|].
  split; [unfold table; f_equal; apply logs_expo; [|exact L2]; intros l y Hl Hy; destruct (in_table _ _ _ _ _ Hl Hy) as (r & x & Hr & ->); apply (HD r Hr)|].
  split; [unfold table; f_equal; apply logs_expo; [|exact L3]; intros l y Hl Hy; destruct (in_table _ _ _ _ _ Hl Hy) as (r & x & Hr & ->); destruct (HD r Hr) as (_ & _ & B); specialize (B x); lra|].
  intros l y [Hl|Hl] Hy; [refine (logs_neg _ _ _ L2 l y Hl Hy)|refine (logs_neg _ _ _ L3 l y Hl Hy)]; intros l' y' Hl' Hy'; destruct (in_table _ _ _ _ _ Hl' Hy') as (r & x & Hr & ->);
    destruct (HD r Hr) as (_ & _ & B); specialize (B x); lra.
Qed.
Lemma norm_param D r s : (forall j d, (j < 2)%nat -> In d D -> num_at j d = [nth0 0 (num_at j d)]) -> (r < length D)%nat -> s = "loc" \/ s = "scale" ->
  param (cols KNorm D) r s = if String.eqb s "loc" then nth0 0 (num_at 0 (nth r D [])) else nth0 0 (num_at 1 (nth r D [])).
Proof.
  intros H1 Hr.
  assert (Hcol : forall j, (j < 2)%nat -> concat (map (num_at j) D) = map (fun d => nth0 0 (num_at j d)) D).
  { intros j Hj. clear - H1 Hj. induction D as [|d D IH]; [reflexivity|]. cbn [map concat]. rewrite IH by (intros; apply H1; auto; right; auto).
    rewrite (H1 j d Hj (or_introl eq_refl)) at 1. reflexivity. }
  assert (Hdat : forall (l : list R) r, (r < length l)%nat -> pick r l = nth0 r l).
  { intros [|a [|b l]] [|q] Hq; try reflexivity; simpl in Hq; lia. }
  assert (Hc2 : forall j, (j < 2)%nat -> pick r (concat (map (num_at j) D)) = nth0 0 (num_at j (nth r D []))).
  { intros j Hj. rewrite (Hdat (concat (map (num_at j) D)) r) by (rewrite Hcol, map_length by auto; auto). rewrite Hcol by auto. unfold nth0 at 1.
    exact (nth_map_in (fun d => nth0 0 (num_at j d)) D r _ [] Hr). }
  assert (Hm : forall j, map nums (map (cell_at j) D) = map (num_at j) D) by (intros j; rewrite map_map; reflexivity).
  unfold param, cols, columns, kind_layout, columns_from, col_value, rows_nd. intros [->| ->]; cbn [vget dget String.eqb Ascii.eqb Bool.eqb dat]; rewrite Hm; [apply (Hc2 0%nat)|apply (Hc2 1%nat)]; lia.
Qed.
Lemma c126_norm : forall X M e, fill_outside X -> s_phi X = gauss -> made X M e -> g_name (e_obj e) = "norm" ->
  forall x, log_answer (ens_pdf e x) (norm_ens_logpdf ln (ln (sqrt (2 * PI))) e x).
Proof.
  intros X M e HX Hphi He Hn x. destruct (made_rows X HX scaled inputs_scaled M e He) as (k & D & HD & Hp).
  destruct (made_kept X (wrapped X) (class_wrapped X) M e He) as [_ [[_ Hw]|[Hw _]]]; [|contradiction].
  assert (k = KNorm) as -> by (destruct (rep_meta _ _ _ _ HD) as (_ & _ & E); rewrite E in Hn; destruct k; try discriminate; reflexivity).
  pose proof (rep_npdf' X KNorm D e HD) as Hnp. pose proof HD as (_ & _ & Hgr & _ & (_ & _ & Hdt & _)).
  unfold ens_pdf. rewrite Hw, Hphi. unfold norm_ens_logpdf, wrap_eval. fold (e_npdf e). rewrite Hdt, Hnp.
  destruct (broadcast_points (length D) x) as [[xs rows]|] eqn:Eb; [|reflexivity]. cbn [bind log_answer].
  assert (Hrows : forall r, In r rows -> (r < length D)%nat).
  { pose proof HD as (_ & Hne & _). assert (0 < length D)%nat by (destruct D; [congruence|simpl; lia]). intros r Hr.
    unfold broadcast_points in Eb. destruct x as [t|l|m]; [|destruct l|]; repeat match type of Eb with (if ?b then _ else _) = _ => destruct b end; try discriminate; injection Eb as <- <-;
      first [apply in_seq in Hr; lia|apply repeat_spec in Hr; lia]. }
  rewrite Forall_forall in Hp, Hgr.
  assert (Hone : forall j d, (j < 2)%nat -> In d D -> num_at j d = [nth0 0 (num_at j d)]).
  { intros j d Hj Hd. destruct (Hgr d Hd) as [Hfit _]. unfold row_fits, kind_layout in Hfit. inversion Hfit as [|a b la lb Ha Hl E1 E2]; subst. inversion Hl as [|a2 b2 la2 lb2 Ha2 Hl2 E1 E2]; subst. inversion Hl2; subst.
    destruct b, b2; cbn in Ha, Ha2; try contradiction. destruct j as [|[|j]]; [| |lia]; unfold num_at, cell_at; cbn [nth nums];
      [destruct l as [|q [|]]; try discriminate; reflexivity|destruct l0 as [|q [|]]; try discriminate; reflexivity]. }
  assert (Hscale : forall r, (r < length D)%nat -> 0 < param (cols KNorm D) r "scale").
  { intros r Hr. rewrite norm_param by auto. exact (Hp _ (nth_In D [] Hr)). }
  clear Eb. unfold logs. revert rows Hrows. induction xs as [|l xs IH]; intros [|r rows] Hrows; cbn [map2]; constructor.
  - assert (Hs := Hscale r (Hrows r (or_introl eq_refl))). generalize dependent (param (cols KNorm D) r). intros p Hs.
    induction l as [|t l IHl]; [constructor|]. cbn [map]. constructor; [|exact IHl]. unfold norm_pdf, norm_logpdf. cbv zeta.
    assert (Hb : nltb n0 (p "scale") = true) by (destruct (nltb_reflect n0 (p "scale")) as [_|C]; [reflexivity|exfalso; apply C; exact Hs]). rewrite !Hb.
    assert (Hg : 0 < gauss ((t - p "loc") / p "scale")) by (unfold gauss; apply Rdiv_lt_0_compat; [apply exp_pos|apply sqrt_lt_R0; pose proof PI_RGT_0; lra]).
    assert (Hsq : 0 < sqrt (2 * PI)) by (apply sqrt_lt_R0; pose proof PI_RGT_0; lra).
    match goal with |- log_of (Fin ?a) (Fin ?b) => replace b with (ln a); [constructor; apply Rdiv_lt_0_compat; auto|] end.
    numR. unfold Rdiv at 1. rewrite ln_mult by (auto; apply Rinv_0_lt_compat; auto). rewrite ln_Rinv by auto.
    unfold gauss at 1. unfold Rdiv at 1. rewrite ln_mult by (try apply exp_pos; apply Rinv_0_lt_compat; auto). rewrite ln_Rinv by auto. rewrite ln_exp. field. lra.
  - apply IH. intros q Hq. apply Hrows. right. exact Hq.
Qed.
(** ** Examples *)
Lemma c126_example : exists X M e logpdf logcdf logsf, fill_outside X /\ normal_laws (s_phi X) (s_Phi X) /\ made X M e /\ proper_class e /\ g_name (e_obj e) <> "norm" /\
  logpdf_method e logpdf /\ logcdf_method e logcdf /\ logsf_method e logsf /\ e_npdf e = 3%nat.
Proof.
  destruct (made_new scipy1 hist0 table0 scipy1_fill hist0_ok (proj1 table0_ok)) as (e & _ & _ & Hm & Hn & Hs & Hg).
  assert (Hnn : g_name (e_obj e) <> "norm") by (rewrite Hg; discriminate). destruct (c126_methods _ _ e Hm Hnn) as ((a & Ha) & (b & Hb) & (c & Hc)).
  exists scipy1, (input_methods hist0), e, a, b, c. split; [apply scipy1_fill|]. split; [apply logistic_laws|]. split; [exact Hm|].
  split; [unfold proper_class; rewrite Hg; split; discriminate|]. repeat (split; [assumption|]). exact Hn.
Qed.
Lemma c126_norm_example : exists M e, fill_outside scipy2 /\ s_phi scipy2 = gauss /\ made scipy2 M e /\ g_name (e_obj e) = "norm" /\ e_npdf e = 2%nat.
Proof.
  assert (HX : fill_outside scipy2) by exact scipy1_fill. destruct (made_new scipy2 _ None HX norm1_ok I) as (e & _ & _ & Hm & Hn & _ & Hg).
  exists (input_methods norm1), e. split; [exact HX|]. split; [reflexivity|]. split; [exact Hm|]. split; [exact Hg|exact Hn].
Qed.
