(** Probabilities outside (0,1) (C53, C107). *)
From Coq Require Import QArith String List Arith ZArith Bool Sorted Lia Reals Lra.
From Verif Require Import FreezeProofs Num NumProofs Py NdArray NumpyLib Utils ScipyWrap Spec HistPdf InterpPdf QuantPdf MixmodPdf Packing PackedPdf SplinePdf
  Values Ensemble Classes Kinds EnsembleProofs KindInputs ReachProofs EnsembleTheorems Convert ConvertTheorems
  SortProofs EvalProofs NdProofs InterpProofs IntegralProofs BinProofs HistProofs HistTheorems KindProofs ShapeTheorems ConvertExamples.
Import ListNotations.
Local Open Scope list_scope.
Local Open Scope R_scope.

(** ** Specification *)
Definition inner (p : R) : Prop := 0 < p < 1.
Definition edge (p : R) : xnum R := if Req_EM_T p 0 then NInf else if Req_EM_T p 1 then PInf else NaN.
(** the probabilities strictly between 0 and 1, in the given order *)
Definition inner_of (ps : list R) : list R := filter (fun p => if Rlt_dec 0 p then if Rlt_dec p 1 then true else false else false) ps.
(** [ws]: the values [vs] of the inner probabilities in their places, and -inf, inf or NaN in the others *)
Inductive merged : list R -> list (xnum R) -> list (xnum R) -> Prop :=
| merged_nil : merged [] [] []
| merged_in p ps v vs ws : inner p -> merged ps vs ws -> merged (p :: ps) (v :: vs) (v :: ws)
| merged_out p ps vs ws : ~ inner p -> merged ps vs ws -> merged (p :: ps) vs (edge p :: ws).
(** answering a grid of probabilities is answering the inner ones *)
Definition undisturbed (npdf : nat) (ppf : points R -> res (list (list (xnum R)))) : Prop := forall ps,
  match ppf (PGrid (inner_of ps)) with
  | Err e => ppf (PGrid ps) = Err e
  | Ok t => exists u, ppf (PGrid ps) = Ok u /\ length u = npdf /\ forall r, (r < npdf)%nat -> merged ps (nth r t []) (nth r u [])
  end.

Definition icond (p : R) : bool := (nltb n0 p && nltb p n1)%bool.
Definition iother (p : R) : xnum R := if neqb p n0 then NInf else if neqb p n1 then PInf else NaN.
Lemma icond_inner p : icond p = true <-> inner p.
Proof. unfold icond, inner. rewrite andb_true_iff. destruct (nltb_reflect n0 p), (nltb_reflect p n1); numR; intuition (try lra; try discriminate). Qed.
Lemma icond_out p : icond p = false <-> ~ inner p.
Proof. rewrite <- icond_inner. destruct (icond p); split; intros; congruence. Qed.
Lemma inner_filter ps : inner_of ps = filter icond ps.
Proof.
  unfold inner_of. apply filter_ext. intros p. pose proof (icond_inner p) as H. unfold inner in H. destruct (icond p); destruct (Rlt_dec 0 p); try destruct (Rlt_dec p 1); try reflexivity; exfalso; first [assert (0 < p < 1) by (apply H; reflexivity); lra | assert (false = true) by (apply H; lra); discriminate].
Qed.
Lemma iother_edge p : iother p = edge p.
Proof. unfold iother, edge. destruct (neqb_reflect p n0), (neqb_reflect p n1), (Req_EM_T p 0), (Req_EM_T p 1); numR; try contradiction; reflexivity. Qed.
Lemma place_merged ps : forall vals, merged ps (place icond iother (inner_of ps) vals) (place icond iother ps vals).
Proof.
  induction ps as [|p ps IH]; intros vals; [constructor|]. rewrite inner_filter in *. cbn [filter place]. destruct (icond p) eqn:E.
  - cbn [place]. rewrite E. apply icond_inner in E. destruct vals; (apply merged_in; [exact E|]); apply IH.
  - rewrite iother_edge. apply merged_out; [apply icond_out; exact E|]. apply IH.
Qed.
Lemma merged_app ps : forall qs vs ws, merged (ps ++ qs) vs ws ->
  merged ps (firstn (length (inner_of ps)) vs) (firstn (length ps) ws) /\ merged qs (skipn (length (inner_of ps)) vs) (skipn (length ps) ws).
Proof.
  rewrite inner_filter. induction ps as [|p ps IH]; intros qs vs ws H; [cbn; split; [constructor|exact H]|]. cbn [app filter] in *. inversion H as [|p' ps' v vs' ws' Hi Hm|p' ps' vs' ws' Hi Hm]; subst.
  - apply icond_inner in Hi. rewrite Hi. apply icond_inner in Hi. cbn [length firstn skipn]. rewrite <- inner_filter in *. destruct (IH qs vs' ws' Hm) as [H1 H2]. split; [apply merged_in; assumption|exact H2].
  - apply icond_out in Hi. rewrite Hi. apply icond_out in Hi. cbn [length firstn skipn]. rewrite <- inner_filter in *. destruct (IH qs vs ws' Hm) as [H1 H2]. split; [apply merged_out; assumption|exact H2].
Qed.
Lemma merged_chunks ps n : forall vs ws, merged (concat (repeat ps n)) vs ws -> forall r, (r < n)%nat ->
  merged ps (nth r (chunks n (length (inner_of ps)) vs) []) (nth r (chunks n (length ps) ws) []).
Proof.
  induction n as [|n IH]; intros vs ws H r Hr; [lia|]. cbn [repeat concat] in H. apply merged_app in H. destruct H as [H1 H2]. cbn [chunks]. destruct r as [|r]; cbn [nth]; [exact H1|]. apply IH; [exact H2|lia].
Qed.
Lemma filter_repeat {A} (f : A -> bool) l n : filter f (concat (repeat l n)) = concat (repeat (filter f l) n).
Proof. induction n as [|n IH]; [reflexivity|]. cbn [repeat concat]. rewrite filter_app, IH. reflexivity. Qed.
Lemma filter_rows ps : forall rows, length rows = length rows ->
  map snd (filter (fun p => icond (fst p)) (combine (concat (repeat ps (length rows))) (flat_rows (repeat ps (length rows)) rows))) = flat_rows (repeat (filter icond ps) (length rows)) rows.
Proof.
  intros rows _. induction rows as [|r rows IH]; [reflexivity|]. unfold flat_rows in *. cbn [length repeat concat map2]. 
  assert (G : forall A B (l1 l2 : list A) (m1 m2 : list B), length l1 = length m1 -> combine (l1 ++ l2) (m1 ++ m2) = combine l1 m1 ++ combine l2 m2).
  { induction l1 as [|a l1 IHl]; intros l2 [|b m1] m2 H; try discriminate; [reflexivity|]. cbn. f_equal. apply IHl. injection H; auto. }
  rewrite G by (rewrite map_length; reflexivity). rewrite filter_app, map_app, IH. f_equal. clear. induction ps as [|p ps IH]; [reflexivity|]. cbn [map combine filter fst]. destruct (icond p); cbn [map snd]; rewrite IH; reflexivity.
Qed.
Lemma forallb_filter_all {A} (f : A -> bool) l : forallb f (filter f l) = true.
Proof. apply forallb_forall. intros x Hx. apply filter_In in Hx. apply Hx. Qed.
Lemma filter_all {A} (f : A -> bool) l : forallb f l = true -> filter f l = l.
Proof. induction l as [|a l IH]; [reflexivity|]. cbn. intros H. apply andb_true_iff in H. destruct H as [H1 H2]. rewrite H1, IH by exact H2. reflexivity. Qed.
(** the answer for one PDF does not depend on how its number is passed *)
Definition single_ok (method : nd R -> nd nat -> res (list R)) : Prop := forall l, l <> [] -> method (nd1 l) (mknd [1; 1]%nat [0%nat]) = method (nd1 l) (nd1 (map (fun _ => 0%nat) l)).
Lemma single_dispatches g m : dispatches g 1 m -> single_ok m.
Proof.
  intros Hd l Hl. pose proof (dispatches_one g m [l] Hd ltac:(cbn; rewrite app_nil_r; exact Hl)) as E. cbn [concat length repeat] in E. unfold flat_rows in E. cbn [map2 concat] in E. rewrite !app_nil_r in E. rewrite E.
  destruct Hd as (flat & prod_ & two_d & Hm & _ & Hp). rewrite Hm. unfold dispatch. change [1; 1]%nat with ([1] ++ [1])%nat. rewrite (case_single l [1%nat]) by discriminate. cbn [bind dat nd1]. f_equal.
  rewrite Hp; [|discriminate|intros r [<-|[]]; lia]. unfold product. cbn [flat_map]. apply app_nil_r.
Qed.
Lemma single_error e : single_ok (fun _ _ => Err e).
Proof. intros l _. reflexivity. Qed.
Lemma undisturbed_rv n (method : nd R -> nd nat -> res (list R)) : n <> 1%nat \/ single_ok method -> undisturbed n (rv_ppf n method).
Proof.
  intros Hn ps. change (rv_ppf n method) with (rv_eval n icond iother method). unfold rv_eval. cbn [broadcast_points bind]. cbv zeta.
  assert (Hx : concat (repeat (inner_of ps) n) = filter icond (concat (repeat ps n))) by (rewrite filter_repeat, inner_filter; reflexivity).
  assert (Hr : map snd (filter (fun p => icond (fst p)) (combine (concat (repeat ps n)) (flat_rows (repeat ps n) (seq 0 n)))) = flat_rows (repeat (inner_of ps) n) (seq 0 n)).
  { rewrite inner_filter. pose proof (filter_rows ps (seq 0 n) eq_refl) as F. rewrite seq_length in F. exact F. }
  rewrite Hx, Hr, forallb_filter_all.
  set (V := if (length (filter icond (concat (repeat ps n))) =? 0)%nat then Ok [] else method (nd1 (filter icond (concat (repeat ps n)))) (nd1 (flat_rows (repeat (inner_of ps) n) (seq 0 n)))).
  assert (HV : (if forallb icond (concat (repeat ps n)) then (if (length (concat (repeat ps n)) =? 0)%nat then Ok [] else method (nd1 (concat (repeat ps n))) (nd1 (flat_rows (repeat ps n) (seq 0 n))))
    else if existsb icond (concat (repeat ps n)) then method (nd1 (filter icond (concat (repeat ps n)))) (if (n =? 1)%nat then mknd [1; 1]%nat [0%nat] else nd1 (flat_rows (repeat (inner_of ps) n) (seq 0 n))) else Ok []) = V).
  { unfold V. destruct (forallb icond (concat (repeat ps n))) eqn:Ef.
    - rewrite (filter_all icond _ Ef). destruct n as [|n]; [reflexivity|]. assert (Ep : forallb icond ps = true) by (cbn [repeat concat] in Ef; rewrite forallb_app in Ef; apply andb_true_iff in Ef; apply Ef).
      rewrite inner_filter, (filter_all icond _ Ep). reflexivity.
    - destruct (existsb icond (concat (repeat ps n))) eqn:Ee.
      + apply existsb_exists in Ee. destruct Ee as (z & Hz & Hc). destruct (filter icond (concat (repeat ps n))) as [|y ys] eqn:El.
        2:{ cbn [length Nat.eqb]. destruct (Nat.eqb_spec n 1) as [E1|E1]; [|reflexivity]. destruct Hn as [Hn|Hn]; [contradiction|]. rewrite Hn by discriminate. f_equal. f_equal. subst n. unfold flat_rows. cbn [repeat seq map2 concat] in *. rewrite app_nil_r in *. rewrite Hx. reflexivity. }
        exfalso. assert (In z []) by (rewrite <- El; apply filter_In; split; assumption). contradiction.
      + destruct (filter icond (concat (repeat ps n))) as [|z zs] eqn:El; [reflexivity|]. exfalso. assert (Hz : In z (filter icond (concat (repeat ps n)))) by (rewrite El; left; reflexivity). apply filter_In in Hz. assert (existsb icond (concat (repeat ps n)) = true) by (apply existsb_exists; exists z; exact Hz). congruence. }
  rewrite HV. clear HV. destruct V as [vals|]; cbn [bind]; [|reflexivity]. eexists. split; [reflexivity|]. rewrite !repeat_length, chunks_length. split; [reflexivity|]. intros r Hr'.
  assert (W : forall l : list R, (match repeat l n with [] => 0%nat | l0 :: _ => length l0 end) = length l) by (intros l; destruct n; [lia|reflexivity]). rewrite !W.
  apply merged_chunks; [|exact Hr']. pose proof (place_merged (concat (repeat ps n)) vals) as P. rewrite inner_filter in P. exact P.
Qed.
(** ** C53 *)
Lemma out_nan : forall p, p < 0 \/ 1 < p -> edge p = NaN.
Proof. intros p Hp. unfold edge. destruct (Req_EM_T p 0); [lra|]. destruct (Req_EM_T p 1); [lra|reflexivity]. Qed.
(** whatever the class, its method is not asked about probabilities that are not strictly between 0 and 1 *)
Lemma rv_ppf_edges n (method : nd R -> nd nat -> res (list R)) ps : (forall p, In p ps -> ~ inner p) -> rv_ppf n method (PGrid ps) = table n (fun _ => edge) ps.
Proof.
  intros Hp. change (rv_ppf n method) with (rv_eval n icond iother method). unfold rv_eval. cbn [broadcast_points bind]. cbv zeta.
  assert (Hc : forall p, In p (concat (repeat ps n)) -> icond p = false) by (intros p Hin; apply icond_out; apply Hp; apply in_concat in Hin; destruct Hin as (l & Hl & Hin); apply repeat_spec in Hl; subst; exact Hin).
  assert (He : existsb icond (concat (repeat ps n)) = false) by (apply not_true_iff_false; intros E; apply existsb_exists in E; destruct E as (z & Hz & Ez); rewrite (Hc z Hz) in Ez; discriminate).
  assert (HV : (if forallb icond (concat (repeat ps n)) then (if (length (concat (repeat ps n)) =? 0)%nat then Ok [] else method (nd1 (concat (repeat ps n))) (nd1 (flat_rows (repeat ps n) (seq 0 n))))
    else if existsb icond (concat (repeat ps n)) then method (nd1 (filter icond (concat (repeat ps n)))) (if (n =? 1)%nat then mknd [1; 1]%nat [0%nat] else nd1 (map snd (filter (fun p => icond (fst p)) (combine (concat (repeat ps n)) (flat_rows (repeat ps n) (seq 0 n)))))) else Ok []) = Ok []).
  { rewrite He. destruct (forallb icond (concat (repeat ps n))) eqn:Ef; [|reflexivity]. destruct (concat (repeat ps n)) as [|z zs] eqn:Ec; [reflexivity|]. cbn in Ef. rewrite (Hc z) in Ef by (left; reflexivity). discriminate. }
  rewrite HV. cbn [bind]. unfold table. f_equal. rewrite repeat_length.
  assert (Hpl : forall l, (forall p, In p l -> icond p = false) -> place icond iother l [] = map edge l).
  { induction l as [|p l IH]; intros H; [reflexivity|]. cbn [place map]. rewrite (H p) by (left; reflexivity). rewrite iother_edge, IH by (intros; apply H; right; assumption). reflexivity. }
  rewrite Hpl by exact Hc. rewrite concat_map, map_repeat. clear. destruct n as [|n]; [reflexivity|]. cbn [repeat]. change (map edge ps :: repeat (map edge ps) n) with (repeat (map edge ps) (S n)).
  rewrite <- (map_length edge ps). generalize (S n) as m. clear n. intros m. rewrite <- (repeat_length (map edge ps) m) at 1. rewrite chunks_concat by (intros r Hr; apply repeat_spec in Hr; subst; reflexivity).
  generalize 0%nat as z. induction m as [|m IH]; intros z; [reflexivity|]. cbn [repeat seq map]. f_equal. apply IH.
Qed.
(** ** Every reachable ensemble *)
Definition steady (n : nat) (method : nd R -> nd nat -> res (list R)) : Prop := (exists err, method = fun _ _ => Err err) \/ exists g, dispatches g n method.
Lemma steady_single n method : steady n method -> n <> 1%nat \/ single_ok method.
Proof. intros [[err ->]|[g H]]; [right; apply single_error|]. destruct (Nat.eq_dec n 1) as [->|]; [right; exact (single_dispatches g method H)|left; assumption]. Qed.
Definition well_asked (g : gobj R) : Prop :=
  g_name g = "norm"%string \/ exists method, g_ppf g = rv_ppf (g_npdf g) method /\ (g_name g = "mixmod"%string \/ steady (g_npdf g) method).
Lemma reshape_count {A} (a b : nd A) : reshape_to_pdf_size a = Ok b -> length (rows_of b) = prod (removelast (shp a)).
Proof.
  unfold reshape_to_pdf_size, np_reshape. destruct (Nat.eqb _ _); [|discriminate]. intros E. injection E as <-. unfold rows_of. cbn [shp]. apply chunks_length.
Qed.
Lemma hist_asked d g : hist_create d = Ok g -> well_asked g.
Proof.
  unfold hist_create. destruct (negb _); [discriminate|]. destruct (arg d "bins"); [|discriminate]. destruct (arg d "pdfs"); [|discriminate]. cbn [bind]. destruct (as_grid _) as [bins|]; [|discriminate]. destruct (as_numbers _) as [pdfs|]; [|discriminate]. cbn [bind].
  destruct (as_bool _) as [chk|]; [|discriminate]. cbn [bind]. destruct (hist_ctor bins pdfs chk) as [h|] eqn:Eh; [|discriminate]. cbn [bind]. intros E. injection E as <-. right. exists (hist_ppf h). destruct (hist_count _ _ _ _ Eh) as [H1 H2]. split.
  - unfold g_npdf. cbn [g_ppf g_shape hist_obj]. unfold hist_ens_ppf. rewrite H1. reflexivity.
  - right. right. eexists. apply multi_x_y_dispatches.
Qed.
Lemma interp_asked d g : interp_create d = Ok g -> well_asked g.
Proof.
  unfold interp_create. destruct (negb _); [discriminate|]. destruct (arg d "xvals"); [|discriminate]. destruct (arg d "yvals"); [|discriminate]. cbn [bind]. destruct (as_grid _) as [xs|]; [|discriminate]. destruct (as_numbers _) as [ys|]; [|discriminate]. cbn [bind].
  destruct (as_bool _) as [chk|]; [|discriminate]. cbn [bind]. destruct (interp_ctor xs ys chk) as [i|] eqn:Ei; [|discriminate]. cbn [bind]. intros E. injection E as <-. right. exists (interp_ppf i). destruct (interp_ctor_count _ _ _ _ Ei) as [H1 H2]. split.
  - unfold g_npdf. cbn [g_ppf g_shape interp_obj]. unfold interp_ens_ppf. rewrite H1. reflexivity.
  - right. right. eexists. apply multi_x_y_dispatches.
Qed.
Lemma irr_asked d g : irr_create d = Ok g -> well_asked g.
Proof.
  unfold irr_create. destruct (negb _); [discriminate|]. destruct (arg d "xvals"); [|discriminate]. destruct (arg d "yvals"); [|discriminate]. cbn [bind]. destruct (as_numbers _) as [xs|]; [|discriminate]. cbn [bind]. destruct (as_numbers _) as [ys|]; [|discriminate]. cbn [bind]. destruct (Nat.eqb _ 0); [discriminate|].
  destruct (as_bool _) as [chk|]; [|discriminate]. cbn [bind]. destruct (irr_ctor xs ys chk) as [o|] eqn:Eo; [|discriminate]. cbn [bind].
  intros E. injection E as <-. right. exists (irr_ppf o). destruct (irr_count _ _ _ _ Eo) as [H1 H2]. split.
  - unfold g_npdf. cbn [g_ppf g_shape irr_obj]. unfold irr_ens_ppf. rewrite H1. reflexivity.
  - right. right. eexists. apply multi_x_multi_y_dispatches.
Qed.
Lemma mixmod_asked phi Phi d g : mixmod_create phi Phi d = Ok g -> well_asked g.
Proof.
  unfold mixmod_create. destruct (negb _); [discriminate|]. destruct (arg d "means"); [|discriminate]. destruct (arg d "stds"); [|discriminate]. destruct (arg d "weights"); [|discriminate]. cbn [bind]. destruct (as_numbers _) as [mu|]; [|discriminate]. cbn [bind]. destruct (as_numbers _) as [sd|]; [|discriminate]. cbn [bind]. destruct (as_numbers _) as [w|]; [|discriminate]. cbn [bind].
  destruct (mixmod_ctor mu sd w) as [m|] eqn:Em; [|discriminate]. cbn [bind].
  intros E. injection E as <-. right. destruct (mixmod_count _ _ _ _ Em) as [H1 H2]. exists (mixmod_ppf Phi m). split; [|left; reflexivity]. unfold g_npdf. cbn [g_ppf g_shape mixmod_obj]. unfold mixmod_ens_ppf. rewrite H1. reflexivity.
Qed.
Lemma quant_asked quad cubic dspline d g : quant_create quad cubic dspline d = Ok g -> well_asked g.
Proof.
  unfold quant_create. destruct (negb _); [discriminate|]. destruct (arg d "quants"); [|discriminate]. destruct (arg d "locs"); [|discriminate]. cbn [bind]. destruct (as_grid _) as [qs|]; [|discriminate]. destruct (as_numbers _) as [locs|]; [|discriminate]. cbn [bind]. destruct (Nat.eqb _ 0); [discriminate|].
  destruct (as_bool _) as [chk|]; [|discriminate]. cbn [bind]. destruct (as_name _) as [name|]; [|discriminate]. cbn [bind]. destruct (quant_ctor qs locs chk name) as [Q|] eqn:EQ; [|discriminate]. cbn [bind].
  intros E. injection E as <-. right. exists (quant_ppf quad Q). destruct (quant_count _ _ _ _ _ EQ) as [H1 H2]. split.
  - unfold g_npdf. cbn [g_ppf g_shape quant_obj]. unfold quant_ens_ppf. rewrite H1. reflexivity.
  - right. unfold quant_ppf. destruct (length (q_quants Q) <? 3)%nat; [left; eexists; reflexivity|]. right.
    exists (fun x r => quad (q_quants Q) (nth r (q_locs Q) []) (q_xmin Q) (q_xmax Q) x).
    do 3 eexists. split; [reflexivity|split].
    + intros. apply vectorize2_same. assumption.
    + intros xs rows Hn Hr. cbv beta. unfold product, per_row. destruct rows as [|r [|r2 rows]]; [congruence| |reflexivity]. simpl. rewrite app_nil_r. reflexivity.
Qed.
Lemma packed_asked pow10 d g : packed_create pow10 d = Ok g -> well_asked g.
Proof.
  unfold packed_create. destruct (negb _); [discriminate|]. destruct (arg d "xvals"); [|discriminate]. destruct (arg d "ypacked"); [|discriminate]. destruct (arg d "ymax"); [|discriminate]. cbn [bind]. destruct (as_grid _) as [xs|]; [|discriminate]. destruct (as_bytes _) as [yp|]; [|discriminate]. destruct (as_numbers _) as [ym|]; [|discriminate]. cbn [bind].
  destruct (as_scalar _) as [pt|]; [|discriminate]. cbn [bind]. destruct (as_scalar _) as [lf|]; [|discriminate]. cbn [bind]. destruct (as_bool _) as [chk|]; [|discriminate]. cbn [bind]. destruct (packed_ctor _ _ _ _ _ _ _) as [k|] eqn:Ek; [|discriminate]. cbn [bind].
  intros E. injection E as <-. right. exists (interp_ppf (k_table k)). destruct (packed_count _ _ _ _ _ _ _ _ Ek) as [H1 H2]. split.
  - unfold g_npdf. cbn [g_ppf g_shape packed_obj]. unfold packed_ens_ppf, interp_ens_ppf. unfold k_npdf in H1. rewrite H1, H2. reflexivity.
  - right. right. eexists. apply multi_x_y_dispatches.
Qed.
Lemma spline_asked d g : spline_create d = Ok g -> well_asked g.
Proof.
  unfold spline_create. destruct (negb _); [discriminate|]. destruct (vget d "splx"); [|discriminate]. destruct (vget d "sply"); [|discriminate]. destruct (vget d "spln"); [|discriminate].
  destruct (as_numbers _) as [x|]; [|discriminate]. cbn [bind]. destruct (as_numbers _) as [y|]; [|discriminate]. cbn [bind]. destruct (as_numbers _) as [n|]; [|discriminate]. cbn [bind].
  destruct (spline_ctor x y n) as [o|] eqn:Eo; [|discriminate]. cbn [bind].
  intros E. injection E as <-. right. destruct (spline_count _ _ _ _ Eo) as [H1 H2]. eexists. split; [|right; left; eexists; reflexivity]. unfold g_npdf. cbn [g_ppf g_shape spline_obj]. unfold spline_ens_ppf. rewrite H1. reflexivity.
Qed.
Lemma sparse_asked voigt sq d g : sparse_create voigt sq d = Ok g -> well_asked g.
Proof.
  unfold sparse_create. intros H.
  repeat match type of H with
         | (let* _ := ?a in _) = _ => destruct a eqn:?; [cbn [bind] in H|discriminate]
         | match ?l with _ => _ end = _ => destruct l; try discriminate
         end.
  injection H as <-. right. match goal with E : Sparse.sparse_ctor _ _ _ _ _ _ _ _ _ _ = Ok ?i |- _ => exists (interp_ppf i); unfold Sparse.sparse_ctor in E;
    match type of E with (let* _ := ?a in _) = _ => destruct a; [cbn [bind] in E|discriminate] end;
    destruct (interp_ctor_count _ _ _ _ E) as [H1 H2] end.
  split; [|right; right; eexists; apply multi_x_y_dispatches].
  unfold g_npdf. cbn [g_ppf g_shape sparse_obj]. unfold interp_ens_ppf. rewrite H1. reflexivity.
Qed.
Definition good_func (c : vdict R -> res (gobj R)) : Prop := forall d g, c d = Ok g -> well_asked g.
Section Reach.
  Variable X : scipy.
  Lemma class_good name c : qp X name = Some c -> good_func c.
  Proof.
    unfold qp, Kinds.classes, qp_classes. intros E d g Hg.
    repeat match type of E with (if ?b then _ else _) = _ => destruct b end; try discriminate; injection E as <-;
      [eapply hist_asked|eapply interp_asked|eapply irr_asked|eapply mixmod_asked|eapply quant_asked|eapply packed_asked|eapply spline_asked|eapply sparse_asked|]; try exact Hg.
    left. unfold wrap_create in Hg. destruct (negb _); [discriminate|]. destruct (wrap_shape d); [|discriminate]. cbn [bind] in Hg. injection Hg as <-. reflexivity.
  Qed.
  Lemma create_good name : good_func (create_of (qp X) name).
  Proof. intros d g Hg. unfold create_of in Hg. destruct (qp X name) as [c|] eqn:E; [|discriminate]. exact (class_good name c E d g Hg). Qed.
  Definition asked (e : ens R) : Prop := good_func (e_func e) /\ well_asked (e_obj e).
  Lemma new_asked f d anc e : good_func f -> ens_new f d anc = Ok e -> asked e.
  Proof. intros Hf. unfold ens_new. destruct (f d) as [g|] eqn:Eg; [|discriminate]. cbn [bind]. destruct (check_array_shapes _ _); [|discriminate]. cbn [bind]. intros E. injection E as <-. split; [exact Hf|exact (Hf d g Eg)]. Qed.
  Lemma set_asked e anc r e' : asked e -> set_ancil e anc = (r, e') -> asked e'.
  Proof. unfold set_ancil. intros H E. destruct (check_array_shapes _ _); injection E as <- <-; exact H. Qed.
  Lemma update_asked e d anc r e' : asked e -> update e d anc = (r, e') -> asked e'.
  Proof.
    intros H E. unfold update in E. destruct (e_func e d) as [g|] eqn:Eg; [|injection E as <- <-; exact H].
    destruct (set_ancil _ anc) as [r2 e2] eqn:Es. assert (H2 : asked e2) by (eapply set_asked; [|exact Es]; split; [exact (proj1 H)|exact (proj1 H d g Eg)]). destruct r2; injection E as <- <-; exact H2.
  Qed.
  Lemma gridded_asked e g : asked e -> asked (snd (gridded e g)).
  Proof. intros H. unfold gridded. destruct (e_gridded e) as [[g' v]|]; [destruct (array_equal _ _); [exact H|]|]; destruct (ens_pdf e (PGrid g)); exact H. Qed.
  Lemma made_asked M e : made X M e -> asked e.
  Proof.
    unfold made. induction 1 as [i anc e Hi E|M e key ps e' _ IH _ _ E|M e0 es e' _ IH _ _ _ E|M a b a' _ IHa _ _ _ E|M e i anc e' _ IH _ _ E|M e e' _ IH E|M e anc e' _ IH E|M e d e' _ IH E|M e g _ IH|M e g _ IH|M e n lo hi dx _ IH].
    - eapply new_asked; [|exact E]. apply create_good.
    - unfold getitem in E. destruct (slice_dict _ _); [|discriminate]. cbn [bind] in E. match type of E with bind ?a _ = _ => destruct a; [|discriminate] end. cbn [bind] in E. eapply new_asked; [|exact E]. apply create_good.
    - unfold concatenate in E. destruct (compare_dicts _) as [[]|]; try discriminate. cbn [bind] in E. destruct (concatenate_dicts _); [|discriminate]. cbn [bind] in E. match type of E with bind ?a _ = _ => destruct a; [|discriminate] end. cbn [bind] in E. destruct (ens_new _ _ _) as [e|] eqn:En; [|discriminate]. injection E as <-. eapply new_asked; [|exact En]. apply IH.
    - unfold append in E. match type of E with match ?p with _ => _ end = _ => destruct p as [[od an]|] end; [|injection E as E1 E2; discriminate]. unfold update_objdata in E. eapply update_asked; [exact IHa|exact E].
    - eapply update_asked; [exact IH|exact E].
    - unfold from_tables in E. destruct (build_data_dict _ _) as [data|]; [|discriminate]. cbn [bind] in E. destruct (vget data "pdf_name") as [n|]; [|discriminate]. destruct (vget data "pdf_version"); [|discriminate]. destruct (text_of n) as [name|]; [|discriminate].
      match type of E with match ?z with _ => _ end = _ => destruct z as [cc|] eqn:Ec; [|discriminate] end. eapply new_asked; [|exact E]. exact (class_good name cc Ec).
    - eapply set_asked; [exact IH|exact E].
    - unfold add_to_ancil in E. destruct (check_columns _ _); [|discriminate]. destruct (e_ancil e); [|discriminate]. injection E as <-. exact IH.
    - apply gridded_asked. exact IH.
    - pose proof (gridded_asked e g IH) as G. unfold mode. destruct (gridded e g) as [[[g' v]|] e']; cbn [snd] in *; [destruct (Nat.eqb _ _)|]; exact G.
    - unfold moment_partial. destruct (_ <? 0)%Z; [exact IH|]. match goal with |- context [gridded e ?g] => pose proof (gridded_asked e g IH) as G; destruct (gridded e g) as [[[g' v]|] e'] end; exact G.
  Qed.
End Reach.
(** ** C53 and C107 *)
Lemma c107_grid : forall X M e, made X M e -> g_name (e_obj e) <> "norm"%string -> e_npdf e <> 1%nat \/ g_name (e_obj e) <> "mixmod"%string -> undisturbed (e_npdf e) (ens_ppf e).
Proof.
  intros X M e He Hn Hm. destruct (made_asked X M e He) as [_ [H|(method & Hp & Hs)]]; [contradiction|]. unfold ens_ppf. rewrite Hp. apply undisturbed_rv. destruct Hm as [Hm|Hm]; [left; exact Hm|]. destruct Hs as [Hs|Hs]; [contradiction|]. exact (steady_single _ _ Hs).
Qed.
Lemma c53_outside : forall X M e ps, made X M e -> g_name (e_obj e) <> "norm"%string -> (forall p, In p ps -> p < 0 \/ 1 < p) ->
  ens_ppf e (PGrid ps) = table (e_npdf e) (fun _ _ => NaN) ps.
Proof.
  intros X M e ps He Hn H. destruct (made_asked X M e He) as [_ [Hx|(method & Hp & _)]]; [contradiction|]. unfold ens_ppf. rewrite Hp. rewrite rv_ppf_edges by (intros p Hin; specialize (H p Hin); unfold inner; lra). unfold table. f_equal. apply map_ext. intros _. apply map_ext_in. intros p Hin. apply out_nan. auto.
Qed.
Lemma c107_ends : forall X M e ps, made X M e -> g_name (e_obj e) <> "norm"%string -> (forall p, In p ps -> ~ inner p) ->
  ens_ppf e (PGrid ps) = table (e_npdf e) (fun _ => edge) ps.
Proof.
  intros X M e ps He Hn H. destruct (made_asked X M e He) as [_ [Hx|(method & Hp & _)]]; [contradiction|]. unfold ens_ppf. rewrite Hp. apply rv_ppf_edges. exact H.
Qed.
Lemma c53_ends_refuted : exists X M e xs, fill_outside X /\ made X M e /\ g_name (e_obj e) = "interp"%string /\ vget (metadata e) "xvals" = Some (VArr (mknd [1; length xs]%nat xs)) /\ length xs = 3%nat /\
  ens_ppf e (PScalar 0) = Ok [[NInf]; [NInf]] /\ ens_ppf e (PScalar 1) = Ok [[PInf]; [PInf]].
Proof.
  destruct c35_interp_example as (X & M & e & xs & HX & He & Hn & Hx & H2 & Hl). exists X, M, e, xs. repeat (split; [assumption|]).
  pose proof (infinite_ends X M e HX He) as H. rewrite H2 in H. apply H; rewrite Hn; discriminate.
Qed.
(** a mixture of one PDF cannot be asked about 0 and about 1/2 in one call *)
Lemma single_mixture : forall Phi (m : mixmod R) ps p q, m_npdf m = 1%nat -> In p ps -> inner p -> In q ps -> ~ inner q -> mixmod_ens_ppf Phi m (PGrid ps) = Err ValueError.
Proof.
  intros Phi m ps p q Hm Hp Ip Hq Iq. unfold mixmod_ens_ppf. rewrite Hm. change (rv_ppf 1 (mixmod_ppf Phi m)) with (rv_eval 1 icond iother (mixmod_ppf Phi m)). unfold rv_eval. cbn [broadcast_points bind repeat concat]. cbv zeta. rewrite app_nil_r.
  assert (E1 : forallb icond ps = false) by (apply not_true_iff_false; intros E; rewrite forallb_forall in E; specialize (E q Hq); apply icond_inner in E; contradiction).
  assert (E2 : existsb icond ps = true) by (apply existsb_exists; exists p; split; [exact Hp|apply icond_inner; exact Ip]).
  rewrite E1, E2. cbn [Nat.eqb]. unfold mixmod_ppf. change [1; 1]%nat with ([1] ++ [1])%nat. rewrite (case_single (filter icond ps) [1%nat]) by discriminate. reflexivity.
Qed.
Lemma c107_example : exists X M e, made X M e /\ g_name (e_obj e) = "interp"%string /\ e_npdf e = 2%nat /\ inner_of [2; 1 / 2; 0] = [1 / 2] /\ merged [2; 1 / 2; 0] [Fin 7] [NaN; Fin 7; NInf].
Proof.
  destruct c35_interp_example as (X & M & e & xs & HX & He & Hn & Hx & H2 & Hl). exists X, M, e. split; [exact He|]. split; [exact Hn|]. split; [exact H2|]. split.
  - unfold inner_of. cbn [filter]. destruct (Rlt_dec 0 2), (Rlt_dec 2 1), (Rlt_dec 0 (1/2)), (Rlt_dec (1/2) 1), (Rlt_dec 0 0); try lra; reflexivity.
  - assert (E2 : edge 2 = NaN) by (apply out_nan; lra). assert (E0 : edge 0 = NInf) by (unfold edge; destruct (Req_EM_T 0 0); [reflexivity|congruence]).
    rewrite <- E2 at 1. apply merged_out; [unfold inner; lra|]. apply merged_in; [unfold inner; lra|]. rewrite <- E0. apply merged_out; [unfold inner; lra|]. constructor.
Qed.
