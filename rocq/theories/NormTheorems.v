(** Normal ensembles for every choice of keywords and every scale (C149). *)
From Coq Require Import String List Arith ZArith Bool Lia Reals Lra.
From Verif Require Import Num NumProofs Py NdArray NumpyLib Utils ScipyWrap Spec Values Ensemble Classes
  EvalProofs EvalTheorems NdProofs InterpProofs Kinds KindProofs KindInputs EnsembleTheorems MetricsExamples.
Import ListNotations.
Local Open Scope string_scope.
Local Open Scope list_scope.
Local Open Scope R_scope.

(** A column of parameters, one per PDF *)
Definition column (l : list R) : nd R := nd2 1 (map (fun x => [x]) l).

(** What scipy's normal distribution answers: NaN unless the scale is positive *)
Definition normal (X : scipy) (m : method) (loc scale x : R) : xnum R :=
  if Rlt_dec 0 scale then
    match m with
    | MPdf => Fin (s_phi X ((x - loc) / scale) / scale)
    | MCdf => Fin (s_Phi X ((x - loc) / scale))
    | MPpf => match s_Phinv X x with Fin z => Fin (loc + scale * z) | other => other end
    end
  else NaN.
(** qp.Ensemble(qp.stats.norm, data) *)
Definition new_normal (X : scipy) (data : vdict R) : res (ens R) := ens_new (create_of (qp X) "norm") data None.
(** The ensemble has one PDF for each of the [n] pairs of location and scale. *)
Definition normals (X : scipy) (e : ens R) (n : nat) (loc scale : nat -> R) : Prop :=
  e_npdf e = n /\ forall m l, evaluate m e (PGrid l) = table n (fun r => normal X m (loc r) (scale r)) l.

Lemma new_normal_eq X d : new_normal X d = ens_new (wrap_create "norm" [] (norm_pdf (s_phi X)) (norm_cdf (s_Phi X)) (norm_ppf (s_Phinv X))) d None.
Proof. reflexivity. Qed.
Lemma wrapped_rows X d n loc scale : known ["loc"; "scale"] d = true -> wrap_shape d = Ok [n] ->
  (forall r, (r < n)%nat -> param d r "loc" = loc r /\ param d r "scale" = scale r) ->
  exists e, new_normal X d = Ok e /\ normals X e n loc scale.
Proof.
  intros Hk Hs Hp. rewrite new_normal_eq. unfold ens_new, wrap_create. rewrite Hk. cbn [negb]. rewrite Hs. cbn [bind check_array_shapes].
  eexists. split; [reflexivity|]. assert (P : prod [n] = n) by (unfold prod; simpl; lia). split; [exact P|].
  assert (V : forall m r x, (r < n)%nat -> (match m with MPdf => norm_pdf (s_phi X) | MCdf => norm_cdf (s_Phi X) | MPpf => norm_ppf (s_Phinv X) end) (param d r) x = normal X m (loc r) (scale r) x).
  { intros m r x Hr. destruct (Hp r Hr) as [E1 E2]. unfold normal. destruct m; unfold norm_pdf, norm_cdf, norm_ppf; rewrite E1, E2;
      (destruct (nltb_reflect n0 (scale r)) as [L|L]; destruct (Rlt_dec 0 (scale r)) as [L'|L']; [reflexivity|exfalso; apply L'; exact L|exfalso; apply L; exact L'|reflexivity]). }
  assert (G : forall f m l, (forall r x, (r < n)%nat -> f (param d r) x = normal X m (loc r) (scale r) x) -> wrap_eval f d n (PGrid l) = table n (fun r => normal X m (loc r) (scale r)) l).
  { intros f m l Hf. unfold wrap_eval, table. cbn [broadcast_points bind]. f_equal.
    assert (K : forall k s, (s + k <= n)%nat -> map2 (fun l r => map (f (param d r)) l) (repeat l k) (seq s k) = map (fun r => map (normal X m (loc r) (scale r)) l) (seq s k)).
    { induction k as [|k IH]; intros s Hk'; [reflexivity|]. cbn [repeat seq map2 map]. f_equal; [|apply IH; lia]. apply map_ext. intros x. apply Hf. lia. }
    apply K. lia. }
  intros m l. destruct m; cbn [evaluate ens_pdf ens_cdf ens_ppf e_obj g_pdf g_cdf g_ppf]; rewrite P; apply G; intros r x Hr; [apply (V MPdf)|apply (V MCdf)|apply (V MPpf)]; exact Hr.
Qed.
Lemma pick_in (l : list R) r : (r < length l)%nat -> pick r l = nth r l 0.
Proof. destruct l as [|a [|b l]]; destruct r as [|r]; cbn; intros H; try reflexivity; lia. Qed.
Lemma column_data (l : list R) : concat (map (fun x => [x]) l) = l.
Proof. induction l as [|a l IH]; [reflexivity|]. cbn. rewrite IH. reflexivity. Qed.
Lemma column_dat l : dat (column l) = l.
Proof. unfold column. cbn. try apply column_data; reflexivity. Qed.
Lemma column_shp l : shp (column l) = [length l; 1%nat].
Proof. unfold column. cbn. rewrite ?map_length. reflexivity. Qed.
Lemma wrap_shape_one k v n : v_shape v = [n; 1%nat] -> wrap_shape (T := R) [(k, v)] = Ok [n].
Proof. intros E. unfold wrap_shape. cbn [forallb]. rewrite E. reflexivity. Qed.

(** both keywords as columns *)
Lemma c149_columns : forall X locs scales, length scales = length locs ->
  exists e, new_normal X [("loc", VArr (column locs)); ("scale", VArr (column scales))] = Ok e /\
    normals X e (length locs) (fun r => nth r locs 0) (fun r => nth r scales 0).
Proof.
  intros X locs scales HL. apply wrapped_rows; [reflexivity| |].
  - unfold wrap_shape. cbn [forallb snd v_shape]. rewrite !column_shp, HL. destruct (list_eq_dec _ _ _) as [_|C]; [reflexivity|congruence].
  - intros r Hr. unfold param. cbn [vget dget String.eqb Ascii.eqb Bool.eqb]. rewrite !column_dat. split; apply pick_in; lia.
Qed.
(** one of them missing *)
Lemma c149_loc : forall X locs, exists e, new_normal X [("loc", VArr (column locs))] = Ok e /\ normals X e (length locs) (fun r => nth r locs 0) (fun _ => 1).
Proof.
  intros X locs. apply wrapped_rows; [reflexivity|apply wrap_shape_one, column_shp|].
  intros r Hr. unfold param. cbn [vget dget String.eqb Ascii.eqb Bool.eqb]. rewrite !column_dat. split; [apply pick_in; lia|reflexivity].
Qed.
Lemma c149_scale : forall X scales, exists e, new_normal X [("scale", VArr (column scales))] = Ok e /\ normals X e (length scales) (fun _ => 0) (fun r => nth r scales 0).
Proof.
  intros X scales. apply wrapped_rows; [reflexivity|apply wrap_shape_one, column_shp|].
  intros r Hr. unfold param. cbn [vget dget String.eqb Ascii.eqb Bool.eqb]. rewrite !column_dat. split; [reflexivity|apply pick_in; lia].
Qed.
(** numbers *)
Lemma c149_numbers : forall X loc scale, exists e, new_normal X [("loc", VNum loc); ("scale", VNum scale)] = Ok e /\ normals X e 1 (fun _ => loc) (fun _ => scale).
Proof. intros X loc scale. apply wrapped_rows; [reflexivity|reflexivity|]. intros r Hr. split; reflexivity. Qed.
Lemma c149_none : forall X, exists e, new_normal X [] = Ok e /\ normals X e 1 (fun _ => 0) (fun _ => 1).
Proof. intros X. apply wrapped_rows; [reflexivity|reflexivity|]. intros r Hr. split; reflexivity. Qed.
(** a column with a number, or columns of different lengths *)
Lemma c149_mixed : forall X l s, new_normal X [("loc", VArr (column l)); ("scale", VNum s)] = Err ValueError /\
  new_normal X [("loc", VNum s); ("scale", VArr (column l))] = Err ValueError.
Proof.
  intros X l s. split; rewrite new_normal_eq; unfold ens_new, wrap_create; cbn [known forallb keys map fst existsb String.eqb Ascii.eqb Bool.eqb orb andb negb];
    unfold wrap_shape; cbn [forallb snd v_shape]; rewrite column_shp; destruct (list_eq_dec _ _ _) as [C|_]; try discriminate; reflexivity.
Qed.
Lemma c149_lengths : forall X locs scales, length scales <> length locs ->
  new_normal X [("loc", VArr (column locs)); ("scale", VArr (column scales))] = Err ValueError.
Proof.
  intros X locs scales H. rewrite new_normal_eq; unfold ens_new, wrap_create; cbn [known forallb keys map fst existsb String.eqb Ascii.eqb Bool.eqb orb andb negb];
    unfold wrap_shape; cbn [forallb snd v_shape]; rewrite !column_shp; destruct (list_eq_dec _ _ _) as [C|_]; [injection C as C; congruence|reflexivity].
Qed.
Lemma c149_unknown : forall X d k v, In (k, v) d -> k <> "loc" -> k <> "scale" -> new_normal X d = Err TypeError.
Proof.
  intros X d k v Hin H1 H2. rewrite new_normal_eq. unfold ens_new, wrap_create. assert (E : known ["loc"; "scale"] d = false).
  { unfold known. destruct (forallb _ (keys d)) eqn:E; [|reflexivity]. rewrite forallb_forall in E. specialize (E k). exfalso.
    assert (I : In k (keys d)) by (unfold keys; apply (in_map fst) in Hin; exact Hin). specialize (E I). cbn [existsb] in E.
    apply orb_prop in E. destruct E as [E|E]; [apply String.eqb_eq in E; congruence|]. apply orb_prop in E. destruct E as [E|E]; [apply String.eqb_eq in E; congruence|discriminate]. }
  rewrite E. reflexivity.
Qed.
(** Two locations with a positive and a negative scale *)
Lemma c149_example : exists X e, new_normal X [("loc", VArr (column [0; 1])); ("scale", VArr (column [2; -2]))] = Ok e /\ e_npdf e = 2%nat /\
  ens_cdf e (PGrid [0; 4]) = Ok [[Fin (s_Phi X 0); Fin (s_Phi X 2)]; [NaN; NaN]].
Proof.
  destruct (c149_columns scipy0 [0; 1] [2; -2] eq_refl) as (e & E & Hn & Hm). exists scipy0, e. split; [exact E|]. split; [exact Hn|].
  change (ens_cdf e (PGrid [0; 4])) with (evaluate MCdf e (PGrid [0; 4])). rewrite Hm. unfold table. cbn [length seq map nth]. unfold normal.
  destruct (Rlt_dec 0 2) as [_|C]; [|lra]. destruct (Rlt_dec 0 (-2)) as [C|_]; [lra|].
  replace ((0 - 0) / 2) with 0 by lra. replace ((4 - 0) / 2) with 2 by lra. reflexivity.
Qed.
