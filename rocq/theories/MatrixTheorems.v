(** Evaluation of reachable ensembles on every documented form of points: what a number answers is what every entry of
    a grid or of a matrix answers (C98). *)
From Coq Require Import String Reals Lra Lia List Arith ZArith Bool.
From Verif Require Import Num NumProofs Py NdArray NumpyLib ScipyWrap Spec EvalTheorems Values Ensemble Classes Kinds KindProofs
  InterpProofs EnsembleTheorems RowProofs IntegrateTheorems.
Import ListNotations.
Local Open Scope R_scope.

(** [v r t] is what PDF [r] answers at the single point [t]. *)
Definition at_numbers (e : ens R) (m : method) (v : nat -> R -> xnum R) : Prop :=
  forall t, evaluate m e (PScalar t) = Ok (map (fun r => [v r t]) (seq 0 (e_npdf e))).
(** The points at which the answer is claimed: all for pdf and cdf, the open interval (0,1) for ppf *)
Definition allowed (m : method) (l : list R) : Prop := m = MPpf -> forall p, In p l -> 0 < p < 1.
(** A matrix with [w] columns *)
Definition matrix_of (Y : list (list R)) (w : nat) : Prop := (0 < w)%nat /\ Y <> [] /\ forall l, In l Y -> length l = w.

Lemma allowed_dom m l : allowed m l -> forall x, In x l -> dom m x.
Proof. intros H x Hx. destruct m; cbn; auto. Qed.
Lemma map_rows_seq {B} (D : list row) (g : row -> B) (h : nat -> B) : (forall r, (r < length D)%nat -> g (nth r D []) = h r) ->
  map g D = map h (seq 0 (length D)).
Proof.
  revert h. induction D as [|d D IH]; intros h H; [reflexivity|]. cbn [map length seq].
  f_equal; [apply (H 0%nat); cbn; lia|]. rewrite <- seq_shift, map_map. apply IH. intros r Hr. apply (H (S r)). cbn. lia.
Qed.

Lemma matrix_facts X M e m v : fill_outside X -> made X M e -> In m M -> at_numbers e m v ->
  exists k (D : list row), length D = e_npdf e /\ (forall r t, (r < length D)%nat -> val (s_phi X) (s_Phi X) (s_quad X) (s_Phinv X) k m (nth r D []) t = v r t) /\
    (forall l, increasing l -> evaluate m e (PGrid l) = Ok (map (fun d => map (val (s_phi X) (s_Phi X) (s_quad X) (s_Phinv X) k m d) l) D)) /\
    answers_mats (dom m) (evaluate m e) D (val (s_phi X) (s_Phi X) (s_quad X) (s_Phinv X) k m).
Proof.
  intros HX Hm Hin Hv. destruct (made_rep X M e HX Hm) as (k & D & Hr & <- & _). exists k, D.
  pose proof (rep_npdf' X k D e Hr) as Hn. split; [auto|]. split; [|split].
  - intros r t Hrl. pose proof (rep_answers X k D e m (PScalar t) Hr Hin I) as E. rewrite Hv in E. symmetry in E.
    destruct (read_rows D (fun d => val (s_phi X) (s_Phi X) (s_quad X) (s_Phinv X) k m d t) (fun r => v r t) _ E) as [_ R]. apply R. rewrite Hn. exact Hrl.
  - intros l Hl. rewrite (rep_answers X k D e m (PGrid l) Hr Hin Hl). reflexivity.
  - apply rep_matrix; auto.
Qed.
Lemma npdf_pos X M e : fill_outside X -> made X M e -> (0 < e_npdf e)%nat.
Proof.
  intros HX Hm. destruct (made_rep X M e HX Hm) as (k & D & Hr & _ & _). pose proof Hr as (_ & Hne & _).
  rewrite (rep_npdf' X k D e Hr). destruct D; [congruence|cbn; lia].
Qed.

Lemma c98_numbers : forall X M e m, fill_outside X -> made X M e -> In m M -> exists v, at_numbers e m v.
Proof.
  intros X M e m HX Hm Hin. destruct (made_rep X M e HX Hm) as (k & D & Hr & <- & _).
  exists (fun r => val (s_phi X) (s_Phi X) (s_quad X) (s_Phinv X) k m (nth r D [])). intros t.
  rewrite (rep_answers X k D e m (PScalar t) Hr Hin I), (rep_npdf' X k D e Hr). f_equal.
  apply (map_rows_seq D (row_answer X k m (PScalar t))). reflexivity.
Qed.
Lemma c98_grid : forall X M e m v l, fill_outside X -> made X M e -> In m M -> at_numbers e m v -> allowed m l ->
  increasing l \/ e_npdf e = 1%nat \/ ~ NoDup l ->
  evaluate m e (PGrid l) = table (e_npdf e) v l.
Proof.
  intros X M e m v l HX Hm Hin Hv Hd Hc. destruct (matrix_facts X M e m v HX Hm Hin Hv) as (k & D & Hn & Hval & Hi & _ & _ & Hg & _).
  unfold table. rewrite <- Hn. destruct Hc as [Hc|Hc].
  - rewrite (Hi l Hc). f_equal. apply map_rows_seq. intros r Hr. apply map_ext. intros x. apply Hval; auto.
  - rewrite Hg; [|rewrite Hn; exact Hc|apply allowed_dom; auto]. f_equal. apply map_rows_seq. intros r Hr. apply map_ext. intros x. apply Hval; auto.
Qed.
Lemma c98_per_pdf : forall X M e m v Y w, fill_outside X -> made X M e -> In m M -> at_numbers e m v -> allowed m (concat Y) ->
  matrix_of Y w -> length Y = e_npdf e -> e_npdf e = 1%nat \/ w = 1%nat \/ distinct (concat Y) <> w ->
  evaluate m e (PMat Y) = Ok (map (fun r => map (v r) (nth r Y [])) (seq 0 (e_npdf e))).
Proof.
  intros X M e m v Y w HX Hm Hin Hv Hd HY HL Hc. destruct (matrix_facts X M e m v HX Hm Hin Hv) as (k & D & Hn & Hval & _ & Hp & _).
  rewrite (Hp Y w HY); [|lia|rewrite Hn; exact Hc|apply allowed_dom; auto]. f_equal. rewrite <- Hn.
  rewrite <- (map2_seq_rows (fun d l => map (val (s_phi X) (s_Phi X) (s_quad X) (s_Phinv X) k m d) l)) by lia.
  apply map_ext_in. intros r Hr. apply in_seq in Hr. apply map_ext. intros x. apply Hval. lia.
Qed.
Lemma c98_single : forall X M e m v Y w, fill_outside X -> made X M e -> In m M -> at_numbers e m v -> allowed m (concat Y) ->
  matrix_of Y w -> e_npdf e = 1%nat -> evaluate m e (PMat Y) = Ok (map (map (v 0%nat)) Y).
Proof.
  intros X M e m v Y w HX Hm Hin Hv Hd HY HL. destruct (matrix_facts X M e m v HX Hm Hin Hv) as (k & D & Hn & Hval & _ & _ & Hp & _).
  destruct D as [|d [|]]; cbn in Hn; try lia. rewrite (Hp Y w d HY eq_refl); [|apply allowed_dom; auto]. f_equal.
  apply map_ext. intros l. apply map_ext. intros x. apply (Hval 0%nat). cbn. lia.
Qed.
Lemma c98_repeated : forall X M e m v l, fill_outside X -> made X M e -> In m M -> at_numbers e m v -> allowed m l -> increasing l ->
  evaluate m e (PMat (repeat l (e_npdf e))) = table (e_npdf e) v l.
Proof.
  intros X M e m v l HX Hm Hin Hv Hd Hl. destruct (matrix_facts X M e m v HX Hm Hin Hv) as (k & D & Hn & Hval & _ & _ & _ & _ & Hp).
  rewrite <- Hn, (Hp l Hl) by (apply allowed_dom; auto). unfold table. f_equal. apply map_rows_seq. intros r Hr. apply map_ext. intros x. apply Hval. exact Hr.
Qed.
