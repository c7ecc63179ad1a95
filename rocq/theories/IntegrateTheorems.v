(** Every reachable ensemble is made of proper distributions; integrate and histogramize. *)
From Coq Require Import String List Arith ZArith Bool Lia Reals Lra.
From Verif Require Import Num NumProofs Py NdArray NumpyLib Utils ScipyWrap Spec Values Ensemble Classes
  SortProofs InterpProofs MixmodTheorems Kinds KindProofs EnsembleProofs KindInputs ReachProofs AppendProofs EnsembleTheorems RowProofs.
Import ListNotations.
Local Open Scope string_scope.
Local Open Scope list_scope.
Local Open Scope R_scope.

(** The public method computes [F r x] for PDF [r], at single points and on increasing grids. *)
Definition computes (ens_f : points R -> res (list (list (xnum R)))) (n : nat) (F : nat -> R -> R) : Prop :=
  evaluates ens_f n F /\ forall l, increasing l -> ens_f (PGrid l) = table n (fin F) l.
(** A density and its distribution function *)
Definition distribution (f F : R -> R) : Prop :=
  (forall x, 0 <= f x) /\ (forall x y, x <= y -> F x <= F y) /\ (forall x, 0 <= F x <= 1).

(** Quantile tables (whose densities come from one of four constructors) and splines (whose density is extrapolated) are not proper in general. *)
Definition proper_class (e : ens R) : Prop := g_name (e_obj e) <> "quant" /\ g_name (e_obj e) <> "spline".
Definition cdf_of (X : scipy) (k : kind) (d : row) (x : R) : R :=
  match val (s_phi X) (s_Phi X) (s_quad X) (s_Phinv X) k MCdf d x with Fin y => y | _ => 0 end.
Definition pdf_of (X : scipy) (k : kind) (d : row) (x : R) : R :=
  match val (s_phi X) (s_Phi X) (s_quad X) (s_Phinv X) k MPdf d x with Fin y => y | _ => 0 end.
Lemma cdf_in k : In MCdf (methods k).
Proof. destruct k; cbn; auto. destruct (String.eqb _ _ || String.eqb _ _); cbn; auto. Qed.
Lemma pdf_in k : (forall q nm, k <> KQuant q nm) -> In MPdf (methods k).
Proof. destruct k; cbn; auto. intros H. exfalso. eapply H. reflexivity. Qed.
Lemma cdf_fin X k d x : val (s_phi X) (s_Phi X) (s_quad X) (s_Phinv X) k MCdf d x = Fin (cdf_of X k d x).
Proof. unfold cdf_of. destruct k; reflexivity. Qed.
Lemma pdf_fin X k d x : val (s_phi X) (s_Phi X) (s_quad X) (s_Phinv X) k MPdf d x = Fin (pdf_of X k d x).
Proof. unfold pdf_of. destruct k; try reflexivity. simpl. destruct (String.eqb _ _); reflexivity. Qed.
Lemma map_rows {B} (f : row -> B) D : map f D = map (fun r => f (nth r D [])) (seq 0 (length D)).
Proof.
  induction D as [|d D IH]; [reflexivity|]. cbn [map length seq nth]. f_equal. rewrite IH, <- seq_shift, map_map. reflexivity.
Qed.
Lemma rep_computes X k D e m (F : row -> R -> R) : represents_in X k D e -> In m (methods k) ->
  (forall d x, val (s_phi X) (s_Phi X) (s_quad X) (s_Phinv X) k m d x = Fin (F d x)) ->
  computes (evaluate m e) (e_npdf e) (fun r => F (nth r D [])).
Proof.
  intros HD Hm HF. rewrite (rep_npdf' X k D e HD). split.
  - intros x. rewrite (rep_answers X k D e m (PScalar x) HD Hm I). f_equal. rewrite map_rows. apply map_ext. intros r. unfold row_answer. rewrite HF. reflexivity.
  - intros l Hl. rewrite (rep_answers X k D e m (PGrid l) HD Hm Hl). unfold table. f_equal. rewrite map_rows. apply map_ext. intros r.
    unfold row_answer. apply map_ext. intros x. apply HF.
Qed.

(** C81 *)
Lemma c81_proper : forall X M e, fill_outside X -> normal_laws (s_phi X) (s_Phi X) -> made X M e -> proper_class e ->
  exists f F, computes (ens_pdf e) (e_npdf e) f /\ computes (ens_cdf e) (e_npdf e) F /\
    forall r, (r < e_npdf e)%nat -> distribution (f r) (F r).
Proof.
  intros X M e HX HN He Hq. destruct (made_rows X HX (proper X) (inputs_proper X HX HN) M e He) as (k & D & HD & Hp).
  assert (Hk : forall q nm, k <> KQuant q nm).
  { intros q nm ->. apply (proj1 Hq). destruct (rep_meta _ _ _ _ HD) as (_ & _ & ->). reflexivity. }
  assert (Hk2 : forall n, k <> KSpline n).
  { intros n ->. apply (proj2 Hq). destruct (rep_meta _ _ _ _ HD) as (_ & _ & ->). reflexivity. }
  exists (fun r => pdf_of X k (nth r D [])), (fun r => cdf_of X k (nth r D [])).
  split; [apply (rep_computes X k D e MPdf (pdf_of X k) HD); [apply pdf_in; auto|apply pdf_fin]|].
  split; [apply (rep_computes X k D e MCdf (cdf_of X k) HD); [apply cdf_in|apply cdf_fin]|].
  rewrite (rep_npdf' X k D e HD). intros r Hr. rewrite Forall_forall in Hp. specialize (Hp _ (nth_In D [] Hr)).
  assert (G : exists f F, (forall x, val (s_phi X) (s_Phi X) (s_quad X) (s_Phinv X) k MPdf (nth r D []) x = Fin (f x)) /\
                     (forall x, val (s_phi X) (s_Phi X) (s_quad X) (s_Phinv X) k MCdf (nth r D []) x = Fin (F x)) /\ proper_dist f F).
  { destruct k; auto; exfalso; [eapply Hk|eapply Hk2]; reflexivity. }
  destruct G as (f & F & Ef & EF & (H1 & H2 & H3)).
  assert (Af : forall x, pdf_of X k (nth r D []) x = f x) by (intros x; unfold pdf_of; rewrite Ef; reflexivity).
  assert (AF : forall x, cdf_of X k (nth r D []) x = F x) by (intros x; unfold cdf_of; rewrite EF; reflexivity).
  split; [intros x; rewrite Af; auto|]. split; [intros x y H; rewrite !AF; auto|intros x; rewrite AF; auto].
Qed.

(** C36 *)
Lemma map2_map {A B C D} (f : A -> B -> C) (g : D -> A) (h : D -> B) l : map2 f (map g l) (map h l) = map (fun x => f (g x) (h x)) l.
Proof. induction l; simpl; congruence. Qed.
Lemma steps_line (F : R -> R) (bins : list R) : bins <> [] ->
  map2 xsub (tl (map (fun x => Fin (F x)) bins)) (removelast (map (fun x => Fin (F x)) bins)) =
  map (fun i => Fin (F (nth0 (S i) bins) - F (nth0 i bins))) (seq 0 (pred (length bins))).
Proof.
  induction bins as [|a [|b bins] IH]; [congruence|reflexivity|]. intros _.
  change (map2 xsub (tl (map (fun x => Fin (F x)) (a :: b :: bins))) (removelast (map (fun x => Fin (F x)) (a :: b :: bins))))
    with (xsub (Fin (F b)) (Fin (F a)) :: map2 xsub (tl (map (fun x => Fin (F x)) (b :: bins))) (removelast (map (fun x => Fin (F x)) (b :: bins)))).
  rewrite IH by discriminate. change (pred (length (a :: b :: bins))) with (S (pred (length (b :: bins)))). cbn [seq map].
  f_equal. rewrite <- seq_shift, map_map. apply map_ext. intros i. rewrite !nth0_cons_S. reflexivity.
Qed.
Lemma telescope (G : nat -> R) n : rsum n (fun i => G (S i) - G i) = G n - G O.
Proof. induction n; simpl; [lra|]. rewrite IHn. lra. Qed.
Lemma nlast_nth0 (l : list R) : nlast l = nth0 (pred (length l)) l.
Proof. unfold nlast, nth0. induction l as [|a [|b l] IH]; [reflexivity|reflexivity|]. exact IH. Qed.
Lemma c36_any : forall (e : ens R) n F, computes (ens_cdf e) n F ->
  exists I, (forall r a b, I r a b = F r b - F r a) /\
    (forall a b, integrate e (PScalar a) (PScalar b) = Ok (map (fun r => [Fin (I r a b)]) (seq 0 n))) /\
    (forall r a b c, I r a b + I r b c = I r a c) /\
    (forall bins, increasing bins -> bins <> [] ->
       histogramize e bins = Ok (map (fun r => map (fun i => Fin (I r (nth0 i bins) (nth0 (S i) bins))) (seq 0 (pred (length bins)))) (seq 0 n)) /\
       forall r, rsum (pred (length bins)) (fun i => I r (nth0 i bins) (nth0 (S i) bins)) = I r (nth0 0 bins) (nlast bins)) /\
    forall r, (forall x y, x <= y -> F r x <= F r y) -> (forall x, 0 <= F r x <= 1) -> forall a b, a <= b -> 0 <= I r a b <= 1.
Proof.
  intros e n F HF. exists (fun r a b => F r b - F r a). split; [reflexivity|]. split.
  { intros a b. unfold integrate. destruct HF as [HF _]. rewrite !HF. cbn [bind]. rewrite map2_map. reflexivity. }
  split; [intros; lra|]. split.
  { intros bins Hb Hne. split.
    - unfold histogramize. destruct HF as [_ HF]. rewrite HF by auto. unfold table. cbn [bind]. rewrite map_map. f_equal. apply map_ext. intros r. apply (steps_line (F r)); auto.
    - intros r. rewrite (telescope (fun i => F r (nth0 i bins))), nlast_nth0. reflexivity. }
  intros r H2 H3 a b Hab. pose proof (H2 a b Hab). pose proof (H3 a). pose proof (H3 b). lra.
Qed.
Lemma c36_reachable : forall X M e, fill_outside X -> made X M e -> exists F, computes (ens_cdf e) (e_npdf e) F.
Proof.
  intros X M e HX He. destruct (made_rep X M e HX He) as (k & D & HD & HM). eexists.
  exact (rep_computes X k D e MCdf (cdf_of X k) HD (cdf_in k) (cdf_fin X k)).
Qed.
(** three histograms; the normal law replaced by the logistic one *)
Definition scipy1 : scipy := mkscipy (fun z => exp (- z) / (1 + exp (- z)) ^ 2) (fun z => / (1 + exp (- z))) (fun p => Fin p) interp1d (fun _ _ x => x) (fun _ _ x => x).
Lemma scipy1_fill : fill_outside scipy1.
Proof. intros xs ys lo hi lo' hi' x [H1 H2]. apply interp1d_inside; [destruct xs; exact H1|exact H2]. Qed.
Lemma c36_example : exists X M e, fill_outside X /\ normal_laws (s_phi X) (s_Phi X) /\ made X M e /\ proper_class e /\ e_npdf e = 3%nat.
Proof.
  destruct (made_new scipy1 hist0 table0 scipy1_fill hist0_ok (proj1 table0_ok)) as (e & _ & _ & Hm & Hn & Hs & Hg).
  exists scipy1, (input_methods hist0), e. split; [apply scipy1_fill|]. split; [apply logistic_laws|]. split; [exact Hm|]. split; [unfold proper_class; rewrite Hg; split; discriminate|exact Hn].
Qed.
