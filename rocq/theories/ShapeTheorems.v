(** Multi-dimensional ensembles (C51, C106). *)
From Coq Require Import List Arith ZArith Bool Sorted Lia Reals Lra.
From Verif Require Import FreezeProofs Num NumProofs Py NdArray NumpyLib Utils ScipyWrap Spec HistPdf InterpPdf QuantPdf MixmodPdf Shapes
  SortProofs EvalProofs NdProofs InterpProofs IntegralProofs BinProofs HistProofs HistTheorems.
Import ListNotations.
Local Open Scope list_scope.
Local Open Scope nat_scope.

(** ** Specification: arrays in row-major order *)
Fixpoint offset (s p : list nat) : nat := match s, p with _ :: s, i :: p => i * prod s + offset s p | _, _ => 0 end.
Definition index_of (s p : list nat) : Prop := Forall2 (fun n i => i < n) s p.
(** [a[p]] *)
Definition element {A} (a : nd A) (p : list nat) : option A := nth_error (dat a) (offset (shp a) p).

Lemma prod_nil : prod [] = 1.
Proof. reflexivity. Qed.
Lemma prod_cons n s : prod (n :: s) = n * prod s.
Proof. reflexivity. Qed.
Lemma prod_one m : prod [m] = m.
Proof. rewrite prod_cons, prod_nil. lia. Qed.
Lemma prod_app s t : prod (s ++ t) = prod s * prod t.
Proof. induction s as [|n s IH]; cbn [app]; [rewrite prod_nil; lia|]. rewrite !prod_cons, IH. lia. Qed.
Lemma prod_ones n : prod (repeat 1 n) = 1.
Proof. induction n as [|n IH]; [reflexivity|]. cbn [repeat]. rewrite prod_cons. lia. Qed.
Lemma offset_app s t p q : length p = length s -> offset (s ++ t) (p ++ q) = offset s p * prod t + offset t q.
Proof.
  revert p. induction s as [|n s IH]; intros [|i p] H; try discriminate; [reflexivity|]. injection H as H. cbn [app offset]. rewrite IH by exact H. rewrite prod_app. lia.
Qed.
Lemma offset_lt s p : index_of s p -> offset s p < prod s.
Proof.
  induction 1 as [|n i s p Hi H IH]; [cbn; lia|]. cbn [offset]. rewrite prod_cons. nia.
Qed.
Lemma offset_inj s p : index_of s p -> forall p', index_of s p' -> offset s p = offset s p' -> p = p'.
Proof.
  induction 1 as [|n i s p Hi H IH]; intros p' H'; inversion H' as [|n' i' s' q Hi' Hq]; subst; [reflexivity|]. cbn [offset]. intros E.
  pose proof (offset_lt _ _ H) as L1. pose proof (offset_lt _ _ Hq) as L2.
  assert (i = i') by (destruct (Nat.lt_trichotomy i i') as [G|[G|G]]; [nia|exact G|nia]). subst i'. f_equal. apply IH; [exact Hq|lia].
Qed.
Lemma offset_onto s : forall r, r < prod s -> exists p, index_of s p /\ offset s p = r.
Proof.
  induction s as [|n s IH]; intros r Hr; [exists []; split; [constructor|cbn in *; lia]|]. rewrite prod_cons in Hr.
  assert (Hp : prod s <> 0) by (intros E; rewrite E in Hr; lia). destruct (IH (r mod prod s)) as (p & Hp1 & Hp2); [apply Nat.mod_upper_bound; exact Hp|].
  exists (r / prod s :: p). split; [constructor; [apply Nat.div_lt_upper_bound; [exact Hp|lia]|exact Hp1]|]. cbn [offset]. rewrite Hp2. rewrite (Nat.div_mod r (prod s) Hp) at 3. lia.
Qed.
Lemma index_length s p : index_of s p -> length p = length s.
Proof. induction 1; cbn; lia. Qed.
(** ** C51: reshaping *)
(** the two ways to say that the first axes, of shape [s], number the PDFs *)
Definition splits_after (s t : list nat) (k : Z) : Prop := k = Z.of_nat (length s) \/ (t <> [] /\ k = (- Z.of_nat (length t))%Z).
Lemma cut_splits s t k : splits_after s t k -> py_cut (length (s ++ t)) k = length s.
Proof.
  intros [->|[Ht ->]]; unfold py_cut; rewrite app_length.
  - destruct (Z.ltb_spec (Z.of_nat (length s)) 0); lia.
  - assert (0 < length t) by (destruct t; [congruence|cbn; lia]). destruct (Z.ltb_spec (- Z.of_nat (length t)) 0); lia.
Qed.
Lemma reshape_at {A} (a : nd A) s t k : nd_wf a -> shp a = s ++ t -> splits_after s t k -> reshape_to_pdf_size_at a k = Ok (mknd (prod s :: t) (dat a)).
Proof.
  intros Hw Hs Hk. unfold reshape_to_pdf_size_at. cbv zeta. rewrite Hs, (cut_splits _ _ _ Hk), firstn_app, Nat.sub_diag, firstn_O, app_nil_r, firstn_all, skipn_app, skipn_all, Nat.sub_diag. cbn [app skipn].
  unfold np_reshape. unfold nd_wf in Hw. rewrite Hw, Hs, prod_app, prod_cons, Nat.eqb_refl. reflexivity.
Qed.
Lemma c51_roundtrip : forall A (a : nd A) s t k, nd_wf a -> shp a = s ++ t -> splits_after s t k ->
  exists b, reshape_to_pdf_size_at a k = Ok b /\ nd_wf b /\ shp b = prod s :: t /\ reshape_to_pdf_shape b s t = Ok a.
Proof.
  intros A a s t k Hw Hs Hk. exists (mknd (prod s :: t) (dat a)). split; [apply reshape_at; assumption|]. unfold nd_wf in *. cbn [shp dat]. split; [rewrite Hw, Hs, prod_app; reflexivity|]. split; [reflexivity|].
  unfold reshape_to_pdf_shape, np_reshape. cbn [dat]. rewrite <- Hs, Hw, Nat.eqb_refl. destruct a; reflexivity.
Qed.
Lemma c51_back : forall A (b : nd A) s t, nd_wf b -> shp b = prod s :: t ->
  exists a, reshape_to_pdf_shape b s t = Ok a /\ nd_wf a /\ shp a = s ++ t /\ reshape_to_pdf_size_at a (Z.of_nat (length s)) = Ok b.
Proof.
  intros A b s t Hw Hs. exists (mknd (s ++ t) (dat b)). unfold nd_wf in *. rewrite Hs in Hw. rewrite prod_cons in Hw.
  assert (Hp : length (dat b) = prod (s ++ t)) by (rewrite prod_app; exact Hw).
  split; [unfold reshape_to_pdf_shape, np_reshape; rewrite <- Hp, Nat.eqb_refl; reflexivity|]. cbn [shp dat]. split; [exact Hp|]. split; [reflexivity|].
  rewrite (reshape_at _ s t); [|exact Hp|reflexivity|left; reflexivity]. cbn [dat]. rewrite <- Hs. destruct b; reflexivity.
Qed.
Lemma c51_rows : forall A (a b : nd A) s t k p q, nd_wf a -> shp a = s ++ t -> splits_after s t k -> reshape_to_pdf_size_at a k = Ok b ->
  index_of s p -> index_of t q -> element b (offset s p :: q) = element a (p ++ q) /\ element a (p ++ q) <> None.
Proof.
  intros A a b s t k p q Hw Hs Hk E Hp Hq. rewrite (reshape_at a s t k Hw Hs Hk) in E. injection E as <-. unfold element. cbn [dat shp offset]. rewrite Hs, offset_app by (apply index_length; exact Hp). split; [reflexivity|].
  apply nth_error_Some. unfold nd_wf in Hw. rewrite Hw, Hs, prod_app. pose proof (offset_lt _ _ Hp). pose proof (offset_lt _ _ Hq). nia.
Qed.
(** the number of a PDF: one row per PDF *)
Lemma c51_numbering : forall s,
  (forall p, index_of s p -> offset s p < prod s) /\
  (forall p p', index_of s p -> index_of s p' -> offset s p = offset s p' -> p = p') /\
  (forall r, r < prod s -> exists p, index_of s p /\ offset s p = r).
Proof. intros s. split; [exact (offset_lt s)|]. split; [intros p p' H H'; apply offset_inj; assumption|exact (offset_onto s)]. Qed.
Lemma c51_frozen : forall s, nd_wf (frozen_rows s) /\ forall p, index_of s p -> element (frozen_rows s) (p ++ [0]) = Some (offset s p).
Proof.
  intros s. split; [unfold nd_wf, frozen_rows; cbn [shp dat]; rewrite prod_app, prod_one, seq_length; lia|]. intros p Hp. unfold element, frozen_rows. cbn [shp dat]. rewrite offset_app by (apply index_length; exact Hp). rewrite prod_one. cbn [offset]. rewrite prod_nil.
  replace (offset s p * 1 + (0 * 1 + 0)) with (offset s p) by lia. pose proof (offset_lt _ _ Hp). rewrite (nth_error_nth' _ 0) by (rewrite seq_length; assumption). rewrite seq_nth by assumption. reflexivity.
Qed.
(** ** Broadcasting *)
Lemma bc_same {A} u : forall l : list A, length l = prod u -> bc_data u u l = l.
Proof.
  induction u as [|n u IH]; intros l Hl; [reflexivity|]. cbn [bc_data]. rewrite Nat.eqb_refl. rewrite prod_cons in Hl.
  rewrite map_ext_in with (g := fun x => x); [rewrite map_id; apply concat_chunks; exact Hl|]. intros r Hr. apply IH. apply (chunks_rows _ _ _ _ Hl Hr).
Qed.
Lemma concat_repeat_mul {A} (l : list A) n m : concat (repeat (concat (repeat l m)) n) = concat (repeat l (n * m)).
Proof. induction n as [|n IH]; [reflexivity|]. cbn [repeat concat Nat.mul]. rewrite IH, repeat_app, concat_app. reflexivity. Qed.
Lemma bc_ones {A} s : forall u (l : list A), length l = prod u -> bc_data (repeat 1 (length s) ++ u) (s ++ u) l = concat (repeat l (prod s)).
Proof.
  induction s as [|n s IH]; intros u l Hl; [cbn [length repeat app]; rewrite prod_nil; cbn [repeat concat]; rewrite app_nil_r; apply bc_same; exact Hl|].
  cbn [length repeat app bc_data]. assert (Hp : prod (repeat 1 (length s) ++ u) = length l) by (rewrite prod_app, prod_ones; lia). rewrite Hp.
  rewrite prod_cons. destruct (Nat.eqb_spec 1 n) as [<-|Hn].
  - cbn [chunks map concat]. rewrite firstn_all, app_nil_r, IH by exact Hl. rewrite Nat.mul_1_l. reflexivity.
  - rewrite IH by exact Hl. apply concat_repeat_mul.
Qed.
Lemma bc_last {A} m s : forall l : list A, length l = prod s -> bc_data (s ++ [1]) (s ++ [m]) l = concat (map (fun r => repeat r m) l).
Proof.
  induction s as [|n s IH]; intros l Hl.
  - cbn in Hl. destruct l as [|r [|? ?]]; try discriminate. cbn [app bc_data map concat]. rewrite app_nil_r. destruct (Nat.eqb_spec 1 m) as [<-|Hm]; [reflexivity|]. clear. induction m as [|m IH]; [reflexivity|]. cbn [repeat concat app]. f_equal. exact IH.
  - cbn [app bc_data]. rewrite Nat.eqb_refl, prod_app. rewrite prod_one, prod_cons in *. rewrite !Nat.mul_1_r.
    rewrite map_ext_in with (g := fun c => concat (map (fun r => repeat r m) c)) by (intros c Hc; apply IH; apply (chunks_rows _ _ _ _ Hl Hc)).
    transitivity (concat (map (fun r => repeat r m) (concat (chunks n (prod s) l)))); [|rewrite concat_chunks by exact Hl; reflexivity].
    clear. induction (chunks n (prod s) l) as [|c C IH]; [reflexivity|]. cbn [map concat]. rewrite map_app, concat_app. f_equal. exact IH.
Qed.
Lemma bc_shape_grid m s : np_broadcast_shape [m] (s ++ [1]) = Ok (s ++ [m]).
Proof.
  unfold np_broadcast_shape. rewrite rev_app_distr. cbn [rev app bc_rev bind]. destruct (Nat.eqb_spec m 1) as [->|Hm]; cbn [bind rev]; [rewrite rev_involutive; reflexivity|]. cbn [Nat.eqb bind rev]. rewrite rev_involutive. reflexivity.
Qed.
Lemma bc_shape_scalar s : np_broadcast_shape [] (s ++ [1]) = Ok (s ++ [1]).
Proof. unfold np_broadcast_shape. cbn [rev bc_rev bind]. rewrite rev_involutive. reflexivity. Qed.
Lemma bc_rev_same s : bc_rev s s = Ok s.
Proof. induction s as [|n s IH]; [reflexivity|]. cbn [bc_rev]. rewrite IH. cbn [bind]. rewrite Nat.eqb_refl. reflexivity. Qed.
Lemma bc_shape_full m s : np_broadcast_shape (s ++ [m]) (s ++ [1]) = Ok (s ++ [m]).
Proof.
  unfold np_broadcast_shape. rewrite !rev_app_distr. cbn [rev app bc_rev]. rewrite bc_rev_same. cbn [bind]. destruct (Nat.eqb_spec m 1) as [->|Hm]; cbn [bind rev Nat.eqb]; rewrite rev_involutive; reflexivity.
Qed.
(** ** C106: evaluation *)
Section Evaluation.
  Context {T : Type} {N : Num T}.
  Variables (cond : T -> bool) (other : T -> xnum T) (method : nd T -> nd nat -> res (list T)).

  (** The method does not look at the shape of a single row number; only needed when some points are cut away and there is one PDF. *)
  Definition row_blind (s : list nat) : Prop :=
    (forall x, cond x = true) \/ prod s <> 1 \/ forall l, method (nd1 l) (mknd (s ++ [1]) [0]) = method (nd1 l) (mknd [1; 1] [0]).
  Lemma place_length (pts : list T) : forall vals, length (place cond other pts vals) = length pts.
  Proof. induction pts as [|p pts IH]; intros vals; [reflexivity|]. cbn [place]. destruct (cond p); [destruct vals|]; cbn [length]; rewrite IH; reflexivity. Qed.
  Lemma flat_rows_same (xs : list (list T)) m : forall rows, length xs = length rows -> (forall l, In l xs -> length l = m) -> flat_rows xs rows = concat (map (fun r => repeat r m) rows).
  Proof.
    induction xs as [|l xs IH]; intros [|r rows] H Hm; try discriminate; [reflexivity|]. injection H as H. unfold flat_rows in *. cbn [map2 map concat]. rewrite IH by (auto; intros; apply Hm; right; assumption). f_equal.
    rewrite <- (Hm l) by (left; reflexivity). clear. induction l as [|x l IH]; [reflexivity|]. cbn [map length repeat]. f_equal. exact IH.
  Qed.
  (** the common part: the points of every PDF are a matrix with [prod s] lines of [m] points *)
  Lemma eval_shaped_core s m (xs : list (list T)) (x : nd T) : length xs = prod s -> (forall l, In l xs -> length l = m) -> row_blind s ->
    np_broadcast_shape (shp x) (s ++ [1]) = Ok (s ++ [m]) -> np_broadcast_to (s ++ [m]) x = concat xs ->
    rv_eval_shaped s cond other method x = let* t := rv_eval (prod s) cond other method (PMat xs) in Ok (mknd (s ++ [m]) (concat t)).
  Proof using All.
    intros Hx Hm Hb Hs Hd. unfold rv_eval_shaped. cbv zeta. change (shp (frozen_rows s)) with (s ++ [1]). rewrite Hs. cbn [bind]. rewrite Hd.
    assert (Hr : np_broadcast_to (s ++ [m]) (frozen_rows s) = flat_rows xs (seq 0 (prod s))).
    { unfold np_broadcast_to, frozen_rows. cbn [shp dat]. rewrite !app_length, Nat.sub_diag. cbn [repeat app]. rewrite bc_last by apply seq_length. symmetry. apply flat_rows_same; [rewrite seq_length; exact Hx|exact Hm]. }
    rewrite Hr. unfold rv_eval. cbn [broadcast_points]. rewrite Hx, Nat.eqb_refl. cbn [bind]. cbv zeta.
    assert (He : (if forallb cond (concat xs) then (if Nat.eqb (length (concat xs)) 0 then Ok [] else method (nd1 (concat xs)) (nd1 (flat_rows xs (seq 0 (prod s)))))
      else if existsb cond (concat xs) then method (nd1 (filter cond (concat xs))) (if Nat.eqb (prod s) 1 then frozen_rows s else nd1 (map snd (filter (fun p => cond (fst p)) (combine (concat xs) (flat_rows xs (seq 0 (prod s))))))) else Ok [])
      = (if forallb cond (concat xs) then (if Nat.eqb (length (concat xs)) 0 then Ok [] else method (nd1 (concat xs)) (nd1 (flat_rows xs (seq 0 (prod s)))))
      else if existsb cond (concat xs) then method (nd1 (filter cond (concat xs))) (if Nat.eqb (prod s) 1 then mknd [1; 1] [0] else nd1 (map snd (filter (fun p => cond (fst p)) (combine (concat xs) (flat_rows xs (seq 0 (prod s))))))) else Ok [])).
    { destruct (forallb cond (concat xs)) eqn:Ef; [reflexivity|]. destruct (existsb cond (concat xs)); [|reflexivity]. destruct (Nat.eqb_spec (prod s) 1) as [E1|E1]; [|reflexivity]. destruct Hb as [Hb|[Hb|Hb]].
      - exfalso. rewrite <- not_true_iff_false in Ef. apply Ef. apply forallb_forall. intros y _. apply Hb.
      - contradiction.
      - unfold frozen_rows. rewrite E1. apply Hb. }
    rewrite He. match goal with |- context [bind ?a _] => destruct a as [vals|]; [|reflexivity] end. cbn [bind]. f_equal. f_equal. symmetry. try rewrite <- Hx.
    apply concat_chunks. rewrite place_length. clear - Hm. destruct xs as [|l xs]; [reflexivity|]. rewrite (Hm l) by (left; reflexivity).
    assert (G : forall L : list (list T), (forall l, In l L -> length l = m) -> length (concat L) = length L * m).
    { induction L as [|c L IH]; intros H; [reflexivity|]. cbn [concat length]. rewrite app_length, IH by (intros; apply H; right; assumption). rewrite (H c) by (left; reflexivity). lia. }
    apply G. exact Hm.
  Qed.
  Lemma pmat_grid s l : rv_eval (prod s) cond other method (PMat (repeat l (prod s))) = rv_eval (prod s) cond other method (PGrid l).
  Proof. unfold rv_eval. cbn [broadcast_points]. rewrite repeat_length, Nat.eqb_refl. reflexivity. Qed.
  Lemma c106_grid s l : row_blind s -> rv_eval_shaped s cond other method (nd1 l) = let* t := rv_eval (prod s) cond other method (PGrid l) in Ok (mknd (s ++ [length l]) (concat t)).
  Proof using All.
    intros Hb. rewrite <- pmat_grid. apply eval_shaped_core; [apply repeat_length|intros r Hr; apply repeat_spec in Hr; subst; reflexivity|exact Hb|apply bc_shape_grid|].
    unfold np_broadcast_to, nd1. cbn [shp dat]. rewrite app_length. cbn [length]. replace (length s + 1 - 1) with (length s) by lia. apply bc_ones. rewrite prod_one. reflexivity.
  Qed.
  Lemma c106_scalar s x : row_blind s -> rv_eval_shaped s cond other method (nd0 x) = let* t := rv_eval (prod s) cond other method (PScalar x) in Ok (mknd (s ++ [1]) (concat t)).
  Proof using All.
    intros Hb. change (rv_eval (prod s) cond other method (PScalar x)) with (rv_eval (prod s) cond other method (PGrid [x])). rewrite <- pmat_grid.
    apply eval_shaped_core; [apply repeat_length|intros r Hr; apply repeat_spec in Hr; subst; reflexivity|exact Hb|apply bc_shape_scalar|].
    unfold np_broadcast_to, nd0. cbn [shp dat]. rewrite app_length, app_nil_r, Nat.sub_0_r. cbn [length]. rewrite repeat_app. apply bc_ones. reflexivity.
  Qed.
  Lemma c106_matrix s m (x : nd T) : nd_wf x -> shp x = s ++ [m] -> row_blind s ->
    rv_eval_shaped s cond other method x = let* t := rv_eval (prod s) cond other method (PMat (chunks (prod s) m (dat x))) in Ok (mknd (s ++ [m]) (concat t)).
  Proof using All.
    intros Hw Hs Hb. assert (Hl : length (dat x) = prod s * m) by (unfold nd_wf in Hw; rewrite Hw, Hs, prod_app, prod_one; lia).
    apply eval_shaped_core; [apply chunks_length|intros r Hr; apply (chunks_rows _ _ _ _ Hl Hr)|exact Hb|rewrite Hs; apply bc_shape_full|].
    unfold np_broadcast_to. rewrite Hs, Nat.sub_diag. cbn [repeat app]. rewrite bc_same by (rewrite prod_app, prod_one; lia). symmetry. apply concat_chunks. exact Hl.
  Qed.
End Evaluation.
(** ** C106: every class *)
(** [shaped] gives for the PDF with index [p] the line [offset s p] of the table of [flat] *)
Definition same_lines {X} (s : list nat) (m : nat) (t : list (list X)) (a : nd X) : Prop :=
  shp a = s ++ [m] /\ nd_wf a /\ length t = prod s /\
  forall p j, index_of s p -> j < m -> element a (p ++ [j]) = nth_error (nth (offset s p) t []) j /\ element a (p ++ [j]) <> None.
Definition arranged {T} (s : list nat) (flat : points T -> res (list (list (xnum T)))) (shaped : nd T -> res (nd (xnum T))) : Prop :=
  (forall x t, flat (PScalar x) = Ok t -> exists a, shaped (nd0 x) = Ok a /\ same_lines s 1 t a) /\
  (forall l t, flat (PGrid l) = Ok t -> exists a, shaped (nd1 l) = Ok a /\ same_lines s (length l) t a) /\
  (forall x m t, nd_wf x -> shp x = s ++ [m] -> flat (PMat (chunks (prod s) m (dat x))) = Ok t -> exists a, shaped x = Ok a /\ same_lines s m t a).
Lemma nth_error_concat {X} m (t : list (list X)) : (forall r, In r t -> length r = m) -> forall i j, i < length t -> j < m -> nth_error (concat t) (i * m + j) = nth_error (nth i t []) j.
Proof.
  induction t as [|r t IH]; intros H i j Hi Hj; [cbn in Hi; lia|]. pose proof (H r ltac:(left; reflexivity)) as Hr. destruct i as [|i]; cbn [concat nth].
  - rewrite nth_error_app1 by (cbn; lia). reflexivity.
  - rewrite nth_error_app2 by nia. rewrite <- IH by (try (cbn in Hi; lia); try assumption; intros; apply H; right; assumption). f_equal. nia.
Qed.
Lemma same_lines_of {X} s m (t : list (list X)) : length t = prod s -> (forall r, In r t -> length r = m) -> same_lines s m t (mknd (s ++ [m]) (concat t)).
Proof.
  intros Hl Hm. split; [reflexivity|]. assert (Hw : nd_wf (mknd (s ++ [m]) (concat t))).
  { unfold nd_wf. cbn [shp dat]. rewrite prod_app, prod_one, <- Hl. clear - Hm. induction t as [|r t IH]; [reflexivity|]. cbn [concat length]. rewrite app_length, IH by (intros; apply Hm; right; assumption). rewrite (Hm r) by (left; reflexivity). lia. }
  split; [exact Hw|]. split; [exact Hl|]. intros p j Hp Hj. unfold element. cbn [shp dat]. pose proof (offset_lt _ _ Hp) as Ho. rewrite offset_app by (apply index_length; exact Hp). rewrite prod_one. cbn [offset]. rewrite prod_nil.
  replace (j * 1 + 0) with j by lia. rewrite nth_error_concat by (auto; lia). split; [reflexivity|]. apply nth_error_Some. rewrite (Hm (nth (offset s p) t [])); [exact Hj|]. apply nth_In. lia.
Qed.
Lemma rv_eval_lines {T} {N : Num T} n cond other (method : nd T -> nd nat -> res (list T)) (xs : list (list T)) t m : rv_eval n cond other method (PMat xs) = Ok t -> length xs = n -> (forall r, In r xs -> length r = m) -> length t = n /\ forall r, In r t -> length r = m.
Proof.
  intros E Hx Hm. unfold rv_eval in E. cbn [broadcast_points] in E. rewrite Hx, Nat.eqb_refl in E. cbn [bind] in E. cbv zeta in E.
  match type of E with bind ?a _ = _ => destruct a as [vals|]; [|discriminate] end. cbn [bind] in E. injection E as <-. split; [rewrite chunks_length; try exact Hx; reflexivity|]. intros r Hr.
  destruct xs as [|l xs]; [subst; destruct Hr|]. rewrite (Hm l) in Hr by (left; reflexivity). eapply chunks_rows; [|exact Hr]. rewrite place_length. rewrite ?Hx.
  assert (G : forall L : list (list T), (forall l, In l L -> length l = m) -> length (concat L) = length L * m).
  { induction L as [|c L IH]; intros H; [reflexivity|]. cbn [concat length]. rewrite app_length, IH by (intros; apply H; right; assumption). rewrite (H c) by (left; reflexivity). lia. }
  rewrite G by exact Hm. lia.
Qed.
Lemma arranged_of {T} {N : Num T} s cond other (method : nd T -> nd nat -> res (list T)) : row_blind cond method s ->
  arranged s (rv_eval (prod s) cond other method) (rv_eval_shaped s cond other method).
Proof.
  intros Hb. split; [|split].
  - intros x t E. rewrite c106_scalar by exact Hb. rewrite E. cbn [bind]. eexists. split; [reflexivity|]. change (rv_eval (prod s) cond other method (PScalar x)) with (rv_eval (prod s) cond other method (PGrid [x])) in E.
    rewrite <- pmat_grid in E. destruct (rv_eval_lines _ _ _ _ _ _ 1 E) as [L1 L2]; [apply repeat_length|intros r Hr; apply repeat_spec in Hr; subst; reflexivity|]. apply same_lines_of; assumption.
  - intros l t E. rewrite c106_grid by exact Hb. rewrite E. cbn [bind]. eexists. split; [reflexivity|].
    rewrite <- pmat_grid in E. destruct (rv_eval_lines _ _ _ _ _ _ (length l) E) as [L1 L2]; [apply repeat_length|intros r Hr; apply repeat_spec in Hr; subst; reflexivity|]. apply same_lines_of; assumption.
  - intros x m t Hw Hs E. rewrite (c106_matrix cond other method s m x Hw Hs Hb), E. cbn [bind]. eexists. split; [reflexivity|].
    assert (Hl : length (dat x) = prod s * m) by (unfold nd_wf in Hw; rewrite Hw, Hs, prod_app, prod_one; lia).
    destruct (rv_eval_lines _ _ _ _ _ _ m E) as [L1 L2]; [apply chunks_length|intros r Hr; apply (chunks_rows _ _ _ _ Hl Hr)|]. apply same_lines_of; assumption.
Qed.
(** the three public functions on PDFs arranged in shape [s] *)
Section Public.
  Context {T : Type} {N : Num T}.
  Definition shaped_pdf (s : list nat) (method : nd T -> nd nat -> res (list T)) := rv_eval_shaped s (fun _ => true) (fun _ => NaN) method.
  Definition shaped_ppf (s : list nat) (method : nd T -> nd nat -> res (list T)) :=
    rv_eval_shaped s (fun p => nltb n0 p && nltb p n1)%bool (fun p => if neqb p n0 then NInf else if neqb p n1 then PInf else NaN) method.
  Lemma arranged_pdf s method : arranged s (rv_pdf (prod s) method) (shaped_pdf s method).
  Proof. apply arranged_of. left. reflexivity. Qed.
  Lemma case_single (l : list T) s : s <> [] -> get_eval_case (nd1 l) (mknd (s ++ [1]) [0]) = Ok (CASE_PRODUCT, nd1 l, mknd (s ++ [1]) [0]).
  Proof.
    intros Hs. unfold get_eval_case. destruct s as [|n s]; [congruence|]. unfold np_ndim. cbn [shp nd1 length app Nat.leb andb]. rewrite app_length. cbn [length]. rewrite Nat.add_comm. reflexivity.
  Qed.
  Definition by_case (method : nd T -> nd nat -> res (list T)) : Prop :=
    exists f : res (eval_case * nd T * nd nat) -> list nat -> res (list T), forall x row, method x row = f (let* (c, xx, rr) := get_eval_case x row in Ok (c, xx, nd1 (dat rr))) (dat row).
  Lemma blind_case s method : s <> [] -> by_case method -> forall l, method (nd1 l) (mknd (s ++ [1]) [0]) = method (nd1 l) (mknd [1; 1] [0]).
  Proof. intros Hs (f & Hf) l. rewrite !Hf, case_single by exact Hs. change [1; 1] with ([1] ++ [1]). rewrite (case_single l [1]) by discriminate. reflexivity. Qed.
  Lemma arranged_ppf s method : (forall l, method (nd1 l) (mknd (s ++ [1]) [0]) = method (nd1 l) (mknd [1; 1] [0])) -> arranged s (rv_ppf (prod s) method) (shaped_ppf s method).
  Proof. intros H. apply arranged_of. right. right. exact H. Qed.
End Public.
Lemma dispatch_by_case {T} {N : Num T} flat product two_d : by_case (fun x row => @dispatch T N x row flat product two_d).
Proof.
  exists (fun g _ => let* (c, xx, rr) := g in match c with CASE_PRODUCT | CASE_FACTOR => Ok (product (dat xx) (dat rr)) | CASE_2D => Ok (two_d (rows_of xx) (dat rr)) | CASE_FLAT => Ok (flat (dat xx) (dat rr)) end).
  intros x row. unfold dispatch. destruct (get_eval_case x row) as [[[c xx] rr]|]; reflexivity.
Qed.
Lemma const_by_case {T} {N : Num T} (e : exn) : by_case (fun (x : nd T) (row : nd nat) => Err e).
Proof. exists (fun _ _ => Err e). reflexivity. Qed.
Lemma hist_ppf_case {T} {N : Num T} h : by_case (@hist_ppf T N h).
Proof. unfold hist_ppf, interpolate_multi_x_y. apply dispatch_by_case. Qed.
Lemma interp_ppf_case {T} {N : Num T} h : by_case (@interp_ppf T N h).
Proof. unfold interp_ppf, interpolate_multi_x_y. apply dispatch_by_case. Qed.
Lemma irr_ppf_case {T} {N : Num T} h : by_case (@irr_ppf T N h).
Proof. unfold irr_ppf, interpolate_multi_x_multi_y. apply dispatch_by_case. Qed.
Lemma quant_ppf_case {T} {N : Num T} quad q : by_case (@quant_ppf T N quad q).
Proof. unfold quant_ppf, interpolate_x_multi_y. destruct (length (q_quants q) <? 3); [apply const_by_case|apply dispatch_by_case]. Qed.
Lemma mixmod_blind {T} {N : Num T} Phi m s l : s <> [] -> @mixmod_ppf T N Phi m (nd1 l) (mknd (s ++ [1]) [0]) = mixmod_ppf Phi m (nd1 l) (mknd [1; 1] [0]).
Proof. intros Hs. unfold mixmod_ppf. rewrite case_single by exact Hs. change [1; 1] with ([1] ++ [1]). rewrite (case_single l [1]) by discriminate. reflexivity. Qed.
(** the ensemble of the sub-arrays: one PDF per row *)
Definition flat_rows_of {A} (s : list nat) (k : nat) (a : nd A) : nd A := nd2 k (chunks (prod s) k (dat a)).
Lemma flat_reshape {A} (a : nd A) s k : nd_wf a -> shp a = s ++ [k] -> reshape_to_pdf_size a = Ok (flat_rows_of s k a) /\ reshape_to_pdf_size (flat_rows_of s k a) = Ok (flat_rows_of s k a).
Proof.
  intros Hw Hs. assert (Hl : length (dat a) = prod s * k) by (unfold nd_wf in Hw; rewrite Hw, Hs, prod_app, prod_one; lia). split; [|apply reshape_nd2; intros r Hr; apply (chunks_rows _ _ _ _ Hl Hr)].
  unfold reshape_to_pdf_size. rewrite Hs, removelast_last. destruct (s ++ [k]) as [|z zs] eqn:E; [destruct s; discriminate|]. rewrite <- E, last_last. unfold np_reshape. rewrite Hl, prod_cons, prod_one, Nat.eqb_refl. unfold flat_rows_of, nd2. rewrite chunks_length, concat_chunks by exact Hl. reflexivity.
Qed.
Lemma flat_length {A} (a : nd A) s k : nd_wf a -> shp a = s ++ [k] -> length (rows_of (flat_rows_of s k a)) = prod s.
Proof. intros Hw Hs. unfold flat_rows_of, rows_of, nd2. cbn [shp]. rewrite !chunks_length. reflexivity. Qed.
Lemma flat_shape {A} (a : nd A) s k : shp (flat_rows_of s k a) = [prod s; k].
Proof. unfold flat_rows_of, nd2. cbn [shp]. rewrite chunks_length. reflexivity. Qed.
Lemma c106_rows : forall A (a : nd A) s k, nd_wf a -> shp a = s ++ [k] ->
  length (chunks (prod s) k (dat a)) = prod s /\
  forall p i, index_of s p -> i < k -> nth_error (nth (offset s p) (chunks (prod s) k (dat a)) []) i = element a (p ++ [i]) /\ element a (p ++ [i]) <> None.
Proof.
  intros A a s k Hw Hs. assert (Hl : length (dat a) = prod s * k) by (unfold nd_wf in Hw; rewrite Hw, Hs, prod_app, prod_one; lia). split; [apply chunks_length|].
  assert (G : same_lines s k (chunks (prod s) k (dat a)) a).
  { replace a with (mknd (s ++ [k]) (concat (chunks (prod s) k (dat a)))) at 2 by (rewrite concat_chunks by exact Hl; rewrite <- Hs; destruct a; reflexivity). apply same_lines_of; [apply chunks_length|intros r Hr; apply (chunks_rows _ _ _ _ Hl Hr)]. }
  intros p i Hp Hi. destruct G as (_ & _ & _ & G). destruct (G p i Hp Hi) as [G1 G2]. split; [symmetry; exact G1|exact G2].
Qed.
Section Classes.
  Context {T : Type} {N : Num T}.
  Lemma c106_hist : forall bins (a : nd T) s k check h, nd_wf a -> shp a = s ++ [k] -> s <> [] -> hist_ctor bins a check = Ok h ->
    h_shape h = s /\ exists h1, hist_ctor bins (flat_rows_of s k a) check = Ok h1 /\ h_npdf h1 = prod s /\ h_shape h1 = [prod s] /\
    arranged s (hist_ens_pdf h1) (shaped_pdf s (hist_pdf h)) /\ arranged s (hist_ens_cdf h1) (shaped_pdf s (hist_cdf h)) /\ arranged s (hist_ens_ppf h1) (shaped_ppf s (hist_ppf h)).
  Proof.
    intros bins a s k check h Hw Hs Hne E. destruct (flat_reshape a s k Hw Hs) as [F1 F2]. pose proof (flat_length a s k Hw Hs) as L. unfold hist_ctor, hist_init in *. rewrite F1 in E. rewrite F2, flat_shape. rewrite Hs, last_last, removelast_last in E. cbn [last removelast].
    destruct (negb (k =? pred (length bins))); [discriminate|]. cbn [bind] in *. set (P := if check then _ else _) in *.
    assert (Ln : length P = prod s) by (unfold P; destruct check; rewrite ?map_length; exact L).
    destruct (hist_frozen _ _ E) as (S1 & S2 & S3). cbn [h_bins h_pdfs h_shape] in *. specialize (S3 [prod s]). unfold h_npdf in S2. cbn [h_pdfs] in S2. rewrite Ln in S2. destruct h as [hb hp hs]. cbn [h_bins h_pdfs h_shape] in *. subst hs. split; [reflexivity|]. eexists. split; [exact S3|].
    unfold h_npdf. cbn [h_pdfs h_shape]. split; [exact S2|]. split; [reflexivity|]. unfold hist_ens_pdf, hist_ens_cdf, hist_ens_ppf, h_npdf. cbn [h_pdfs]. rewrite S2.
    split; [apply arranged_pdf|]. split; [apply arranged_pdf|]. apply arranged_ppf. intros l. apply blind_case; [exact Hne|apply hist_ppf_case].
  Qed.
  Lemma c106_interp : forall xs (a : nd T) s k check h, nd_wf a -> shp a = s ++ [k] -> s <> [] -> interp_ctor xs a check = Ok h ->
    i_shape h = s /\ exists h1, interp_ctor xs (flat_rows_of s k a) check = Ok h1 /\ i_npdf h1 = prod s /\ i_shape h1 = [prod s] /\
    arranged s (interp_ens_pdf h1) (shaped_pdf s (interp_pdf h)) /\ arranged s (interp_ens_cdf h1) (shaped_pdf s (interp_cdf h)) /\ arranged s (interp_ens_ppf h1) (shaped_ppf s (interp_ppf h)).
  Proof.
    intros xs a s k check h Hw Hs Hne E. destruct (flat_reshape a s k Hw Hs) as [F1 F2]. pose proof (flat_length a s k Hw Hs) as L. unfold interp_ctor, interp_init in *. rewrite F1 in E. rewrite F2, flat_shape. rewrite Hs, last_last, removelast_last in E. cbn [last removelast].
    destruct (negb (length xs =? k)); [discriminate|]. destruct (length xs =? 0); [discriminate|]. cbn [bind] in *.
    assert (G : forall P c, length P = prod s -> interp_freeze (mkinterp xs P c s) = Ok h -> i_shape h = s /\ exists h1, interp_freeze (mkinterp xs P c [prod s]) = Ok h1 /\ i_npdf h1 = prod s /\ i_shape h1 = [prod s] /\
      arranged s (interp_ens_pdf h1) (shaped_pdf s (interp_pdf h)) /\ arranged s (interp_ens_cdf h1) (shaped_pdf s (interp_cdf h)) /\ arranged s (interp_ens_ppf h1) (shaped_ppf s (interp_ppf h))).
    { intros P c Ln F. destruct (interp_frozen _ _ F) as (S1 & S2 & _ & S3). cbn [i_xvals i_yvals i_shape] in *. specialize (S3 [prod s] c). unfold i_npdf in S2. cbn [i_yvals] in S2. rewrite Ln in S2. destruct h as [hx hy hc hs]. cbn [i_xvals i_yvals i_cumul i_shape] in *. subst hs. split; [reflexivity|]. eexists. split; [exact S3|].
      unfold i_npdf. cbn [i_yvals i_shape]. split; [exact S2|]. split; [reflexivity|]. unfold interp_ens_pdf, interp_ens_cdf, interp_ens_ppf, i_npdf. cbn [i_yvals]. rewrite S2.
      split; [apply arranged_pdf|]. split; [apply arranged_pdf|]. apply arranged_ppf. intros l. apply blind_case; [exact Hne|apply interp_ppf_case]. }
    destruct check; [destruct (length xs =? 1); [discriminate|]|]; cbn [bind] in *; (apply G; [|exact E]); [rewrite map2_length, map_length, L, Nat.min_id; reflexivity|exact L].
  Qed.
  Lemma c106_irregular : forall (x a : nd T) s k check h, nd_wf x -> nd_wf a -> shp x = s ++ [k] -> shp a = s ++ [k] -> s <> [] -> irr_ctor x a check = Ok h ->
    r_shape h = s /\ exists h1, irr_ctor (flat_rows_of s k x) (flat_rows_of s k a) check = Ok h1 /\ r_npdf h1 = prod s /\ r_shape h1 = [prod s] /\
    arranged s (irr_ens_pdf h1) (shaped_pdf s (irr_pdf h)) /\ arranged s (irr_ens_cdf h1) (shaped_pdf s (irr_cdf h)) /\ arranged s (irr_ens_ppf h1) (shaped_ppf s (irr_ppf h)).
  Proof.
    intros x a s k check h Hwx Hw Hsx Hs Hne E. destruct (flat_reshape a s k Hw Hs) as [F1 F2]. destruct (flat_reshape x s k Hwx Hsx) as [G1 G2]. pose proof (flat_length a s k Hw Hs) as L. pose proof (flat_length x s k Hwx Hsx) as Lx. unfold irr_ctor, irr_init in *.
    rewrite F1, G1 in E. rewrite F2, G2, !flat_shape. rewrite Hs, Hsx, removelast_last, last_last in E. cbn [removelast last]. destruct (list_eq_dec Nat.eq_dec (s ++ [k]) (s ++ [k])); [|discriminate]. destruct (list_eq_dec Nat.eq_dec [prod s; k] [prod s; k]); [|contradiction]. cbn [bind] in *. set (P := if check then _ else _) in *.
    assert (Ln : length P = prod s) by (unfold P; destruct check; rewrite ?map2_length, ?L, ?Lx, ?Nat.min_id; reflexivity).
    destruct (irr_frozen _ _ _ E) as (S1 & S2 & S3); [cbn [r_xvals r_yvals]; congruence|]. cbn [r_xvals r_yvals r_shape] in *. specialize (S3 [prod s]). unfold r_npdf in S2. cbn [r_yvals] in S2. rewrite Ln in S2. destruct h as [hx hy hs]. cbn [r_xvals r_yvals r_shape] in *. subst hs. split; [reflexivity|]. eexists. split; [exact S3|].
    unfold r_npdf. cbn [r_yvals r_shape]. split; [exact S2|]. split; [reflexivity|]. unfold irr_ens_pdf, irr_ens_cdf, irr_ens_ppf, r_npdf. cbn [r_yvals]. rewrite S2.
    split; [apply arranged_pdf|]. split; [apply arranged_pdf|]. apply arranged_ppf. intros l. apply blind_case; [exact Hne|apply irr_ppf_case].
  Qed.
  Lemma flat_dat (a : nd T) s k : nd_wf a -> shp a = s ++ [k] -> dat (flat_rows_of s k a) = dat a.
  Proof. intros Hw Hs. unfold flat_rows_of, nd2. cbn [dat]. apply concat_chunks. unfold nd_wf in Hw. rewrite Hw, Hs, prod_app, prod_one. lia. Qed.
  Lemma c106_quant : forall quad cubic dspline quants (a : nd T) s k check name h, nd_wf a -> shp a = s ++ [k] -> s <> [] -> quant_ctor quants a check name = Ok h ->
    q_shape h = s /\ exists h1, quant_ctor quants (flat_rows_of s k a) check name = Ok h1 /\ q_npdf h1 = prod s /\ q_shape h1 = [prod s] /\
    arranged s (quant_ens_pdf cubic dspline h1) (shaped_pdf s (quant_pdf cubic dspline h)) /\ arranged s (quant_ens_cdf quad h1) (shaped_pdf s (quant_cdf quad h)) /\ arranged s (quant_ens_ppf quad h1) (shaped_ppf s (quant_ppf quad h)).
  Proof.
    intros quad cubic dspline quants a s k check name h Hw Hs Hne E. destruct (flat_reshape a s k Hw Hs) as [F1 F2]. pose proof (flat_length a s k Hw Hs) as L. unfold quant_ctor, quant_init in *. rewrite F1 in E. rewrite F2, flat_shape, (flat_dat a s k Hw Hs). rewrite Hs, last_last, removelast_last in E. cbn [last removelast bind] in *.
    destruct (_ =? 0)%nat; [discriminate|]. destruct (check && (pad_lo quants || pad_hi quants) && _)%bool; [discriminate|]. destruct (negb (k =? length quants)); [discriminate|]. destruct (negb (existsb _ _)); [discriminate|]. cbn [bind] in *. set (P := if check then map (pad_locs quants) _ else _) in *.
    assert (Ln : length P = prod s) by (unfold P; destruct check; rewrite ?map_length; exact L).
    destruct (quant_frozen _ _ E) as (S1 & S2 & S3). cbn [q_quants q_locs q_ctor_name q_check q_shape] in *. unfold q_npdf in S2. cbn [q_locs] in S2. rewrite Ln in S2. destruct h as [hq hl hlo hhi hn hc hs]. cbn [q_quants q_locs q_xmin q_xmax q_ctor_name q_check q_shape] in *. subst hs. split; [reflexivity|]. eexists. split; [apply S3|].
    unfold q_npdf. cbn [q_locs q_shape]. split; [exact S2|]. split; [reflexivity|]. unfold quant_ens_pdf, quant_ens_cdf, quant_ens_ppf, q_npdf. cbn [q_locs]. rewrite S2.
    split; [apply arranged_pdf|]. split; [apply arranged_pdf|]. apply arranged_ppf. intros l. apply blind_case; [exact Hne|apply quant_ppf_case].
  Qed.
  Lemma c106_mixmod : forall phi Phi (mu sd w : nd T) s k h, nd_wf mu -> nd_wf sd -> nd_wf w -> shp mu = s ++ [k] -> shp sd = s ++ [k] -> shp w = s ++ [k] -> s <> [] -> mixmod_ctor mu sd w = Ok h ->
    m_shape h = s /\ exists h1, mixmod_ctor (flat_rows_of s k mu) (flat_rows_of s k sd) (flat_rows_of s k w) = Ok h1 /\ m_npdf h1 = prod s /\ m_shape h1 = [prod s] /\
    arranged s (mixmod_ens_pdf phi h1) (shaped_pdf s (mixmod_pdf phi h)) /\ arranged s (mixmod_ens_cdf Phi h1) (shaped_pdf s (mixmod_cdf Phi h)) /\ arranged s (mixmod_ens_ppf Phi h1) (shaped_ppf s (mixmod_ppf Phi h)).
  Proof.
    intros phi Phi mu sd w s k h W1 W2 W3 S1 S2 S3 Hne E. destruct (flat_reshape mu s k W1 S1) as [F1 F2]. destruct (flat_reshape sd s k W2 S2) as [G1 G2]. destruct (flat_reshape w s k W3 S3) as [H1 H2]. pose proof (flat_length mu s k W1 S1) as L. unfold mixmod_ctor, mixmod_init in *.
    rewrite F1, G1, H1 in E. rewrite F2, G2, H2, flat_shape. rewrite S1, removelast_last, last_last in E. cbn [removelast last bind] in *. destruct (existsb _ _); [discriminate|]. cbn [bind] in *.
    destruct (mixmod_frozen _ _ _ E) as (T1 & T2 & T3). cbn [m_means m_stds m_weights m_shape] in *. specialize (T3 [prod s]). unfold m_npdf in T2. cbn [m_means] in T2. rewrite L in T2. destruct h as [hm hd hw hs]. cbn [m_means m_stds m_weights m_shape] in *. subst hs. split; [reflexivity|]. eexists. split; [exact T3|].
    unfold m_npdf. cbn [m_means m_shape]. split; [exact T2|]. split; [reflexivity|]. unfold mixmod_ens_pdf, mixmod_ens_cdf, mixmod_ens_ppf, m_npdf. cbn [m_means]. rewrite T2.
    split; [apply arranged_pdf|]. split; [apply arranged_pdf|]. apply arranged_ppf. intros l. apply mixmod_blind. exact Hne.
  Qed.
End Classes.
(** ** Examples *)
Local Open Scope R_scope.
Definition cube : nd R := mknd [2; 3; 2]%nat [1; 2; 3; 4; 5; 6; 7; 8; 9; 10; 11; 12].
Lemma c51_example : nd_wf cube /\ splits_after [2; 3]%nat [2]%nat (-1) /\ index_of [2; 3]%nat [1; 2]%nat /\ index_of [2]%nat [1]%nat /\
  offset [2; 3]%nat [1; 2]%nat = 5%nat /\ element cube [1; 2; 1]%nat = Some 12%R /\ reshape_to_pdf_size_at cube (-1) = Ok (mknd [6; 2]%nat (dat cube)).
Proof. split; [reflexivity|]. split; [right; split; [discriminate|reflexivity]|]. split; [repeat constructor|]. split; [repeat constructor|]. split; [reflexivity|]. split; reflexivity. Qed.
Lemma c106_example : exists h, hist_ctor [0; 1; 2]%R cube true = Ok h /\ nd_wf cube /\ shp cube = [2; 3]%nat ++ [2]%nat /\ h_shape h = [2; 3]%nat /\ nth0 1 (nth 5 (h_pdfs h) []) = (12 / 23)%R.
Proof. eexists. split; [reflexivity|]. split; [reflexivity|]. split; [reflexivity|]. split; [reflexivity|]. cbn. numR. cbn. field. Qed.
