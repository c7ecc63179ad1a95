(** Every modelled class, called with its own metadata and a table of rows it can hold,
    gives an object that holds exactly those rows. *)
From Coq Require Import String List Arith ZArith Bool Lia Reals Lra.
From Verif Require Import Num NumProofs Py NdArray NumpyLib Utils ScipyWrap Spec Values Ensemble Classes
  HistPdf InterpPdf QuantPdf MixmodPdf Packing PackedPdf
  SortProofs EvalProofs NdProofs InterpProofs BinProofs HistProofs HistTheorems TableProofs GridTheorems IrrTheorems
  EvalTheorems QuantTheorems MixmodTheorems PackingTheorems PackedTheorems SplinePdf SplineProofs Sparse SparseTheorems Voigt Kinds.
Import ListNotations.
Local Open Scope string_scope.
Local Open Scope list_scope.
Local Open Scope R_scope.

(** ** From per-index to per-row answers *)
Lemma map_seq_rows {B} (f : row -> B) (D : list row) : map (fun r => f (nth r D [])) (seq 0 (length D)) = map f D.
Proof.
  assert (G : forall (l : list row) k, map (fun r => f (nth (r - k) l [])) (seq k (length l)) = map f l).
  { induction l as [|d l IH]; intros k; [reflexivity|]. cbn [length seq map]. rewrite Nat.sub_diag. cbn [nth]. f_equal.
    rewrite <- (IH (S k)). apply map_ext_in. intros r Hr. apply in_seq in Hr. replace (r - k)%nat with (S (r - S k)) by lia. reflexivity. }
  rewrite <- (G D 0%nat). apply map_ext. intros r. rewrite Nat.sub_0_r. reflexivity.
Qed.
Lemma one_increasing (t : R) : increasing [t].
Proof. repeat constructor. Qed.
Lemma table_rows D (F : nat -> R -> xnum R) v xs : (forall r x, (r < length D)%nat -> F r x = v (nth r D []) x) ->
  table (length D) F xs = Ok (map (fun d : row => map (v d) xs) D).
Proof.
  intros H. unfold table. f_equal. rewrite <- map_seq_rows. apply map_seq_ext. intros r Hr. apply map_ext. intros x. auto.
Qed.
(** Matrices *)
Lemma map2_seq_rows {B} (f : row -> list R -> B) (D : list row) X : length X = length D ->
  map (fun r => f (nth r D []) (nth r X [])) (seq 0 (length D)) = map2 f D X.
Proof.
  intros HX. assert (G : forall (l : list row) Y k, length Y = length l -> map (fun r => f (nth (r - k) l []) (nth (r - k) Y [])) (seq k (length l)) = map2 f l Y).
  { induction l as [|d l IH]; intros [|y Y] k H; try discriminate; [reflexivity|]. cbn [length seq map map2]. rewrite Nat.sub_diag. cbn [nth]. f_equal.
    rewrite <- (IH Y (S k)) by (simpl in H; lia). apply map_ext_in. intros r Hr. apply in_seq in Hr. replace (r - k)%nat with (S (r - S k)) by lia. reflexivity. }
  rewrite <- (G D X 0%nat HX). apply map_ext. intros r. rewrite Nat.sub_0_r. reflexivity.
Qed.
Lemma in_flat_zero (X : list (list R)) r : In r (flat_rows X (repeat 0%nat (length X))) -> r = 0%nat.
Proof. unfold flat_rows. induction X as [|l X IH]; simpl; [tauto|]. rewrite in_app_iff, in_map_iff. intros [(x & <- & _)|H]; auto. Qed.
Lemma flat_zero (g : R -> nat -> R) (X : list (list R)) : map2 g (concat X) (flat_rows X (repeat 0%nat (length X))) = map (fun x => g x 0%nat) (concat X).
Proof.
  unfold flat_rows. induction X as [|l X IH]; [reflexivity|]. cbn [concat length repeat map2]. rewrite map_app, <- IH. clear IH.
  induction l as [|x l IHl]; [reflexivity|]. cbn [app map map2]. f_equal. exact IHl.
Qed.
Lemma flat_zero_length (X : list (list R)) : length (concat X) = length (flat_rows X (repeat 0%nat (length X))).
Proof. unfold flat_rows. induction X as [|l X IH]; [reflexivity|]. cbn [concat length repeat map2]. rewrite !app_length, map_length, IH. reflexivity. Qed.
Lemma dispatches_one g m X : dispatches g 1 m -> concat X <> [] ->
  m (nd1 (concat X)) (nd1 (flat_rows X (repeat 0%nat (length X)))) = Ok (map (fun x => g x 0%nat) (concat X)).
Proof.
  intros (flat & prod_ & two_d & Hm & Hflat & Hprod) Hne. rewrite Hm. set (xf := concat X) in *. set (rf := flat_rows X (repeat 0%nat (length X))).
  assert (Hz : forall r, In r rf -> r = 0%nat) by (intros r; apply in_flat_zero). assert (Hl : length xf = length rf) by apply flat_zero_length.
  rewrite (dispatch_flat g) with (flat := flat) (prod_ := prod_); auto.
  2:{ apply Hflat; auto. intros r Hr. rewrite (Hz r Hr). lia. }
  2:{ intros xs rows Hi Hn. apply Hprod; auto. intros r Hr. rewrite (Hz r (Hi r Hr)). lia. }
  cbv zeta. f_equal. assert (Hu : np_unique_nat rf = [0%nat]).
  { rewrite (np_unique_nat_ext rf [0%nat]); [reflexivity|]. intros r. split; [intros Hr; left; symmetry; apply Hz; exact Hr|]. intros [<-|[]].
    destruct rf as [|r rf']; [destruct xf; [congruence|discriminate]|]. left. apply Hz. left. reflexivity. }
  rewrite Hu. cbn [length]. replace (map2 g xf rf) with (map (fun x => g x 0%nat) xf) by (symmetry; apply flat_zero).
  destruct (Nat.eqb_spec 1 (length rf)) as [E1|E1].
  - replace (length xf =? 1)%nat with true by (symmetry; apply Nat.eqb_eq; lia). reflexivity.
  - destruct (Nat.eqb_spec (length xf) 1) as [E2|E2]; [lia|]. cbn [orb]. destruct (Nat.eqb_spec (length (np_unique xf)) (length xf)) as [E3|E3].
    + destruct (Nat.eqb_spec (length xf * length [0%nat]) (length xf)) as [E4|E4]; cbn [negb]; [|reflexivity]. unfold product. cbn [flat_map]. apply app_nil_r.
    + destruct (Nat.eqb_spec (length (np_unique xf) * length [0%nat]) (length xf)) as [E4|E4]; cbn [negb]; [simpl in E4; lia|reflexivity].
Qed.
Lemma rectangular_concat X w : rectangular X w -> concat X <> [].
Proof.
  intros (Hw & Hne & Hl). destruct X as [|l X]; [congruence|]. specialize (Hl l (or_introl eq_refl)). destruct l; [simpl in Hl; lia|discriminate].
Qed.
Lemma rv_eval_one g cond other m X w : dispatches g 1 m -> rectangular X w -> length X <> 1%nat -> (forall x, In x (concat X) -> cond x = true) ->
  rv_eval 1 cond other m (PMat X) = Ok (map (map (fun x => Fin (g x 0%nat))) X).
Proof.
  intros Hd Hr H1 Hc. pose proof (rectangular_concat X w Hr) as Hne. destruct Hr as (Hw & HX & Hl). unfold rv_eval. cbn [broadcast_points].
  destruct (Nat.eqb_spec (length X) 1) as [E|_]; [contradiction|]. cbn [Nat.eqb bind].
  assert (Hwd : match X with [] => 0%nat | l :: _ => length l end = w) by (destruct X; [congruence|apply Hl; left; reflexivity]). rewrite Hwd.
  assert (Hall : forallb cond (concat X) = true) by (apply forallb_forall; auto). rewrite Hall.
  destruct (Nat.eqb_spec (length (concat X)) 0) as [E|E]; [destruct (concat X); [congruence|discriminate]|].
  rewrite (dispatches_one g) by auto. cbn [bind]. f_equal. rewrite EvalProofs.place_all by (auto; apply map_length). rewrite map_map.
  rewrite <- (chunks_concat w (map (map (fun x => Fin (g x 0%nat))) X)).
  - rewrite map_length, concat_map. reflexivity.
  - intros l H. apply in_map_iff in H. destruct H as (l0 & <- & H0). rewrite map_length. auto.
Qed.
Lemma gen_mats g npdf m cond other (dom : R -> Prop) e (D : list row) v : dispatches g npdf m -> npdf = length D -> D <> [] ->
  (forall x, e x = rv_eval npdf cond other m x) -> (forall x, dom x -> cond x = true) ->
  (forall r x, (r < npdf)%nat -> dom x -> v (nth r D []) x = Fin (g x r)) -> answers_mats dom e D v.
Proof.
  intros Hd Hn Hne He Hc Hv. subst npdf. assert (Hpos : (0 < length D)%nat) by (destruct D; [congruence|simpl; lia]).
  assert (T : forall r x, (r < length D)%nat -> dom x -> total g cond other r x = v (nth r D []) x) by (intros r x Hr Hx; unfold total; rewrite Hc by auto; symmetry; auto).
  assert (GG : forall l, length D = 1%nat \/ increasing l \/ ~ NoDup l -> (forall x, In x l -> dom x) -> e (PGrid l) = Ok (map (fun d => map (v d) l) D)).
  { intros l Hor Hdom. rewrite He, (gen_grid g (length D) m Hd Hpos cond other l).
    + unfold table. f_equal. rewrite <- map_seq_rows. apply map_seq_ext. intros r Hr. apply map_ext_in. intros x Hx. apply T; auto.
    + destruct Hor as [H|[H|H]]; [left; exact H|right; left; exact H|right; right]. rewrite filter_all by auto. exact H. }
  split; [|split; [|split]].
  - intros X w (Hw & HX & Hl) HL Hor Hdom. rewrite He, (gen_mat g (length D) m Hd Hpos cond other X w) by auto. f_equal.
    rewrite <- (map2_seq_rows (fun d l => map (v d) l)) by exact HL. apply map_seq_ext. intros r Hr. apply map_ext_in. intros x Hx. apply T; auto. apply Hdom.
    apply in_concat. exists (nth r X []). split; [apply nth_In; lia|exact Hx].
  - intros X w d Hr ED Hdom. rewrite He. subst D. cbn [length] in *. destruct (Nat.eq_dec (length X) 1) as [E1|E1].
    + destruct Hr as (Hw & HX & Hl). rewrite (gen_mat g 1 m Hd Hpos cond other X w) by auto. f_equal. destruct X as [|l [|? ?]]; try discriminate. cbn [seq map nth]. f_equal.
      apply map_ext_in. intros x Hx. apply (T 0%nat x); [lia|]. apply Hdom. simpl. rewrite app_nil_r. exact Hx.
    + rewrite (rv_eval_one g cond other m X w Hd Hr E1) by auto. f_equal. apply map_ext_in. intros l Hl. apply map_ext_in. intros x Hx.
      rewrite <- (Hv 0%nat x); [reflexivity|lia|]. apply Hdom. apply in_concat. eauto.
  - intros l Hor Hdom. apply GG; auto. tauto.
  - intros l Hl Hdom. rewrite <- (GG l) by auto. rewrite !He. unfold rv_eval. cbn [broadcast_points]. rewrite repeat_length, Nat.eqb_refl. reflexivity.
Qed.
Lemma map2_repeat_rows {B} (f : row -> list R -> B) (D : list row) l : map2 f D (repeat l (length D)) = map (fun d => f d l) D.
Proof. induction D as [|d D IH]; [reflexivity|]. cbn. f_equal. exact IH. Qed.
Lemma answers_pdf dm g npdf m e D f : dispatches g npdf m -> npdf = length D -> D <> [] ->
  (forall x, e x = rv_pdf npdf m x) -> (forall r x, (r < npdf)%nat -> g x r = f (nth r D []) x) ->
  answers dm e D (fun d x => Fin (f d x)).
Proof.
  intros Hd Hn Hne He Hg. subst npdf.
  destruct (gen_pdf g (length D) m (fun r x => f (nth r D []) x) e Hd) as (H & _); auto.
  - destruct D; [congruence|simpl; lia].
  - assert (G : forall l, increasing l -> e (PGrid l) = Ok (map (fun d => map (fun x => Fin (f d x)) l) D))
      by (intros l Hl; rewrite H by auto; apply (table_rows D _ (fun d x => Fin (f d x))); auto).
    split; [|split; [exact G|]].
    + intros t. replace (e (PScalar t)) with (e (PGrid [t])) by (rewrite !He; reflexivity). rewrite G by apply one_increasing. reflexivity.
    + apply (gen_mats g (length D) m (fun _ => true) (fun _ => NaN)); auto. intros r x Hr _. rewrite Hg by auto. reflexivity.
Qed.
Lemma with_ends_ext Q Q' r r' p : (0 < p < 1 -> Q r p = Q' r' p) -> with_ends Q r p = with_ends Q' r' p.
Proof. intros H. unfold with_ends. destruct (Rlt_dec 0 p); auto. destruct (Rlt_dec p 1); auto. rewrite H; auto. Qed.
Lemma answers_ppf g npdf m e D f : dispatches g npdf m -> npdf = length D -> D <> [] ->
  (forall x, e x = rv_ppf npdf m x) -> (forall r x, (r < npdf)%nat -> 0 < x < 1 -> g x r = f (nth r D []) x) ->
  answers (dom MPpf) e D (fun d => ends (f d)).
Proof.
  intros Hd Hn Hne He Hg. subst npdf.
  destruct (gen_ppf g (length D) m (fun r x => g x r) e Hd) as (H & _); auto.
  - destruct D; [congruence|simpl; lia].
  - assert (G : forall l, increasing l -> e (PGrid l) = Ok (map (fun d => map (ends (f d)) l) D)).
    { intros l Hl. rewrite H by auto. apply (table_rows D _ (fun d => ends (f d))). intros r x Hr. unfold ends. apply with_ends_ext. auto. }
    split; [|split; [exact G|]].
    + intros t. replace (e (PScalar t)) with (e (PGrid [t])) by (rewrite !He; reflexivity). rewrite G by apply one_increasing. reflexivity.
    + eapply gen_mats; [exact Hd|reflexivity|exact Hne|exact He| |].
      * intros x [H1 H2]. cbn beta. destruct (nltb_reflect n0 x) as [L|L]; [|exfalso; revert L; numR; lra]. destruct (nltb_reflect x n1) as [L2|L2]; [reflexivity|exfalso; revert L2; numR; lra].
      * intros r x Hr Hx. unfold ends, with_ends. destruct Hx as [H1 H2]. destruct (Rlt_dec 0 x) as [|C]; [|contradiction]. destruct (Rlt_dec x 1) as [|C]; [|contradiction]. rewrite Hg by auto. reflexivity.
Qed.

Lemma answers_always dm (e : points R -> res (tbl R)) D F v : always_faithful e (length D) F -> (forall x, e (PScalar x) = e (PGrid [x])) ->
  (forall X w, length D = 1%nat -> rectangular X w -> e (PMat X) = Ok (map (map (F 0%nat)) X)) ->
  (forall r x, (r < length D)%nat -> F r x = v (nth r D []) x) -> answers dm e D v.
Proof.
  intros [Hg Hm] E H1 Hv. assert (G : forall l, e (PGrid l) = Ok (map (fun d => map (v d) l) D)) by (intros l; rewrite Hg; apply table_rows; auto).
  split; [intros t; rewrite E, G; reflexivity|]. split; [intros l _; apply G|]. split; [|split; [|split; [intros l _ _; apply G|]]].
  3:{ intros l _ _. etransitivity; [apply (Hm (repeat l (length D)) (length l)); [apply repeat_length|intros y Hy; apply repeat_spec in Hy; subst; reflexivity]|]. f_equal.
      rewrite <- (map2_repeat_rows (fun d l => map (v d) l)). rewrite <- (map2_seq_rows (fun d l => map (v d) l)) by apply repeat_length.
      apply map_seq_ext. intros r Hr. apply map_ext. intros x. apply Hv. exact Hr. }
  - intros X w (Hw & HX & Hl) HL _ _. rewrite (Hm X w HL Hl). f_equal. rewrite <- (map2_seq_rows (fun d l => map (v d) l)) by exact HL.
    apply map_seq_ext. intros r Hr. apply map_ext. intros x. apply Hv. exact Hr.
  - intros X w d Hr ED _. subst D. rewrite (H1 X w eq_refl Hr). f_equal. apply map_ext. intros l. apply map_ext. intros x. apply (Hv 0%nat x). simpl. lia.
Qed.

(** ** Arguments *)
Lemma as_bool_1 : as_bool (VNum (n1 : R)) = Ok true.
Proof. unfold as_bool. cbn [as_scalar bind]. destruct (neqb_reflect (n1 : R) n0) as [E|E]; [revert E; numR; lra|reflexivity]. Qed.
Lemma as_bool_1d : as_bool (VArr (nd0 (n1 : R))) = Ok true.
Proof. exact as_bool_1. Qed.
Lemma squeeze_grid {A} (l : list A) : length l <> 1%nat -> np_squeeze (expand_first (nd1 l)) = nd1 l.
Proof. intros H. unfold np_squeeze, expand_first, nd1. cbn [shp dat filter Nat.eqb negb]. destruct (Nat.eqb_spec (length l) 1); [lia|reflexivity]. Qed.
Lemma squeeze_single {A} (x : A) : np_squeeze (nd1 [x]) = nd0 x.
Proof. reflexivity. Qed.
Lemma pred_ne n : (2 <= n)%nat -> n <> 1%nat. Proof. lia. Qed.

Lemma row_fits_num L j w d k : row_fits L d -> nth_error L j = Some (k, NumCol [w]) -> length (num_at j d) = w.
Proof.
  unfold row_fits, num_at, cell_at. intros H. revert j. induction H as [|a x L d Ha H IH]; intros [|j] E; try discriminate.
  - injection E as ->. cbn [nth]. simpl in Ha. destruct x; [|destruct Ha|destruct Ha]. simpl in *. lia.
  - cbn [nth]. apply IH. exact E.
Qed.
Lemma row_fits_byte L j w d k : row_fits L d -> nth_error L j = Some (k, ByteCol [w]) -> length (bytes (cell_at j d)) = w.
Proof.
  unfold row_fits, cell_at. intros H. revert j. induction H as [|a x L d Ha H IH]; intros [|j] E; try discriminate.
  - injection E as ->. cbn [nth]. simpl in Ha. destruct x; [destruct Ha| |destruct Ha]. simpl in *. lia.
  - cbn [nth]. apply IH. exact E.
Qed.
Lemma in_num_rows j (D : list row) l : In l (map (num_at j) D) -> exists d, In d D /\ l = num_at j d.
Proof. intros H. apply in_map_iff in H. destruct H as (d & <- & H). eauto. Qed.
Lemma nth_num_rows j (D : list row) r : (r < length D)%nat -> nth r (map (num_at j) D) [] = num_at j (nth r D []).
Proof. intros H. exact (nth_map_in (num_at j) D r [] [] H). Qed.
Lemma map_fixed {A} (f : A -> A) l : (forall x, In x l -> f x = x) -> map f l = l.
Proof. intros H. rewrite <- (map_id l) at 2. apply map_ext_in. auto. Qed.

Lemma interp1d_inside (xs ys : list R) lo hi lo' hi' x : nhead xs <= x -> x <= nlast xs ->
  interp1d xs ys lo hi x = interp1d xs ys lo' hi' x.
Proof.
  intros H1 H2. unfold interp1d.
  destruct (nltb_reflect x (nhead xs)) as [L|L]; [exfalso; lra|].
  destruct (nltb_reflect (nlast xs) x) as [L'|L']; [exfalso; lra|]. reflexivity.
Qed.

(** ** The classes *)
Ltac chk B := match goal with |- context [as_bool ?v] => change (as_bool v) with (as_bool (VNum (n1 : R))) end; rewrite B; cbn [bind].
Section Law.
  Variables (phi Phi : R -> R) (quad : list R -> list R -> R -> R -> R -> R)
            (cubic dspline : list R -> list R -> R -> R) (Phinv : R -> xnum R).
  Notation kind_create := (kind_create phi Phi quad cubic dspline Phinv).
  Notation holds := (holds phi Phi quad Phinv).
  Notation val := (val phi Phi quad Phinv).
  (** Called with the metadata and the columns, in either order. *)
  Definition call_of (k : kind) (D : list row) (d : vdict R) : Prop :=
    d = kind_args k ++ cols k D \/ d = cols k D ++ kind_args k.
  Definition law (k : kind) : Prop := forall D d, D <> [] -> List.Forall (good_row k) D -> call_of k D d ->
    exists g, kind_create k d = Ok g /\ holds k D g.

  Ltac open_call Hc := unfold call_of, kind_args, cols, columns in Hc;
    cbn [kind_own_meta map fst snd add_meta v_expand_first v_squeeze kind_layout columns_from col_value app] in Hc;
    rewrite ?map_map in Hc;
    repeat match type of Hc with context [@rows_nd ?A [?w] ?r] => change (@rows_nd A [w] r) with (@nd2 A w r) in Hc end;
    change (fun x => nums (cell_at 0 x)) with (num_at 0) in Hc;
    change (fun x => nums (cell_at 1 x)) with (num_at 1) in Hc;
    change (fun x => nums (cell_at 2 x)) with (num_at 2) in Hc.
  Ltac same_cols := unfold cols, columns; cbn [columns_from kind_layout col_value g_data]; rewrite ?map_map; reflexivity.

  Lemma hist_create_eq bins (p : nd R) d : d = [("bins", VArr (nd1 bins)); ("pdfs", VArr p)] \/ d = [("pdfs", VArr p); ("bins", VArr (nd1 bins))] ->
    hist_create d = let* h := hist_ctor bins p true in Ok (hist_obj h).
  Proof. pose proof as_bool_1 as B. intros [->| ->]; unfold hist_create, opt_arg, arg; cbn -[as_bool hist_ctor hist_obj]; chk B; reflexivity. Qed.

  Lemma hist_law bins : good_kind (KHist bins) -> law (KHist bins).
  Proof.
    intros (Hs & Hn) D d Hne HD Hc. open_call Hc. rewrite squeeze_grid in Hc by lia.
    unfold Kinds.kind_create. change (create_of _ (kind_name (KHist bins))) with (@hist_create R _).
    rewrite Forall_forall in HD.
    assert (Hl : forall d, In d D -> length (num_at 0 d) = pred (length bins)).
    { intros d0 Hd. destruct (HD d0 Hd) as [Hf _]. eapply row_fits_num; [exact Hf|reflexivity]. }
    rewrite (hist_create_eq bins _ d Hc), hist_build by (intros l Hl'; apply in_num_rows in Hl'; destruct Hl' as (d0 & Hd & ->); auto).
    cbn [bind]. eexists. split; [reflexivity|].
    rewrite map_map. replace (map (fun x => hist_norm_row (bin_widths bins) (num_at 0 x)) D) with (map (num_at 0) D)
      by (apply map_ext_in; intros d0 Hd; symmetry; apply (HD d0 Hd)).
    set (h := mkhist bins (map (num_at 0) D) [length (map (num_at 0) D)] : hist R).
    assert (Hnp : h_npdf h = length D) by (unfold h_npdf, h; cbn [h_pdfs]; apply map_length).
    split; [reflexivity|]. split; [reflexivity|]. split; [unfold cols, columns; cbn [columns_from kind_layout col_value hist_obj g_data]; rewrite map_map; reflexivity|].
    split; [cbn [hist_obj g_shape h_shape h]; rewrite map_length; reflexivity|].
    intros m Hm.
    assert (Hrow : forall r, (r < h_npdf h)%nat -> nth r (h_pdfs h) [] = num_at 0 (nth r D [])) by (intros r Hr; rewrite Hnp in Hr; apply nth_num_rows; auto).
    assert (Hcd : forall r, (r < h_npdf h)%nat -> nth r (h_cdfs h) [] = hist_cdf_row (bin_widths bins) (num_at 0 (nth r D []))).
    { intros r Hr. unfold h_cdfs. rewrite nth_map_in with (d' := []) by auto. rewrite Hrow by auto. reflexivity. }
    destruct m.
    - apply (answers_pdf _ _ _ _ _ D (fun d x => hist_point bins [num_at 0 d] x 0) (hist_pdf_dispatches h)); auto.
      intros r x Hr. unfold hist_point, at2. rewrite Hrow by auto. reflexivity.
    - apply (answers_pdf _ _ _ _ _ D (fun d x => interp1d bins (hist_cdf_row (bin_widths bins) (num_at 0 d)) 0 1 x) (hist_cdf_dispatches h Hs Hn)); auto.
      intros r x Hr. rewrite Hcd by auto. reflexivity.
    - apply (answers_ppf _ _ _ _ D (fun d x => interp1d (hist_cdf_row (bin_widths bins) (num_at 0 d)) bins (nhead bins) (nlast bins) x) (hist_ppf_dispatches h)); auto.
      intros r x Hr _. rewrite Hcd by auto. reflexivity.
  Qed.

  Lemma interp_create_eq xs (p : nd R) d : d = [("xvals", VArr (nd1 xs)); ("yvals", VArr p)] \/ d = [("yvals", VArr p); ("xvals", VArr (nd1 xs))] ->
    interp_create d = let* h := interp_ctor xs p true in Ok (interp_obj h).
  Proof. pose proof as_bool_1 as B. intros [->| ->]; unfold interp_create, opt_arg, arg; cbn -[as_bool interp_ctor interp_obj]; chk B; reflexivity. Qed.

  (** The tables of an interpolated object and of a packed one *)
  Lemma interp_answers (i : interp R) D xs (ys : row -> list R) : increasing xs -> (2 <= length xs)%nat -> D <> [] ->
    i = mkinterp xs (map (fun d => inorm xs (ys d)) D) (map (fun d => icum xs (ys d)) D) [length D] ->
    answers (dom MPdf) (interp_ens_pdf i) D (fun d => interp_val xs (ys d) MPdf) /\
    answers (dom MCdf) (interp_ens_cdf i) D (fun d => interp_val xs (ys d) MCdf) /\
    answers (dom MPpf) (interp_ens_ppf i) D (fun d => interp_val xs (ys d) MPpf).
  Proof.
    intros Hs Hn Hne Ei. assert (Hx : i_xvals i = xs) by (rewrite Ei; auto).
    assert (Hnp : i_npdf i = length D) by (rewrite Ei; apply map_length).
    assert (H1 : forall r, (r < i_npdf i)%nat -> nth r (i_yvals i) [] = inorm xs (ys (nth r D []))).
    { intros r Hr. rewrite Hnp in Hr. rewrite Ei. cbn [i_yvals]. exact (nth_map_in (fun d => inorm xs (ys d)) D r [] [] Hr). }
    assert (H2 : forall r, (r < i_npdf i)%nat -> nth r (i_cumul i) [] = icum xs (ys (nth r D []))).
    { intros r Hr. rewrite Hnp in Hr. rewrite Ei. cbn [i_cumul]. exact (nth_map_in (fun d => icum xs (ys d)) D r [] [] Hr). }
    assert (Hcl : i_npdf i = length (i_cumul i)) by (rewrite Hnp, Ei; cbn [i_cumul]; rewrite map_length; auto).
    split; [|split].
    - apply (answers_pdf _ _ _ _ _ D (fun d x => interp1d xs (inorm xs (ys d)) 0 0 x)
        (interp_pdf_dispatches i ltac:(rewrite Hx; auto) ltac:(rewrite Hx; auto))); auto.
      intros r x Hr. rewrite H1, Hx by auto. reflexivity.
    - apply (answers_pdf _ _ _ _ _ D (fun d x => interp1d xs (icum xs (ys d)) 0 1 x)
        (interp_cdf_dispatches i ltac:(rewrite Hx; auto) ltac:(rewrite Hx; auto) Hcl)); auto.
      intros r x Hr. rewrite H2, Hx by auto. reflexivity.
    - apply (answers_ppf _ _ _ _ D (fun d x => interp1d (icum xs (ys d)) xs (nhead xs) (nlast xs) x) (interp_ppf_dispatches i)); auto.
      intros r x Hr _. rewrite H2, Hx by auto. reflexivity.
  Qed.

  Lemma interp_law xs : good_kind (KInterp xs) -> law (KInterp xs).
  Proof.
    intros (Hs & Hn) D d Hne HD Hc. open_call Hc. rewrite squeeze_grid in Hc by lia.
    unfold Kinds.kind_create. change (create_of _ (kind_name (KInterp xs))) with (@interp_create R _).
    rewrite Forall_forall in HD.
    assert (Hl : forall d, In d D -> length (num_at 0 d) = length xs).
    { intros d0 Hd. destruct (HD d0 Hd) as [Hf _]. eapply row_fits_num; [exact Hf|reflexivity]. }
    rewrite (interp_create_eq xs _ d Hc), interp_build by (try lia; intros l Hl'; apply in_num_rows in Hl'; destruct Hl' as (d0 & Hd & ->); auto).
    cbn [bind]. eexists. split; [reflexivity|]. rewrite !map_map, map_length.
    set (i := mkinterp xs _ _ _ : interp R).
    assert (Ey : map (fun x => inorm xs (num_at 0 x)) D = map (num_at 0) D) by (apply map_ext_in; intros d0 Hd; apply (HD d0 Hd)).
    split; [reflexivity|]. split; [reflexivity|].
    split; [unfold cols, columns; cbn [columns_from kind_layout col_value g_data interp_obj]; rewrite map_map; unfold i; cbn [i_yvals i_xvals]; rewrite Ey; reflexivity|].
    split; [reflexivity|].
    destruct (interp_answers i D xs (num_at 0) Hs Hn Hne eq_refl) as (A1 & A2 & A3).
    intros m Hm. destruct m; assumption.
  Qed.

  Lemma irr_create_eq n xr yr d : (2 <= n)%nat -> xr <> [] -> (forall l, In l xr -> length l = n) ->
    d = [("xvals", VArr (nd2 n xr)); ("yvals", VArr (nd2 n yr))] ->
    irr_create d = let* h := irr_ctor (nd2 n xr) (nd2 n yr) true in Ok (irr_obj n h : gobj R).
  Proof.
    pose proof as_bool_1 as B. intros Hn Hne Hl ->. unfold irr_create, opt_arg, arg. cbn -[as_bool irr_ctor irr_obj nd2 dat].
    replace (length (dat (nd2 n xr)) =? 0)%nat with false.
    - chk B. reflexivity.
    - symmetry. apply Nat.eqb_neq. destruct xr as [|l xr]; [congruence|]. cbn [nd2 dat concat]. rewrite app_length, (Hl l) by (left; auto). lia.
  Qed.

  Lemma irr_law n : good_kind (KIrr n) -> law (KIrr n).
  Proof.
    intros Hn D d Hne HD Hc. simpl in Hn. open_call Hc.
    unfold Kinds.kind_create. change (create_of _ (kind_name (KIrr n))) with (@irr_create R _).
    rewrite Forall_forall in HD.
    assert (Hl0 : forall d, In d D -> length (num_at 0 d) = n).
    { intros d0 Hd. destruct (HD d0 Hd) as [Hf _]. eapply row_fits_num; [exact Hf|reflexivity]. }
    assert (Hl1 : forall d, In d D -> length (num_at 1 d) = n).
    { intros d0 Hd. destruct (HD d0 Hd) as [Hf _]. eapply row_fits_num; [exact Hf|reflexivity]. }
    assert (Hne' : map (num_at 0) D <> []) by (destruct D; [congruence|discriminate]).
    assert (Hlx : forall l, In l (map (num_at 0) D) -> length l = n) by (intros l Hl'; apply in_num_rows in Hl'; destruct Hl' as (d0 & Hd & ->); auto).
    assert (Hly : forall l, In l (map (num_at 1) D) -> length l = n) by (intros l Hl'; apply in_num_rows in Hl'; destruct Hl' as (d0 & Hd & ->); auto).
    rewrite (irr_create_eq n (map (num_at 0) D) (map (num_at 1) D) d) by (auto; destruct Hc; auto).
    rewrite irr_build by (auto; rewrite !map_length; auto).
    cbn [bind]. eexists. split; [reflexivity|].
    assert (Ey : map2 normalize_interp1d_row (map (num_at 0) D) (map (num_at 1) D) = map (num_at 1) D).
    { rewrite <- (map_fixed (fun x => x) (map2 _ _ _)) by auto. clear - HD. induction D as [|d D IH]; [reflexivity|]. cbn [map map2].
      f_equal; [|apply IH; intros; apply HD; right; auto]. destruct (HD d (or_introl eq_refl)) as (_ & E & _). exact E. }
    rewrite Ey, map_length. set (o := mkirr _ _ _ : irregular R).
    assert (Hnp : r_npdf o = length D) by (unfold r_npdf, o; cbn [r_yvals]; apply map_length).
    split; [reflexivity|]. split; [reflexivity|]. split; [same_cols|]. split; [reflexivity|].
    assert (H1 : forall r, (r < r_npdf o)%nat -> nth r (r_xvals o) [] = num_at 0 (nth r D [])) by (intros r Hr; rewrite Hnp in Hr; apply nth_num_rows; auto).
    assert (H2 : forall r, (r < r_npdf o)%nat -> nth r (r_yvals o) [] = num_at 1 (nth r D [])) by (intros r Hr; rewrite Hnp in Hr; apply nth_num_rows; auto).
    assert (H3 : forall r, (r < r_npdf o)%nat -> nth r (r_cumul o) [] = irr_cumul_row (num_at 0 (nth r D [])) (num_at 1 (nth r D []))).
    { intros r Hr. rewrite <- H1, <- H2 by auto. unfold r_cumul. rewrite Hnp in Hr.
      apply (map2_nth irr_cumul_row (r_xvals o) (r_yvals o) r [] []); unfold o; cbn [r_xvals r_yvals]; rewrite map_length; auto. }
    intros m Hm. destruct m.
    - apply (answers_pdf _ _ _ _ _ D (fun d x => interp1d (num_at 0 d) (num_at 1 d) 0 0 x) (irr_pdf_dispatches o (r_npdf o))); auto.
      intros r x Hr. rewrite H1, H2 by auto. reflexivity.
    - apply (answers_pdf _ _ _ _ _ D (fun d x => interp1d (num_at 0 d) (irr_cumul_row (num_at 0 d) (num_at 1 d)) 0 1 x) (irr_cdf_dispatches o (r_npdf o))); auto.
      intros r x Hr. rewrite H1, H3 by auto. reflexivity.
    - apply (answers_ppf _ _ _ _ D (fun d x => interp1d (irr_cumul_row (num_at 0 d) (num_at 1 d)) (num_at 0 d) 0 0 x) (irr_ppf_dispatches o (r_npdf o))); auto.
      intros r x Hr Hx. rewrite H1, H3 by auto.
      assert (Hin : In (nth r D []) D) by (apply nth_In; rewrite <- Hnp; auto).
      destruct (HD _ Hin) as (_ & _ & Hlast).
      apply interp1d_inside.
      + change (0 <= x). lra.
      + eapply Rle_trans; [|apply Req_le; symmetry; exact Hlast]. lra.
  Qed.

  Lemma mix_create_eq n w s m d :
    d = [("weights", VArr (nd2 n w)); ("stds", VArr (nd2 n s)); ("means", VArr (nd2 n m))] ->
    mixmod_create phi Phi d = let* h := mixmod_ctor (nd2 n m) (nd2 n s) (nd2 n w) in Ok (mixmod_obj phi Phi n h : gobj R).
  Proof. intros ->. reflexivity. Qed.

  Lemma mix_law n : good_kind (KMix n) -> law (KMix n).
  Proof.
    intros Hn D d Hne HD Hc. simpl in Hn. open_call Hc.
    unfold Kinds.kind_create. change (create_of _ (kind_name (KMix n))) with (@mixmod_create R _ phi Phi).
    rewrite Forall_forall in HD.
    assert (Hl : forall j, (j < 3)%nat -> forall l, In l (map (num_at j) D) -> length l = n).
    { intros j Hj l Hl'. apply in_num_rows in Hl'. destruct Hl' as (d0 & Hd & ->). destruct (HD d0 Hd) as [Hf _].
      destruct j as [|[|[|j]]]; [| | |lia]; (eapply row_fits_num; [exact Hf|reflexivity]). }
    assert (Hat : forall j r i, (r < length D)%nat -> at2 (map (num_at j) D) r i = nth0 i (num_at j (nth r D []))).
    { intros j r i Hr. unfold at2. rewrite nth_num_rows by auto. reflexivity. }
    assert (Hsum : forall r, (r < length D)%nat -> rsum n (fun i => at2 (map (num_at 0) D) r i) = 1).
    { intros r Hr. destruct (HD (nth r D []) ltac:(apply nth_In; auto)) as (_ & _ & Hs & _). rewrite <- Hs, nsum_rsum.
      rewrite (Hl 0%nat ltac:(lia) (num_at 0 (nth r D []))) by (apply in_map, nth_In; auto).
      apply rsum_ext. intros i Hi. apply Hat; auto. }
    assert (Hin : mix_input n (map (num_at 2) D) (map (num_at 1) D) (map (num_at 0) D)).
    { unfold mix_input. rewrite !map_length. split; auto. split; [destruct D; [congruence|discriminate]|].
      split; auto. split; auto. split; [apply Hl; lia|]. split; [apply Hl; lia|]. split; [apply Hl; lia|].
      split; [|split].
      - intros r i Hr Hi. rewrite Hat by auto. destruct (HD (nth r D []) ltac:(apply nth_In; auto)) as (_ & _ & _ & H). auto.
      - intros r i Hr Hi. rewrite Hat by auto. destruct (HD (nth r D []) ltac:(apply nth_In; auto)) as (_ & H & _). auto.
      - intros r Hr. rewrite Hsum by auto. lra. }
    rewrite (mix_create_eq n (map (num_at 0) D) (map (num_at 1) D) (map (num_at 2) D) d) by (destruct Hc; auto).
    rewrite (mix_build n _ _ _ Hin). cbn [bind].
    assert (Ew : mwnorm (map (num_at 0) D) = map (num_at 0) D).
    { unfold mwnorm. rewrite map_map. apply map_ext_in. intros d0 Hd. destruct (HD d0 Hd) as (_ & _ & Hs & _). rewrite Hs.
      apply map_fixed. intros x _. numR. field. }
    eexists. split; [reflexivity|].
    split; [reflexivity|]. split; [reflexivity|]. split; [cbn [mixmod_obj g_data m_weights]; rewrite Ew; same_cols|].
    split; [cbn [mixmod_obj g_shape m_shape]; rewrite map_length; reflexivity|].
    pose proof (mf_faithful n _ _ _ Hin phi) as Hf. pose proof (mF_faithful n _ _ _ Hin Phi) as HF.
    unfold mm in Hf, HF. rewrite map_length in Hf, HF.
    assert (Hw : forall r i, (r < length D)%nat -> mw n (map (num_at 0) D) r i = nth0 i (num_at 0 (nth r D []))).
    { intros r i Hr. unfold mw. rewrite Hsum, Hat by auto. lra. }
    intros m Hm. destruct m; [| |destruct Hm as [Hm|[Hm|[]]]; discriminate].
    - eapply answers_always; [exact Hf|reflexivity|intros X w E1 (_ & HX & HlX); apply (mf_one n _ _ _ Hin phi X w); [rewrite map_length; exact E1|exact HX|exact HlX]|].
      intros r x Hr. unfold fin, Kinds.val. f_equal. unfold mf. apply rsum_ext. intros i Hi. rewrite Hw, !Hat by auto. reflexivity.
    - eapply answers_always; [exact HF|reflexivity|intros X w E1 (_ & HX & HlX); apply (mF_one n _ _ _ Hin Phi X w); [rewrite map_length; exact E1|exact HX|exact HlX]|].
      intros r x Hr. unfold fin, Kinds.val. f_equal. unfold mF. apply rsum_ext. intros i Hi. rewrite Hw, !Hat by auto. reflexivity.
  Qed.

  (** *** Quantiles; inside its range the spline does not look at the fill values. *)
  Definition ignores_fill : Prop := forall xs ys lo hi lo' hi' x, nth0 0 xs <= x <= nlast xs ->
    quad xs ys lo hi x = quad xs ys lo' hi' x.
  Lemma quant_create_eq quants name (p : nd R) d : length (dat p) <> 0%nat ->
    d = [("quants", VArr (nd1 quants)); ("pdf_constructor_name", VTxt (nd0 name)); ("check_input", VArr (nd0 n1)); ("locs", VArr p)] \/
    d = [("locs", VArr p); ("quants", VArr (nd1 quants)); ("pdf_constructor_name", VTxt (nd0 name)); ("check_input", VArr (nd0 n1))] \/
    d = [("quants", VArr (nd1 quants)); ("pdf_constructor_name", VStr name); ("check_input", VArr (nd0 n1)); ("locs", VArr p)] \/
    d = [("quants", VArr (nd1 quants)); ("locs", VArr p); ("pdf_constructor_name", VStr name)] ->
    quant_create quad cubic dspline d = let* h := quant_ctor quants p true name in Ok (quant_obj quad cubic dspline h).
  Proof.
    pose proof as_bool_1 as B. intros Hp. apply Nat.eqb_neq in Hp.
    intros [->|[->|[->| ->]]]; unfold quant_create, opt_arg, arg; cbn -[as_bool quant_ctor quant_obj Nat.eqb]; rewrite Hp; cbn [bind]; chk B; reflexivity.
  Qed.
  Lemma padded quants : nth0 0 quants = 0 -> nlast quants = 1 -> pad_lo quants = false /\ pad_hi quants = false.
  Proof.
    intros H0 H1. split; apply not_true_is_false; intros H.
    - apply pad_lo_iff in H. pose proof float_eps_pos. lra.
    - apply pad_hi_iff in H. lra.
  Qed.
  Lemma quant_build_padded quants rows name : (3 <= length quants)%nat -> rows <> [] -> nth0 0 quants = 0 -> nlast quants = 1 -> In name pdf_constructor_names ->
    (forall l, In l rows -> length l = length quants) -> exists lo hi,
    quant_ctor quants (nd2 (length quants) rows) true name = Ok (mkquant quants rows lo hi name true [length rows]).
  Proof.
    intros Hn Hne H0 H1 Hnm Hr. do 2 eexists. rewrite quant_build_gen by (auto; lia). destruct (padded quants H0 H1) as [E1 E2].
    rewrite (pad_quants_same _ E1 E2). rewrite (map_fixed (pad_locs quants)) by (intros; apply pad_locs_same; auto). reflexivity.
  Qed.

  Lemma quant_holds quants name (q : quant R) D lo hi : good_kind (KQuant quants name) -> D <> [] -> ignores_fill ->
    q = mkquant quants (map (num_at 0) D) lo hi name true [length D] ->
    holds (KQuant quants name) D (quant_obj quad cubic dspline q).
  Proof.
    intros (Hq & Hn & H0 & H1 & Hnm) Hne Hig ->. set (q := mkquant _ _ _ _ _ _ _ : quant R).
    assert (Hnp : q_npdf q = length D) by (unfold q_npdf, q; cbn [q_locs]; apply map_length).
    split; [reflexivity|]. split; [reflexivity|]. split; [same_cols|]. split; [reflexivity|].
    assert (H2 : forall r, (r < q_npdf q)%nat -> nth r (q_locs q) [] = num_at 0 (nth r D [])) by (intros r Hr; rewrite Hnp in Hr; apply nth_num_rows; auto).
    assert (H4 : forall (f : list R -> list R) r, (r < q_npdf q)%nat -> nth r (map f (q_locs q)) [] = f (num_at 0 (nth r D []))).
    { intros f r Hr. rewrite <- H2 by auto. apply (nth_map_in f (q_locs q) r [] [] Hr). }
    assert (H3 : (3 <= length (q_quants q))%nat) by exact Hn.
    intros m Hm. destruct m.
    - unfold methods in Hm. destruct (String.eqb_spec name "piecewise_linear") as [En|En].
      + unfold g_eval, quant_obj. cbn [g_pdf]. unfold Kinds.val. rewrite En. cbn [String.eqb Ascii.eqb Bool.eqb].
        apply (answers_pdf _ _ _ _ _ D (fun d x => interp1d (adjusted_locations (num_at 0 d)) (cdf_derivatives quants (num_at 0 d)) 0 0 x)
          (quant_pl_dispatches cubic dspline q En)); auto.
        intros r x Hr. rewrite !H4 by auto. reflexivity.
      + destruct (String.eqb_spec name "piecewise_constant") as [En'|En'].
        * unfold g_eval, quant_obj. cbn [g_pdf]. unfold Kinds.val. rewrite (proj2 (String.eqb_neq _ _) En).
          apply (answers_pdf _ _ _ _ _ D (fun d x => hist_multi_point [adjusted_locations (num_at 0 d)] [cdf_derivatives_0 quants (num_at 0 d)] [cdf_2nd_derivatives quants (num_at 0 d)] x 0)
            (quant_pc_dispatches cubic dspline q En')); auto.
          intros r x Hr. unfold hist_multi_point, at2. rewrite !H4 by auto. reflexivity.
        * cbn [orb] in Hm. destruct Hm as [Hm|[Hm|[]]]; discriminate.
    - apply (answers_pdf _ _ _ _ _ D (fun d x => quad (num_at 0 d) quants 0 1 x) (quant_cdf_dispatches quad q H3)); auto.
      intros r x Hr. rewrite H2 by auto. reflexivity.
    - apply (answers_ppf _ _ _ _ D (fun d x => quad quants (num_at 0 d) 0 0 x) (quant_ppf_dispatches quad q H3)); auto.
      intros r x Hr Hx. rewrite H2 by auto. apply Hig. change (q_quants q) with quants. lra.
  Qed.
  Lemma quant_law quants name : ignores_fill -> good_kind (KQuant quants name) -> law (KQuant quants name).
  Proof.
    intros Hig Hk D d Hne HD Hc. pose proof Hk as (Hq & Hn & H0 & H1 & Hnm). open_call Hc. rewrite squeeze_grid in Hc by lia. rewrite !squeeze_single in Hc.
    unfold Kinds.kind_create. change (create_of _ (kind_name (KQuant quants name))) with (@quant_create R _ quad cubic dspline).
    rewrite Forall_forall in HD.
    assert (Hl : forall l, In l (map (num_at 0) D) -> length l = length quants).
    { intros l Hl. apply in_num_rows in Hl. destruct Hl as (d0 & Hd & ->). destruct (HD d0 Hd) as [Hf _]. eapply row_fits_num; [exact Hf|reflexivity]. }
    assert (Hdat : length (dat (nd2 (length quants) (map (num_at 0) D))) <> 0%nat).
    { destruct D as [|d0 D]; [congruence|]. cbn [nd2 dat concat map]. rewrite app_length, (Hl (num_at 0 d0)) by (left; auto). lia. }
    rewrite (quant_create_eq quants name _ d Hdat) by (destruct Hc; auto).
    destruct (quant_build_padded quants (map (num_at 0) D) name Hn ltac:(destruct D; [congruence|discriminate]) H0 H1 Hnm Hl) as (lo & hi & ->). cbn [bind].
    eexists. split; [reflexivity|]. apply quant_holds with lo hi; auto. rewrite map_length. reflexivity.
  Qed.

  (** *** Packed *)
  Lemma packing_of_of pt : pt <> OtherPacking -> packing_of (of_packing pt : R) = pt.
  Proof.
    unfold packing_of, of_packing. intros H.
    destruct pt; [| |congruence]; repeat match goal with |- context [neqb ?a ?b] => destruct (neqb_reflect a b) as [?E|?E]; revert E; numR; intros; try reflexivity; try (exfalso; lra) end.
  Qed.
  Lemma packed_create_eq xs (yp : nd Z) (ym : nd R) pt lf d : pt <> OtherPacking ->
    (exists a b, (a = VNum (of_packing pt) \/ a = VArr (nd0 (of_packing pt))) /\ (b = VNum lf \/ b = VArr (nd0 lf)) /\
      (d = [("xvals", VArr (nd1 xs)); ("packing_type", a); ("log_floor", b); ("ypacked", VByt yp); ("ymax", VArr ym)] \/
       d = [("ypacked", VByt yp); ("ymax", VArr ym); ("xvals", VArr (nd1 xs)); ("packing_type", a); ("log_floor", b)] \/
       d = [("xvals", VArr (nd1 xs)); ("ypacked", VByt yp); ("ymax", VArr ym); ("packing_type", a); ("log_floor", b)])) ->
    packed_create pow10R d = let* k := packed_ctor pow10R xs yp ym pt lf true in Ok (packed_obj (removelast (shp yp)) k).
  Proof.
    pose proof as_bool_1 as B. intros Hp. pose proof (packing_of_of pt Hp) as Ep.
    intros (a & b & Ha & Hb & Hd). assert (Sa : as_scalar a = Ok (of_packing pt)) by (destruct Ha as [->| ->]; reflexivity).
    assert (Sb : as_scalar b = Ok lf) by (destruct Hb as [->| ->]; reflexivity).
    destruct Hd as [->|[->| ->]]; unfold packed_create, opt_arg, arg; cbn -[as_bool as_scalar packed_ctor packed_obj packing_of]; rewrite Sa; cbn [bind]; rewrite Sb; cbn [bind]; chk B; rewrite Ep; reflexivity.
  Qed.
  Lemma unpack_rows_of pt lf D : pt <> OtherPacking ->
    unpack_array pow10R pt (Some lf) (map (fun d => bytes (cell_at 0 d)) D) (map (fun d => nth0 0 (num_at 1 d)) D) = Ok (map (unpacked pt lf) D).
  Proof.
    intros Hp. destruct pt; [| |congruence]; cbn [unpack_array]; f_equal; unfold linear_unpack, log_unpack, unpacked;
      induction D as [|d D IH]; try reflexivity; cbn [map map2]; rewrite IH; reflexivity.
  Qed.
  Lemma packed_law xs pt lf : good_kind (KPacked xs pt lf) -> law (KPacked xs pt lf).
  Proof.
    intros (Hs & Hn & Hp) D d Hne HD Hc. open_call Hc. rewrite squeeze_grid in Hc by lia. rewrite !squeeze_single in Hc.
    unfold Kinds.kind_create. change (create_of _ (kind_name (KPacked xs pt lf))) with (@packed_create R _ pow10R).
    rewrite Forall_forall in HD.
    assert (H0 : forall d, In d D -> length (bytes (cell_at 0 d)) = length xs).
    { intros d0 Hd. destruct (HD d0 Hd) as [Hf _]. eapply row_fits_byte; [exact Hf|reflexivity]. }
    assert (H1 : forall d, In d D -> num_at 1 d = [nth0 0 (num_at 1 d)]).
    { intros d0 Hd. destruct (HD d0 Hd) as [Hf _]. assert (E : length (num_at 1 d0) = 1%nat) by (eapply row_fits_num; [exact Hf|reflexivity]).
      destruct (num_at 1 d0) as [|t [|? ?]]; try discriminate. reflexivity. }
    set (pk := map (fun d => bytes (cell_at 0 d)) D) in *. set (ms := map (fun d => nth0 0 (num_at 1 d)) D).
    assert (Em : nd2 1 (map (num_at 1) D) = column ms).
    { unfold column, ms. f_equal. rewrite map_map. apply map_ext_in. auto. }
    rewrite Em in Hc.
    assert (Hpk : forall row, In row pk -> length row = length xs).
    { intros l Hl. apply in_map_iff in Hl. destruct Hl as (d0 & <- & Hd). auto. }
    rewrite (packed_create_eq xs (nd2 (length xs) pk) (column ms) pt lf d Hp) by (do 2 eexists; split; [right; reflexivity|split; [right; reflexivity|]]; destruct Hc; auto).
    pose proof (unpack_rows_of pt lf D Hp) as U.
    assert (Lpk : length pk = length D) by apply map_length. assert (Lms : length ms = length D) by apply map_length.
    rewrite (packed_build xs pk ms pt lf true (map (unpacked pt lf) D)) by (auto; try lia; try congruence; rewrite map_length; congruence).
    assert (Hul : forall d, In d D -> length (unpacked pt lf d) = length xs) by (intros d0 Hd; unfold unpacked; rewrite map_length; auto).
    rewrite interp_build by (try lia; intros l Hl; apply in_map_iff in Hl; destruct Hl as (d0 & <- & Hd); auto).
    cbn [bind]. rewrite !map_map, map_length. set (i := mkinterp xs _ _ _ : interp R). eexists. split; [reflexivity|].
    split; [reflexivity|]. split; [reflexivity|].
    split.
    { unfold cols, columns. cbn [columns_from kind_layout col_value g_data packed_obj k_table k_packed k_max i_xvals i]. rewrite !map_map.
      fold (column ms). change (map (fun x => nums (cell_at 1 x)) D) with (map (num_at 1) D).
      change (rows_nd [1%nat] (map (num_at 1) D)) with (nd2 1 (map (num_at 1) D)). rewrite Em. reflexivity. }
    split; [cbn [packed_obj g_shape nd2 shp removelast]; congruence|].
    destruct (interp_answers i D xs (unpacked pt lf) Hs Hn Hne eq_refl) as (A1 & A2 & A3).
    intros m Hm. destruct m; assumption.
  Qed.

  (** *** Sparse *)
  Lemma sparse_create_eq voigt sq xs (mu sig : R * R) dims n codes d :
    (3 <= length dims)%nat -> List.Forall (Z.le 0) dims -> (0 < n)%nat -> codes <> [] -> (forall c, In c codes -> length c = n) ->
    (d = [("xvals", VArr (nd1 xs)); ("mu", VArr (nd1 [fst mu; snd mu])); ("sig", VArr (nd1 [fst sig; snd sig])); ("dims", VByt (nd1 dims)); ("sparse_indices", VByt (nd2 n codes))] \/
     d = [("sparse_indices", VByt (nd2 n codes)); ("xvals", VArr (nd1 xs)); ("mu", VArr (nd1 [fst mu; snd mu])); ("sig", VArr (nd1 [fst sig; snd sig])); ("dims", VByt (nd1 dims))]) ->
    sparse_create voigt sq d =
    let* i := sparse_ctor voigt sq xs mu sig (Z.to_nat (nth 0 dims 0%Z)) (Z.to_nat (nth 1 dims 0%Z)) (Z.to_nat (nth 2 dims 0%Z)) (nfrac 1 100000) codes in
    Ok (sparse_obj i xs (VArr (nd1 [fst mu; snd mu])) (VArr (nd1 [fst sig; snd sig])) (VByt (nd1 dims)) (VByt (nd2 n codes))).
  Proof.
    intros H3 HF Hn Hne Hl Hd. destruct dims as [|a [|b [|c dims]]]; cbn [length] in H3; try lia.
    inversion HF as [|a' l' Ha HF1 E1]. inversion HF1 as [|a2 l2 Hb HF2 E2]. inversion HF2 as [|a3 l3 Hcz HF3 E3]. subst.
    destruct codes as [|c0 codes]; [congruence|]. destruct n as [|n]; [lia|]. destruct mu as [m1 m2], sig as [s1 s2]. cbn [fst snd] in *.
    pose proof (rows_of_nd2 (S n) (c0 :: codes) Hl) as ER.
    destruct Hd as [->| ->]; unfold sparse_create;
      cbn [arg vget dget String.eqb Ascii.eqb Bool.eqb bind known forallb keys map fst snd existsb orb andb negb opt_arg as_scalar as_grid as_pair as_bytes nd1 shp dat length Nat.eqb];
      (destruct (Z.ltb_spec a 0) as [C|_]; [lia|]; destruct (Z.ltb_spec b 0) as [C|_]; [lia|]; destruct (Z.ltb_spec c 0) as [C|_]; [lia|]);
      cbn [orb nth]; rewrite ER; reflexivity.
  Qed.
  Lemma sparse_law xs mu sig dims n : good_kind (KSparse xs mu sig dims n) -> law (KSparse xs mu sig dims n).
  Proof.
    intros (Hs & Hx & Hn & H3 & HF) D d Hne HD Hc. open_call Hc. rewrite (squeeze_grid xs), !squeeze_grid in Hc by (cbn [length]; lia).
    unfold Kinds.kind_create. change (create_of _ (kind_name (KSparse xs mu sig dims n))) with (@sparse_create R _ voigtR R_sqrt.sqrt).
    rewrite Forall_forall in HD.
    assert (H0 : forall d, In d D -> length (bytes (cell_at 0 d)) = n).
    { intros d0 Hd. destruct (HD d0 Hd) as [Hf _]. eapply row_fits_byte; [exact Hf|reflexivity]. }
    set (cs := map (fun d => bytes (cell_at 0 d)) D) in *.
    assert (Hcs : forall c, In c cs -> length c = n).
    { intros l Hl. apply in_map_iff in Hl. destruct Hl as (d0 & <- & Hd). auto. }
    rewrite (sparse_create_eq voigtR R_sqrt.sqrt xs mu sig dims n cs d H3 HF Hn) by (auto; try (unfold cs; destruct D; [congruence|discriminate]); destruct Hc; auto).
    assert (EM : sparse_ctor voigtR R_sqrt.sqrt xs mu sig (Z.to_nat (nth 0 dims 0%Z)) (Z.to_nat (nth 1 dims 0%Z)) (Z.to_nat (nth 2 dims 0%Z)) (nfrac 1 100000) cs =
      interp_ctor xs (nd2 (length xs) (map (fun d => sparse_values xs mu sig dims (bytes (cell_at 0 d))) D)) true).
    { unfold sparse_ctor.
      assert (E : mapM (fun inds => let '(ix, vals) := decode_sparse inds in weighted_sum (create_voigt_basis voigtR R_sqrt.sqrt xs mu (Z.to_nat (nth 0 dims 0%Z)) sig (Z.to_nat (nth 1 dims 0%Z)) (Z.to_nat (nth 2 dims 0%Z)) (nfrac 1 100000)) (length xs) ix vals) cs
        = Ok (map (fun d => sparse_sum xs mu sig dims (bytes (cell_at 0 d))) D)).
      { unfold cs. assert (HB : forall d, In d D -> sparse_line_ok xs mu sig dims (bytes (cell_at 0 d))) by (intros d0 Hd; exact (proj2 (HD d0 Hd))).
        clear - HB H3 HF. induction D as [|d0 D IH]; [reflexivity|]. cbn [map mapM].
        destruct (HB d0 (or_introl eq_refl)) as [Hb _]. unfold sparse_sum at 1. destruct (decode_sparse (bytes (cell_at 0 d0))) as [ix vals] eqn:E.
        cbn [fst snd] in Hb. rewrite weighted_sum_ok.
        - cbn [bind]. rewrite IH by (intros; apply HB; right; auto). reflexivity.
        - apply (f_equal (fun p => (length (fst p), length (snd p)))) in E. cbn [fst snd] in E. unfold decode_sparse in E. cbn [fst snd] in E. injection E as <- <-.
          unfold decode_weights. rewrite !map_length. destruct (bytes (cell_at 0 d0)); [reflexivity|]. cbn [map length]. rewrite !map_length. reflexivity.
        - intros b Ib. specialize (Hb b Ib).
          assert (G : forall j, (j < 3)%nat -> (0 <= nth j dims 0)%Z) by (intros j Hj; rewrite Forall_forall in HF; apply HF, nth_In; lia).
          pose proof (G 0%nat ltac:(lia)). pose proof (G 1%nat ltac:(lia)). pose proof (G 2%nat ltac:(lia)). apply Nat2Z.inj_lt. rewrite !Nat2Z.inj_mul, !Z2Nat.id by assumption. exact Hb. }
      rewrite E. cbn [bind]. rewrite map_map. reflexivity. }
    rewrite EM, interp_build
      by (try lia; intros l Hl; apply in_map_iff in Hl; destruct Hl as (d0 & <- & Hd); unfold sparse_values, sparse_sum; rewrite !map_length; apply seq_length).
    cbn [bind]. rewrite !map_map, map_length. set (i := mkinterp xs _ _ _ : interp R). eexists. split; [reflexivity|].
    split; [reflexivity|]. split; [reflexivity|].
    split; [unfold cols, columns; cbn [columns_from kind_layout col_value g_data sparse_obj]; rewrite ?map_map; reflexivity|].
    split; [reflexivity|].
    destruct (interp_answers i D xs (fun d => sparse_values xs mu sig dims (bytes (cell_at 0 d))) Hs Hx Hne eq_refl) as (A1 & A2 & A3).
    intros m Hm. destruct m; assumption.
  Qed.

  (** *** Splines *)
  Lemma spline_create_eq n w (x y k : list (list R)) d :
    d = [("splx", VArr (nd2 n x)); ("sply", VArr (nd2 n y)); ("spln", VArr (nd2 w k))] ->
    spline_create d = let* s := spline_ctor (nd2 n x) (nd2 n y) (nd2 w k) in Ok (spline_obj n w s : gobj R).
  Proof. intros ->. reflexivity. Qed.
  Lemma spline_law n : good_kind (KSpline n) -> law (KSpline n).
  Proof.
    intros Hn D d Hne HD Hc. simpl in Hn. open_call Hc.
    unfold Kinds.kind_create. change (create_of _ (kind_name (KSpline n))) with (@spline_create R _).
    rewrite Forall_forall in HD.
    assert (Hl : forall j, (j < 2)%nat -> forall l, In l (map (num_at j) D) -> length l = n).
    { intros j Hj l Hl'. apply in_num_rows in Hl'. destruct Hl' as (d0 & Hd & ->). destruct (HD d0 Hd) as [Hf _].
      destruct j as [|[|j]]; [| |lia]; (eapply row_fits_num; [exact Hf|reflexivity]). }
    assert (Hl2 : forall l, In l (map (num_at 2) D) -> length l = 1%nat).
    { intros l Hl'. apply in_num_rows in Hl'. destruct Hl' as (d0 & Hd & ->). destruct (HD d0 Hd) as [Hf _]. eapply row_fits_num; [exact Hf|reflexivity]. }
    rewrite (spline_create_eq n 1 (map (num_at 0) D) (map (num_at 1) D) (map (num_at 2) D) d) by (destruct Hc; auto).
    assert (Hx : map (num_at 0) D <> []) by (destruct D; [congruence|discriminate]).
    assert (Hy : length (map (num_at 1) D) = length (map (num_at 0) D)) by (rewrite !map_length; reflexivity).
    rewrite (spline_build n 1 _ _ _ Hn Hx Hy (Hl 0%nat ltac:(lia)) (Hl 1%nat ltac:(lia)) Hl2). cbn [bind]. rewrite map_length.
    eexists. split; [reflexivity|]. split; [reflexivity|]. split; [reflexivity|]. split; [same_cols|]. split; [reflexivity|].
    set (s := mkspline _ _ _ _ _ : spline R). assert (Hs : orders_ok s = Ok tt).
    { apply spline_orders; [cbn [s sp_n sp_x]; rewrite !map_length; lia|]. intros l Hl'. apply in_num_rows in Hl'. destruct Hl' as (d0 & Hd & ->).
      destruct (HD d0 Hd) as (_ & k & Hk & _ & ->). exists k. auto. }
    assert (Np : sp_npdf s = length D) by (unfold sp_npdf; cbn [s sp_x]; apply map_length).
    assert (Hp : (0 < length D)%nat) by (destruct D; [congruence|simpl; lia]).
    intros m Hm. destruct m; [| |destruct Hm as [Hm|[Hm|[]]]; discriminate].
    - destruct (spline_pointwise_pdf s Hs) as (A1 & A2). rewrite Np in A1, A2.
      eapply answers_always; [apply A1; exact Hp|reflexivity|intros X w E1 (_ & HX & HlX); apply (A2 X w); [exact E1|exact HX|exact HlX]|].
      intros r x Hr. cbn [Kinds.val]. unfold order_of. cbn [s sp_x sp_y sp_n]. rewrite !nth_num_rows by exact Hr. reflexivity.
    - destruct (spline_pointwise_cdf s Hs) as (A1 & A2). rewrite Np in A1, A2.
      eapply answers_always; [apply A1; exact Hp|reflexivity|intros X w E1 (_ & HX & HlX); apply (A2 X w); [exact E1|exact HX|exact HlX]|].
      intros r x Hr. cbn [Kinds.val]. unfold order_of. cbn [s sp_x sp_y sp_n sp_min]. rewrite !nth_num_rows by exact Hr. apply f_equal.
      assert (Hd : In (nth r D []) D) by (apply nth_In; exact Hr). destruct (HD _ Hd) as (_ & k & Hk & Hkn & Ek).
      assert (Eo : Z.to_nat (nfloor (nth0 0 (num_at 2 (nth r D [])))) = k) by (rewrite Ek; apply order_value).
      assert (Ln : length (num_at 0 (nth r D [])) = n) by (apply (Hl 0%nat); [lia|apply in_map; exact Hd]).
      pose proof (splint_low (num_at 0 (nth r D [])) (num_at 1 (nth r D [])) k (nminimum (nhead (concat (map (num_at 0) D))) (tl (concat (map (num_at 0) D))))
        (nminimum (nhead (num_at 0 (nth r D []))) (tl (num_at 0 (nth r D [])))) x) as G. rewrite Ln in G. rewrite <- Eo in G at 2 3. apply G; [exact Hkn| |].
      + intros y Iy. apply min_in_list. apply in_concat. exists (num_at 0 (nth r D [])). split; [apply in_map; exact Hd|exact Iy].
      + intros y Iy. apply min_in_list. exact Iy.
  Qed.

  (** *** scipy's norm *)
  Lemma norm_law : law KNorm.
  Proof.
    intros D d Hne HD Hc. open_call Hc. rewrite Forall_forall in HD.
    assert (H1 : forall j d, (j < 2)%nat -> In d D -> num_at j d = [nth0 0 (num_at j d)]).
    { intros j d0 Hj Hd. destruct (HD d0 Hd) as [Hf _].
      assert (E : length (num_at j d0) = 1%nat) by (destruct j as [|[|j]]; [| |lia]; (eapply row_fits_num; [exact Hf|reflexivity])).
      destruct (num_at j d0) as [|t [|? ?]]; try discriminate. reflexivity. }
    assert (Hd : d = cols KNorm D) by (unfold cols, columns; cbn [columns_from kind_layout col_value]; rewrite !map_map; destruct Hc; auto). clear Hc.
    assert (Hc : d = [("loc", VArr (nd2 1 (map (num_at 0) D))); ("scale", VArr (nd2 1 (map (num_at 1) D)))])
      by (rewrite Hd; unfold cols, columns; cbn [columns_from kind_layout col_value]; rewrite !map_map; reflexivity).
    unfold Kinds.kind_create.
    assert (Hs : wrap_shape d = Ok [length D]).
    { rewrite Hc. unfold wrap_shape. cbn [forallb snd v_shape nd2 shp]. rewrite !map_length.
      destruct (list_eq_dec Nat.eq_dec [length D; 1%nat] [length D; 1%nat]); [reflexivity|congruence]. }
    change (create_of _ (kind_name KNorm) d) with (wrap_create "norm" [] (norm_pdf phi) (norm_cdf Phi) (norm_ppf Phinv) d).
    unfold wrap_create. replace (known ["loc"; "scale"] d) with true by (rewrite Hc; reflexivity). cbn [negb]. rewrite Hs. cbn [bind].
    eexists. split; [reflexivity|]. split; [reflexivity|]. split; [reflexivity|]. split; [exact Hd|]. split; [reflexivity|].
    assert (Hpr : prod [length D] = length D) by (unfold prod; simpl; lia).
    assert (Hcol : forall j, (j < 2)%nat -> concat (map (num_at j) D) = map (fun d => nth0 0 (num_at j d)) D).
    { intros j Hj. clear - H1 Hj. induction D as [|d D IH]; [reflexivity|]. cbn [map concat]. rewrite IH by (intros; apply H1; auto; right; auto).
      rewrite (H1 j d Hj (or_introl eq_refl)) at 1. reflexivity. }
    assert (Hdat : forall (l : list R) r, (r < length l)%nat -> pick r l = nth0 r l).
    { intros [|a [|b l]] [|r] Hr; try reflexivity; simpl in Hr; lia. }
    assert (Hp : forall r s, (r < length D)%nat -> s = "loc" \/ s = "scale" ->
               param d r s = (if String.eqb s "loc" then nth0 0 (num_at 0 (nth r D [])) else nth0 0 (num_at 1 (nth r D [])))).
    { intros r s Hr. assert (Hc2 : forall j, (j < 2)%nat -> pick r (concat (map (num_at j) D)) = nth0 0 (num_at j (nth r D []))).
      { intros j Hj. rewrite (Hdat (concat (map (num_at j) D)) r) by (rewrite Hcol, map_length by auto; auto). rewrite Hcol by auto. unfold nth0 at 1.
        exact (nth_map_in (fun d => nth0 0 (num_at j d)) D r _ [] Hr). }
      rewrite Hc. intros [->| ->]; [exact (Hc2 0%nat ltac:(lia))|exact (Hc2 1%nat ltac:(lia))]. }
    assert (G : forall (f : (string -> R) -> R -> xnum R) v, (forall p p' x, p "loc" = p' "loc" -> p "scale" = p' "scale" -> f p x = f p' x) ->
       (forall d x, In d D -> v d x = f (fun s => if String.eqb s "loc" then nth0 0 (num_at 0 d) else nth0 0 (num_at 1 d)) x) ->
       forall dm, answers dm (wrap_eval f d (prod [length D])) D v).
    { intros f v Hf Hv dm. rewrite Hpr.
      assert (Gr : forall l, wrap_eval f d (length D) (PGrid l) = Ok (map (fun d => map (v d) l) D)).
      { intros l. unfold wrap_eval. cbn [broadcast_points bind]. f_equal. rewrite <- map_seq_rows.
        assert (K : forall n s, (s + n <= length D)%nat -> map2 (fun l r => map (f (param d r)) l) (repeat l n) (seq s n) = map (fun r => map (v (nth r D [])) l) (seq s n)).
        { induction n; intros s Hsn; [reflexivity|]. cbn [repeat seq map2 map]. f_equal; [|apply IHn; lia].
          apply map_ext. intros x. rewrite Hv by (apply nth_In; lia). apply Hf; rewrite Hp by (auto; lia); reflexivity. }
        apply K. lia. }
      assert (Pw : forall r x, (r < length D)%nat -> f (param d r) x = v (nth r D []) x) by (intros r x Hr; rewrite Hv by (apply nth_In; auto); apply Hf; rewrite Hp by (auto; lia); reflexivity).
      split; [|split; [intros; apply Gr|split; [|split; [|split; [intros; apply Gr|]]]]].
      4:{ intros l _ _. rewrite <- Gr. unfold wrap_eval. cbn [broadcast_points]. rewrite repeat_length, Nat.eqb_refl. reflexivity. }
      2:{ intros X w (_ & _ & Hl) HL _ _. unfold wrap_eval. cbn [broadcast_points]. rewrite HL, Nat.eqb_refl. cbn [bind]. f_equal.
          rewrite <- (map2_seq_rows (fun d l => map (v d) l)) by exact HL. rewrite <- HL.
          assert (K : forall Y s, (s + length Y <= length D)%nat -> map2 (fun l r => map (f (param d r)) l) Y (seq s (length Y)) = map (fun r => map (v (nth r D [])) (nth (r - s) Y [])) (seq s (length Y))).
          { clear - Pw. induction Y as [|l Y IH]; intros s Hs; [reflexivity|]. cbn [length seq map2 map]. rewrite Nat.sub_diag. cbn [nth]. f_equal; [apply map_ext; intros x; apply Pw; simpl in Hs; lia|].
            rewrite IH by (simpl in Hs; lia). apply map_ext_in. intros r Hr. apply in_seq in Hr. replace (r - s)%nat with (S (r - S s)) by lia. reflexivity. }
          rewrite K by lia. apply map_ext. intros r. rewrite Nat.sub_0_r. reflexivity. }
      2:{ intros X w d0 (_ & HX & Hl) ED _. subst D. cbn [length] in *. unfold wrap_eval.
          assert (Eb : broadcast_points 1 (PMat X) = Ok (X, repeat 0%nat (length X))).
          { cbn [broadcast_points]. destruct (Nat.eqb_spec (length X) 1) as [E|E]; [rewrite E; reflexivity|reflexivity]. }
          rewrite Eb. cbn [bind]. f_equal. clear - Pw. induction X as [|l X IH]; [reflexivity|]. cbn [length repeat map2 map]. f_equal; [apply map_ext; intros x; apply (Pw 0%nat x); lia|exact IH]. }
      intros t. change (wrap_eval f d (length D) (PScalar t)) with (wrap_eval f d (length D) (PGrid [t])).
      rewrite Gr. reflexivity. }
    assert (Hsc : forall d, In d D -> nltb n0 (nth0 0 (num_at 1 d)) = true).
    { intros d0 Hd0. destruct (HD d0 Hd0) as [_ Hs0]. cbn in Hs0. destruct (nltb_reflect n0 (nth0 0 (num_at 1 d0))) as [_|C]; [reflexivity|]. exfalso. apply C. exact Hs0. }
    intros m Hm. destruct m; apply G; try (intros p p' x E1 E2; unfold norm_pdf, norm_cdf, norm_ppf; rewrite E1, E2; reflexivity);
      intros d0 x Hd0; unfold norm_pdf, norm_cdf, norm_ppf; cbn [String.eqb Ascii.eqb Bool.eqb]; rewrite (Hsc d0 Hd0); reflexivity.
  Qed.

  Lemma kind_law k : ignores_fill -> good_kind k -> law k.
  Proof.
    intros Hig Hk. destruct k.
    - apply hist_law; auto. - apply interp_law; auto. - apply irr_law; auto. - apply mix_law; auto.
    - apply quant_law; auto. - apply packed_law; auto. - apply spline_law; auto. - apply sparse_law; auto. - apply norm_law.
  Qed.
End Law.
