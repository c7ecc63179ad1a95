(** A property of the rows of all valid inputs is a property of the rows of every reachable
    ensemble; in particular all reachable PDFs are proper. *)
From Coq Require Import String List Arith ZArith Bool Lia Reals Lra.
From Coquelicot Require Import Coquelicot.
From Verif Require Import Num NumProofs Py NdArray NumpyLib Utils ScipyWrap Spec Values Ensemble Classes
  HistPdf InterpPdf QuantPdf MixmodPdf Packing PackedPdf
  SortProofs BinProofs EvalProofs NdProofs InterpProofs HistProofs HistTheorems TableProofs InterpPdfProofs GridTheorems IrrTheorems
  QuantTheorems MixmodTheorems PackingTheorems PackedTheorems Sparse SparseTheorems Kinds KindProofs EnsembleProofs KindInputs ReachProofs AppendProofs EnsembleTheorems.
Import ListNotations.
Local Open Scope string_scope.
Local Open Scope list_scope.
Local Open Scope R_scope.

Section Rows.
  Variable X : scipy.
  Hypothesis HX : fill_outside X.
  Variable P : kind -> row -> Prop.
  Hypothesis HP : forall i, input_ok i -> List.Forall (P (input_kind i)) (input_rows i).
  Notation phi := (s_phi X). Notation Phi := (s_Phi X). Notation quad := (s_quad X).
  Notation cubic := (s_cubic X). Notation dspline := (s_dspline X). Notation Phinv := (s_Phinv X).
  Notation represents := (EnsembleProofs.represents phi Phi quad cubic dspline Phinv).
  Definition rows_rep (e : ens R) : Prop := exists k D, represents k D e /\ List.Forall (P k) D.
  Lemma rows_same (e e' : ens R) : e_func e' = e_func e -> e_obj e' = e_obj e -> rows_rep e -> rows_rep e'.
  Proof using.
    intros Hf Ho (k & D & (Hk & Hne & HD & (Hfun & Hc) & Hh) & Hp). exists k, D. unfold EnsembleProofs.represents. rewrite Hf, Ho. repeat split; auto; apply Hh; auto.
  Qed.
  Lemma rows_new i anc e : input_ok i -> ens_new (create_of (qp X) (input_name i)) (input_dict i) anc = Ok e -> rows_rep e.
  Proof.
    intros Hi E. destruct (input_holds phi Phi quad cubic dspline Phinv HX i Hi) as (Hk & HD & g & Eg & Hg & Hc).
    apply ens_new_inv in E. destruct E as (g' & Eg' & Ha & ->).
    exists (input_kind i), (input_rows i). split; [|apply HP; auto].
    rewrite <- (input_kind_name i) in Eg'. unfold qp in Eg'. unfold Kinds.kind_create in Eg. rewrite Eg in Eg'. injection Eg' as <-.
    split; [exact Hk|]. split; [apply rows_ne; auto|]. split; [exact HD|]. split; [split; [|exact Hc]|exact Hg].
    cbn [e_func]. unfold Kinds.kind_create. rewrite input_kind_name. reflexivity.
  Qed.
  Lemma rows_list k0 (e0 : ens R) es z D0 : represents k0 D0 e0 -> concatenate_dicts (map objdata (e0 :: es)) = Ok z ->
    (forall e, In e es -> rows_rep e) -> (forall e, In e es -> metadata e = metadata e0) ->
    exists Ds, Forall2 (represents k0) Ds es /\ List.Forall (List.Forall (P k0)) Ds.
  Proof using.
    intros H0 Hz Hr Hm. assert (G : forall l, incl l es -> exists Ds, Forall2 (represents k0) Ds l /\ List.Forall (List.Forall (P k0)) Ds).
    { induction l as [|e l IH]; intros Hi; [exists []; split; constructor|].
      destruct IH as (Ds & HDs & Hps); [intros x Hx; apply Hi; right; auto|].
      assert (He : In e es) by (apply Hi; left; auto). destruct (Hr e He) as (k & D & HD & Hp).
      pose proof (kinds_equal phi Phi quad cubic dspline Phinv k0 D0 e0 es z H0 Hz e k D He HD (Hm e He)) as Ek. subst k. exists (D :: Ds). split; constructor; auto. }
    apply G. apply incl_refl.
  Qed.
  Lemma Forall_concat {A} (Q : A -> Prop) ls : List.Forall (List.Forall Q) ls -> List.Forall Q (concat ls).
  Proof using. induction 1; simpl; [constructor|]. apply Forall_app. auto. Qed.
  Lemma made_rows M e : made X M e -> rows_rep e.
  Proof.
    unfold made. induction 1 as [i anc e Hi E|M e key ps e' _ (k & D & HD & Hp) Hk Hps E|M e0 es e' _ (k & D & HD & Hp) _ IHes Hmeta E
                   |M a b a' _ (k & D & HD & Hp) _ IHb Hmeta E|M e i anc e' _ (k & D & HD & Hp) Hi Hname E
                   |M e e' _ (k & D & HD & Hp) E|M e anc e' _ IH E|M e d e' _ IH E|M e g _ IH|M e g _ IH|M e n lo hi dx _ IH].
    - eapply rows_new; eauto.
    - rewrite (rep_npdf _ _ _ _ _ _ _ _ _ HD) in Hk.
      destruct (getitem_inv phi Phi quad cubic dspline Phinv HX k D e key e' HD E) as (ps' & Hk' & Hr). rewrite Hk in Hk'. injection Hk' as <-.
      exists k, (select [] D ps). split; [auto|]. rewrite Forall_forall in *. intros d Hd. apply Hp. eapply select_in; [|exact Hd]. exact (key_positions_lt _ _ _ Hk).
    - destruct (concat_data_ok _ _ E) as (z & Hz). destruct (rows_list k e0 es z D HD Hz IHes Hmeta) as (Ds & HDs & Hps).
      exists k, (concat (D :: Ds)). split.
      + eapply (concatenate_inv phi Phi quad cubic dspline Phinv HX); [|constructor; eauto|exact E]. discriminate.
      + apply Forall_concat. constructor; auto.
    - destruct (pair_data_ok a b a' E) as (z & Hz).
      destruct (rows_list k a [b] z D HD Hz) as (Ds & HDs & Hps); [intros x [<-|[]]; auto|intros x [<-|[]]; auto|].
      inversion HDs as [|Db ? Ds' ? HDb Hnil]; subst. inversion Hnil; subst. inversion Hps as [|? ? Hpb _]; subst.
      rewrite (append_eq phi Phi quad cubic dspline Phinv k D Db a b HD HDb) in E.
      destruct (joined_ancil (e_ancil a) (e_ancil b)) as [anc|]; [|discriminate]. apply update_ok in E.
      exists k, (D ++ Db). split; [|apply Forall_app; auto].
      pose proof HD as (G & Hne & Hall & (Hf & _) & _). pose proof HDb as (_ & _ & Hallb & _).
      rewrite Hf in E. apply (new_rep phi Phi quad cubic dspline Phinv HX k (D ++ Db) (kind_args k ++ cols k (D ++ Db)) anc); auto.
      + destruct D; [congruence|discriminate].
      + apply Forall_app. auto.
      + left. reflexivity.
    - apply update_ok in E. pose proof HD as (_ & _ & _ & (Hf & _) & (Hn & _)). rewrite Hf in E. unfold Kinds.kind_create in E.
      rewrite <- Hn, <- Hname in E. eapply rows_new; eauto.
    - rewrite (from_tables_eq phi Phi quad cubic dspline Phinv k D e HD) in E. exists k, D. split; [|exact Hp].
      pose proof HD as (G & Hne & Hall & _ & _). eapply (new_rep phi Phi quad cubic dspline Phinv HX); eauto. left. reflexivity.
    - unfold set_ancil in E. destruct (check_array_shapes anc (e_npdf e)) as [[]|]; [|discriminate]. injection E as <-. eapply rows_same; [| |exact IH]; auto.
    - unfold add_to_ancil in E. destruct (check_columns d (e_npdf e)) as [[]|]; [|discriminate].
      destruct (e_ancil e); [|discriminate]. injection E as <-. eapply rows_same; [| |exact IH]; auto.
    - destruct (gridded_obj e g) as (H1 & H2 & _). eapply rows_same; [exact H1|exact H2|exact IH].
    - assert (E : snd (mode e g) = snd (gridded e g)).
      { unfold mode. destruct (gridded e g) as [[[g0 v0]|] e1]; [destruct (length g0 =? 0)%nat|]; reflexivity. }
      rewrite E. destruct (gridded_obj e g) as (H1 & H2 & _). eapply rows_same; [exact H1|exact H2|exact IH].
    - assert (E : snd (moment_partial e n lo hi dx) = e \/ exists g, snd (moment_partial e n lo hi dx) = snd (gridded e g)).
      { unfold moment_partial. destruct (_ <? 0)%Z; [left; reflexivity|right]. exists (np_linspace lo hi (Z.to_nat (int_trunc (ndiv (nsub hi lo) dx)))).
        destruct (gridded e _) as [[[g0 v0]|] e1]; reflexivity. }
      destruct E as [->|(g & ->)]; [exact IH|].
      destruct (gridded_obj e g) as (H1 & H2 & _). eapply rows_same; [exact H1|exact H2|exact IH].
  Qed.
End Rows.

(** ** Proper distributions *)
Definition proper_dist (f F : R -> R) : Prop :=
  (forall x, 0 <= f x) /\ (forall x y, x <= y -> F x <= F y) /\ (forall x, 0 <= F x <= 1).
Definition proper (X : scipy) (k : kind) (d : row) : Prop :=
  match k with
  | KQuant _ _ | KSpline _ => True
  | _ => exists f F, (forall x, val (s_phi X) (s_Phi X) (s_quad X) (s_Phinv X) k MPdf d x = Fin (f x)) /\
                     (forall x, val (s_phi X) (s_Phi X) (s_quad X) (s_Phinv X) k MCdf d x = Fin (F x)) /\ proper_dist f F
  end.
(** the table of all PDFs at one point, read row by row *)
Lemma read_rows {B} (D : list row) (v : row -> B) (F : nat -> B) n : Ok (map (fun d => [v d]) D) = Ok (map (fun r => [F r]) (seq 0 n)) ->
  length D = n /\ forall r, (r < n)%nat -> v (nth r D []) = F r.
Proof.
  intros E. injection E as E. assert (L : length D = n) by (apply (f_equal (@length _)) in E; rewrite !map_length, seq_length in E; exact E).
  split; [exact L|]. intros r Hr.
  assert (E2 : nth_error (map (fun d => [v d]) D) r = nth_error (map (fun r => [F r]) (seq 0 n)) r) by (rewrite E; reflexivity).
  rewrite (map_nth_error (fun d => [v d]) r D (d := nth r D [])) in E2 by (apply nth_error_nth'; lia).
  rewrite (map_nth_error (fun r => [F r]) r (seq 0 n) (d := r)) in E2.
  - congruence.
  - rewrite (nth_error_nth' _ 0%nat) by (rewrite seq_length; auto). rewrite seq_nth by auto. reflexivity.
Qed.
Lemma answers_read m g (D : list row) v n F : answers (dom m) (g_eval m g) D v -> evaluates (g_eval m g) n F ->
  length D = n /\ forall r x, (r < n)%nat -> v (nth r D []) x = Fin (F r x).
Proof.
  intros [Ha _] He. assert (H : forall x, length D = n /\ forall r, (r < n)%nat -> v (nth r D []) x = Fin (F r x)).
  { intros x. apply (read_rows D (fun d => v d x) (fun r => Fin (F r x))). rewrite <- Ha. apply He. }
  split; [apply (H 0)|]. intros r x. apply H.
Qed.
Lemma proper_rows X k D g n f F : (forall q nm, k <> KQuant q nm) -> In MPdf (methods k) -> In MCdf (methods k) ->
  Kinds.holds (s_phi X) (s_Phi X) (s_quad X) (s_Phinv X) k D g -> evaluates (g_pdf g) n f -> evaluates (g_cdf g) n F ->
  (forall r, (r < n)%nat -> proper_dist (f r) (F r)) -> List.Forall (proper X k) D.
Proof.
  intros Hk H1 H2 (_ & _ & _ & _ & Ha) Hf HF Hp.
  destruct (answers_read MPdf g D _ n f (Ha _ H1) Hf) as [L R1]. destruct (answers_read MCdf g D _ n F (Ha _ H2) HF) as [_ R2].
  apply Forall_forall. intros d Hd. apply (In_nth _ _ []) in Hd. destruct Hd as (r & Hr & <-). assert (Hn : (r < n)%nat) by (rewrite <- L; exact Hr).
  assert (G : exists f F, (forall x, val (s_phi X) (s_Phi X) (s_quad X) (s_Phinv X) k MPdf (nth r D []) x = Fin (f x)) /\
                     (forall x, val (s_phi X) (s_Phi X) (s_quad X) (s_Phinv X) k MCdf (nth r D []) x = Fin (F x)) /\ proper_dist f F).
  { exists (f r), (F r). split; [intros x; apply R1; auto|]. split; [intros x; apply R2; auto|]. apply Hp; auto. }
  unfold proper. destruct k; auto.
Qed.
(** the tables of interpolated classes *)
Lemma interp_val_proper xs ys : interp_input xs [ys] ->
  exists f F, (forall x, interp_val xs ys MPdf x = Fin (f x)) /\ (forall x, interp_val xs ys MCdf x = Fin (F x)) /\ proper_dist f F.
Proof.
  intros Hi. destruct (c08 xs [ys] Hi) as (i & Ei & f & Ef & Hf). destruct (c09 xs [ys] i Hi Ei) as (C9 & F & Q9 & EF & HF).
  pose proof Hi as (Hs & Hn & _ & Hr).
  assert (Eb : i = mkinterp xs (map (fun d => inorm xs (num_at 0 d)) [[Nums ys]]) (map (fun d => icum xs (num_at 0 d)) [[Nums ys]]) [length [[Nums ys]]]).
  { rewrite (interp_build xs [ys] true) in Ei by (try lia; intros row [<-|[]]; apply Hr; left; reflexivity). injection Ei as <-. reflexivity. }
  destruct (interp_answers i [[Nums ys]] xs (num_at 0) Hs Hn ltac:(discriminate) Eb) as ([A1 _] & [A2 _] & _).
  exists (f 0%nat), (F 0%nat). split; [|split].
  - intros x. specialize (A1 x). rewrite Ef in A1. injection A1 as A1. rewrite A1. reflexivity.
  - intros x. specialize (A2 x). rewrite EF in A2. injection A2 as A2. rewrite A2. reflexivity.
  - destruct (Hf 0%nat (Nat.lt_0_succ 0)) as (F1 & _). destruct (HF 0%nat (Nat.lt_0_succ 0)) as (G1 & G2 & _). split; [exact F1|split; [exact G1|exact G2]].
Qed.
Lemma pvalue_pos pt lf m b : legal pt lf -> 0 < m -> (0 <= b <= 255)%Z ->
  0 <= (match pt with LinearFromRowmax => linear_value m | _ => log_value pow10R lf m end) b /\
  ((0 < b)%Z -> 0 < (match pt with LinearFromRowmax => linear_value m | _ => log_value pow10R lf m end) b).
Proof.
  intros [->|[-> Hlf]] Hm Hb.
  - split; [apply linear_value_range; auto|]. intros H. apply IZR_lt in H. unfold linear_value. numR. apply Rmult_lt_0_compat; [|lra]. nra.
  - split; [apply value_range; auto|]. intros H. rewrite log_value_eq. destruct (Z.eqb_spec b 0); [lia|]. apply Rmult_lt_0_compat; auto.
    unfold pow10R. apply exp_pos.
Qed.
Lemma unpacked_input xs p m pt lf : increasing xs -> (2 <= length xs)%nat -> length p = length xs -> (forall b, In b p -> (0 <= b <= 255)%Z) ->
  (exists b, In b p /\ (0 < b)%Z) -> 0 < m -> legal pt lf -> interp_input xs [unpacked pt lf [Bytes p; Nums [m]]].
Proof.
  intros Hs Hn Hl Hb (b & Ib & Pb) Hm Hg. set (ys := unpacked pt lf _).
  assert (Ey : ys = map (match pt with LinearFromRowmax => linear_value m | _ => log_value pow10R lf m end) p) by reflexivity.
  assert (L : length ys = length xs) by (rewrite Ey, map_length; auto).
  assert (Hp : packable ys).
  { rewrite Ey. split.
    - intros i Hi. rewrite map_length in Hi. unfold nth0. erewrite (nth_map_in _ p i n0 0%Z Hi). apply pvalue_pos; auto. apply Hb, nth_In; auto.
    - destruct (In_nth p b 0%Z Ib) as (i & Hi & <-). exists i. rewrite map_length. split; auto.
      unfold nth0. erewrite (nth_map_in _ p i n0 0%Z Hi). apply pvalue_pos; auto. }
  split; [auto|]. split; [auto|]. split; [discriminate|]. intros row [<-|[]]. split; [auto|]. split; [apply Hp|]. apply area_pos; auto.
Qed.
Lemma inorm_input xs row : interp_input xs [row] -> interp_input xs [inorm xs row].
Proof.
  intros Hi. pose proof Hi as (Hs & Hn & _ & Hr). destruct (Hr row (or_introl eq_refl)) as (L & H0 & Ha).
  destruct (interp_packable xs [row] Hi row (or_introl eq_refl)) as (P1 & k & Hk & Pk).
  assert (E : nlast (ycumul_row xs row) = area xs row) by (apply yc_last; auto).
  change (0 < area xs row) in Ha. assert (Hia : 0 < / area xs row) by (apply Rinv_0_lt_compat; auto).
  assert (L' : length (inorm xs row) = length xs) by (unfold inorm; rewrite map_length; auto).
  assert (En : forall i, nth0 i (inorm xs row) = nth0 i row * / area xs row) by (intros i; unfold inorm; rewrite nth0_map_div, E; reflexivity).
  assert (Hp : packable (inorm xs row)).
  { split.
    - intros i Hi'. rewrite En. apply Rmult_le_pos; [apply H0; lia|lra].
    - exists k. rewrite En, L'. split; [lia|]. apply Rmult_lt_0_compat; auto. }
  split; [auto|]. split; [auto|]. split; [discriminate|]. intros r [<-|[]]. split; [auto|]. split; [apply Hp|]. apply area_pos; auto.
Qed.
Lemma sparse_input xs mu sig dims line : increasing xs -> (2 <= length xs)%nat -> sparse_line_ok xs mu sig dims line -> interp_input xs [sparse_values xs mu sig dims line].
Proof.
  intros Hs Hn (_ & Hp & _). assert (L : length (sparse_sum xs mu sig dims line) = length xs) by (unfold sparse_sum; rewrite map_length; apply seq_length).
  assert (Ha : 0 < area xs (sparse_sum xs mu sig dims line)) by (apply area_pos; auto).
  assert (Hi : 0 < / area xs (sparse_sum xs mu sig dims line)) by (apply Rinv_0_lt_compat; exact Ha).
  assert (L' : length (sparse_values xs mu sig dims line) = length xs) by (unfold sparse_values; rewrite map_length; exact L).
  assert (En : forall i, (i < length xs)%nat -> nth0 i (sparse_values xs mu sig dims line) = nth0 i (sparse_sum xs mu sig dims line) * / area xs (sparse_sum xs mu sig dims line)).
  { intros i Hi'. unfold sparse_values, nth0. rewrite (nth_map_in _ _ _ _ 0) by (rewrite L; exact Hi'). rewrite trapezoid_area by exact L. reflexivity. }
  destruct Hp as [P0 (k & Hk & Pk)].
  assert (Hq : packable (sparse_values xs mu sig dims line)).
  { split.
    - intros i Hi'. rewrite L' in Hi'. rewrite En by exact Hi'. apply Rmult_le_pos; [apply P0; rewrite L; exact Hi'|lra].
    - exists k. rewrite L in Hk. rewrite L', En by exact Hk. split; [exact Hk|]. apply Rmult_lt_0_compat; auto. }
  split; [auto|]. split; [auto|]. split; [discriminate|]. intros r [<-|[]]. split; [auto|]. split; [apply Hq|]. apply area_pos; auto.
Qed.
Lemma inputs_proper X : fill_outside X -> normal_laws (s_phi X) (s_Phi X) ->
  forall i, input_ok i -> List.Forall (proper X (input_kind i)) (input_rows i).
Proof.
  intros HX HN i Hi. pose proof (input_holds (s_phi X) (s_Phi X) (s_quad X) (s_cubic X) (s_dspline X) (s_Phinv X) HX i Hi) as (_ & _ & g & Eg & Hh & _).
  destruct i as [bins rows|xs rows|n xr yr|n means stds weights|quants rows name|xs packed maxs pt lf|n knots coefs orders|xs mu sig dims n codes|locs scales]; cbn [input_kind input_rows input_ok input_dict] in *.
  - destruct (c01_values bins rows Hi) as (h & Eh & _). destruct (c03_cdf bins rows h Hi Eh) as (F & EF & HF).
    change (hist_create [("bins", VArr (nd1 bins)); ("pdfs", VArr (nd2 (pred (length bins)) rows))] = Ok g) in Eg.
    rewrite (hist_create_eq bins (nd2 (pred (length bins)) rows)) in Eg by (left; reflexivity). rewrite Eh in Eg. injection Eg as <-.
    pose proof Hh as (_ & _ & _ & _ & Ha). destruct (answers_read MCdf _ _ _ _ F (Ha MCdf ltac:(cbn; auto)) EF) as [L R2].
    apply Forall_forall. intros d Hd. apply (In_nth _ _ []) in Hd. destruct Hd as (r & Hr & <-).
    assert (Hr' : (r < length rows)%nat) by (rewrite <- L; exact Hr). destruct (HF r Hr') as (H1 & H2 & _).
    eexists. exists (F r). split; [intros x; reflexivity|]. split; [intros x; apply (R2 r x Hr')|]. split; [|split; [exact H1|exact H2]].
    intros x. unfold hist_point. destruct (get_bin_indices bins x) as [idx []]; [|numR; lra].
    destruct Hi as (Hs & Hn & _ & H). specialize (H _ (nth_In rows [] Hr')). destruct H as (H3 & H4 & H5).
    change (0 <= nth0 idx (num_at 0 (nth r (map (fun r => [Nums (hist_norm_row (bin_widths bins) r)]) rows) []))).
    rewrite (nth_map_in (fun r => [Nums (hist_norm_row (bin_widths bins) r)]) rows r [] [] Hr').
    change (0 <= nth0 idx (hist_norm_row (bin_widths bins) (nth r rows []))).
    destruct (Nat.lt_ge_cases idx (pred (length bins))) as [Hd|Hd].
    + rewrite norm_row_nth by auto. apply Rmult_le_pos; [apply H4; rewrite H3; auto|]. apply Rlt_le, Rinv_0_lt_compat, H5.
    + unfold nth0. rewrite nth_overflow by (rewrite norm_row_length by auto; auto). numR. lra.
  - apply Forall_forall. intros d Hd. apply in_map_iff in Hd. destruct Hd as (r & <- & Hr). apply interp_val_proper. apply inorm_input.
    destruct Hi as (Hs & Hn & _ & H). split; [auto|]. split; [auto|]. split; [discriminate|]. intros r0 [<-|[]]. auto.
  - destruct (c11 n xr yr Hi) as (o & Eo & f & F & Ef & EF & H).
    destruct Hi as (Hn & Hne & Hl & Hx & _).
    change (irr_create [("xvals", VArr (nd2 n xr)); ("yvals", VArr (nd2 n yr))] = Ok g) in Eg.
    rewrite (irr_create_eq n xr yr _ Hn Hne (fun l Hl => proj1 (Hx l Hl)) eq_refl), Eo in Eg. injection Eg as <-.
    eapply proper_rows; [discriminate|cbn; auto|cbn; auto|exact Hh|exact Ef|exact EF|]. intros r Hr. destruct (H r Hr) as (H1 & _ & H2 & H3 & _). split; auto.
  - destruct (c15_weights n means stds weights Hi) as (m & Em & _). destruct (c15_eval n means stds weights m Hi Em _ _ HN) as (f & F & Ef & EF & H).
    change (mixmod_create (s_phi X) (s_Phi X) [("weights", VArr (nd2 n weights)); ("stds", VArr (nd2 n stds)); ("means", VArr (nd2 n means))] = Ok g) in Eg.
    rewrite (mix_create_eq (s_phi X) (s_Phi X) n weights stds means _ eq_refl), Em in Eg. injection Eg as <-.
    eapply proper_rows; [discriminate|cbn; auto|cbn; auto|exact Hh|exact Ef|exact EF|]. intros r Hr. destruct (H r Hr) as (_ & _ & H1 & H2 & H3 & _). split; auto.
  - apply Forall_forall. intros d _. exact I.
  - apply Forall_forall. intros d Hd. apply map2_rows_in in Hd. destruct Hd as (r & p & m & _ & _ & Ep & Em & ->). apply interp_val_proper.
    destruct Hi as (Hs & Hn & _ & _ & Hp & Hm & Hg). apply nth_error_In in Ep, Em. destruct (Hp p Ep) as (L & H1 & H2). apply unpacked_input; auto.
  - apply Forall_forall. intros d _. exact I.
  - apply Forall_forall. intros d Hd. apply in_map_iff in Hd. destruct Hd as (c & <- & Hc). apply interp_val_proper.
    destruct Hi as (Hs & Hn & _ & _ & _ & _ & Hl). destruct (Hl c Hc) as [_ Ok]. apply sparse_input; auto.
  - apply Forall_forall. intros d Hd. apply map2_rows_in in Hd. destruct Hd as (r & l & s & _ & _ & El & Es & ->).
    destruct Hi as (_ & _ & Hs). apply nth_error_In in Es. specialize (Hs s Es). destruct HN as (N1 & N2 & N3 & _).
    exists (fun x => s_phi X ((x - l) / s) / s), (fun x => s_Phi X ((x - l) / s)). split; [intros x; reflexivity|]. split; [intros x; reflexivity|].
    split; [|split; auto].
    + intros x. apply Rmult_le_pos; [apply N1|]. apply Rlt_le, Rinv_0_lt_compat, Hs.
    + intros x y H. apply N3. apply Rmult_le_compat_r; [apply Rlt_le, Rinv_0_lt_compat, Hs|lra].
Qed.
