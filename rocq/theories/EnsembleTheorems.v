(** Slicing, concatenating, appending, storing and iterating over ensembles. *)
From Coq Require Import String List Arith ZArith Bool Lia Reals Lra Sorted.
From Verif Require Import Num NumProofs Py NdArray NumpyLib Utils ScipyWrap Spec Values Ensemble Classes
  HistPdf InterpPdf QuantPdf MixmodPdf Packing PackedPdf
  SortProofs BinProofs EvalProofs NdProofs InterpProofs HistProofs HistTheorems GridTheorems IrrTheorems
  QuantTheorems MixmodTheorems PackingTheorems PackedTheorems Kinds KindProofs EnsembleProofs KindInputs ReachProofs AppendProofs.
Import ListNotations.
Local Open Scope string_scope.
Local Open Scope list_scope.
Local Open Scope R_scope.

(** ** Vocabulary of the statements *)
(** The functions taken from scipy: the standard normal density, distribution function and
    its inverse, and the splines used by quantile ensembles *)
Record scipy := mkscipy {
  s_phi : R -> R; s_Phi : R -> R; s_Phinv : R -> xnum R;
  s_quad : list R -> list R -> R -> R -> R -> R; s_cubic : list R -> list R -> R -> R; s_dspline : list R -> list R -> R -> R }.
(** the fill values of an interpolation play no role inside of the table *)
Definition fill_outside (X : scipy) : Prop := ignores_fill (s_quad X).
(** The classes of qp, by name *)
Definition qp (X : scipy) : string -> option (vdict R -> res (gobj R)) :=
  Kinds.classes (s_phi X) (s_Phi X) (s_quad X) (s_cubic X) (s_dspline X) (s_Phinv X).
(** [made X M e]: the ensemble [e] is the result of calls of qp on valid arguments. *)
Definition made (X : scipy) : list method -> ens R -> Prop :=
  reachable (s_phi X) (s_Phi X) (s_quad X) (s_cubic X) (s_dspline X) (s_Phinv X).
(** Evaluating one of the methods pdf, cdf, ppf *)
Definition evaluate (m : method) (e : ens R) (x : points R) : res (tbl R) :=
  match m with MPdf => ens_pdf e x | MCdf => ens_cdf e x | MPpf => ens_ppf e x end.
(** The points: a number or a strictly increasing grid *)
Definition on_points (x : points R) : Prop := match x with PScalar _ => True | PGrid l => increasing l | PMat _ => False end.

(** The positions that a key of Python selects from [n] entries *)
Definition at_index (n : nat) (i : Z) (p : nat) : Prop := (p < n)%nat /\ (Z.of_nat p = i \/ Z.of_nat p = i + Z.of_nat n)%Z.
Definition from_start (n : nat) (i : Z) : Z := if (i <? 0)%Z then (i + Z.of_nat n)%Z else i.
Definition picks (n : nat) (key : pykey) (ps : list nat) : Prop :=
  match key with
  | KInt i => exists p, ps = [p] /\ at_index n i p
  | KSlice i j => StronglySorted lt ps /\
      forall p, In p ps <-> (p < n)%nat /\ (from_start n i <= Z.of_nat p < from_start n j)%Z
  | KMask m => length m = n /\ StronglySorted lt ps /\ forall p, In p ps <-> nth p m false = true
  | KList is => Forall2 (at_index n) is ps
  end.

(** Ancillary tables: [anc_dict (Some (A, B))] are the columns [A] with the rows [B];
    [anc_entry] is what an integer key leaves: the entries of one row. *)
Definition has_ancil (e : ens R) (s : atable) : Prop := e_ancil e = anc_dict s /\ anc_good (e_npdf e) s.
Definition entry (c : coltype) (x : cell) : value R :=
  match c with NumCol s => VArr (mknd s (nums x)) | ByteCol s => VByt (mknd s (bytes x)) | TextCol s => VTxt (mknd s (texts x)) end.
Fixpoint entries_from (j : nat) (A : layout) (d : row) : vdict R :=
  match A with [] => [] | (k, c) :: t => (k, entry c (cell_at j d)) :: entries_from (S j) t d end.
Definition entries (A : layout) (d : row) : vdict R := entries_from 0 A d.

(** ** Keys *)
Lemma at_index_norm n i p : norm_index n i = Some p <-> at_index n i p.
Proof.
  unfold norm_index, at_index. destruct (Z.ltb_spec i 0); (destruct (Z.leb_spec 0 (if true then i + Z.of_nat n else i)); destruct (Z.ltb_spec (if true then i + Z.of_nat n else i) (Z.of_nat n)));
    try (destruct (Z.leb_spec 0 i); destruct (Z.ltb_spec i (Z.of_nat n))); cbn [andb]; split; intros E; try discriminate; try (injection E as <-); try lia; try (f_equal; lia).
Qed.
Lemma sorted_ext (l l' : list nat) : StronglySorted lt l -> StronglySorted lt l' -> (forall p, In p l <-> In p l') -> l = l'.
Proof.
  revert l'. induction l as [|a l IH]; intros l' H H' E.
  - destruct l' as [|b l']; [reflexivity|]. destruct (proj2 (E b) (or_introl eq_refl)).
  - destruct l' as [|b l']; [destruct (proj1 (E a) (or_introl eq_refl))|]. inversion H as [|? ? Hs Hf]; subst. inversion H' as [|? ? Hs' Hf']; subst.
    rewrite Forall_forall in Hf, Hf'. assert (a = b).
    { destruct (proj1 (E a) (or_introl eq_refl)) as [->|Ha]; [reflexivity|]. destruct (proj2 (E b) (or_introl eq_refl)) as [->|Hb]; [reflexivity|].
      specialize (Hf b Hb). specialize (Hf' a Ha). lia. }
    subst b. f_equal. apply IH; auto. intros p. split; intros Hp.
    + destruct (proj1 (E p) (or_intror Hp)) as [<-|]; auto. specialize (Hf a Hp). lia.
    + destruct (proj2 (E p) (or_intror Hp)) as [<-|]; auto. specialize (Hf' a Hp). lia.
Qed.
Lemma seq_sorted a n : StronglySorted lt (seq a n).
Proof. revert a. induction n as [|n IH]; intros a; simpl; constructor; auto. apply Forall_forall. intros x Hx. apply in_seq in Hx. lia. Qed.
Lemma mask_sorted k m : StronglySorted lt (mask_positions k m).
Proof.
  revert k. induction m as [|b m IH]; intros k; simpl; [constructor|]. destruct b; auto. constructor; auto.
  apply Forall_forall. intros x Hx. apply mask_positions_lt in Hx. lia.
Qed.
Lemma mask_in m : forall k p, In p (mask_positions k m) <-> (k <= p)%nat /\ nth (p - k) m false = true.
Proof.
  induction m as [|b m IH]; intros k p; simpl.
  - split; [tauto|]. intros [_ H]. destruct (p - k)%nat; discriminate.
  - destruct b; [simpl|]; rewrite IH; clear IH.
    + split.
      * intros [<-|[H1 H2]]; [split; [lia|]; rewrite Nat.sub_diag; reflexivity|]. split; [lia|]. replace (p - k)%nat with (S (p - S k)) by lia. exact H2.
      * intros [H1 H2]. destruct (Nat.eq_dec k p) as [E|E]; [left; exact E|right]. split; [lia|]. replace (p - k)%nat with (S (p - S k)) in H2 by lia. exact H2.
    + split.
      * intros [H1 H2]. split; [lia|]. replace (p - k)%nat with (S (p - S k)) by lia. exact H2.
      * intros [H1 H2]. destruct (Nat.eq_dec k p) as [E|E]; [subst; rewrite Nat.sub_diag in H2; discriminate|]. split; [lia|]. replace (p - k)%nat with (S (p - S k)) in H2 by lia. exact H2.
Qed.
Lemma norm_list_iff n is ps : norm_list n is = Some ps <-> Forall2 (at_index n) is ps.
Proof.
  revert ps. induction is as [|i is IH]; intros ps; cbn [norm_list].
  - split; intros H; [injection H as <-; constructor|inversion H; reflexivity].
  - split; intros H.
    + destruct (norm_index n i) as [p|] eqn:E; [|discriminate]. destruct (norm_list n is) as [qs|] eqn:E2; [|discriminate]. injection H as <-.
      constructor; [apply at_index_norm; auto|apply IH; auto].
    + inversion H as [|? p ? qs Hp Hq]; subst. apply at_index_norm in Hp. apply IH in Hq. rewrite Hp, Hq. reflexivity.
Qed.
Lemma bound_spec n i p : (p < n)%nat -> (norm_bound n i <= p)%nat <-> (from_start n i <= Z.of_nat p)%Z.
Proof. unfold norm_bound, from_start. intros H. destruct (i <? 0)%Z; lia. Qed.
Lemma picks_iff n key ps : key_positions n key = Some ps <-> picks n key ps.
Proof.
  destruct key as [i|i j|m|is]; cbn [key_positions picks].
  - split.
    + destruct (norm_index n i) as [p|] eqn:E; [|discriminate]. intros H. injection H as <-. exists p. split; [reflexivity|apply at_index_norm; auto].
    + intros (p & -> & H). apply at_index_norm in H. rewrite H. reflexivity.
  - assert (Hin : forall p, In p (seq (norm_bound n i) (norm_bound n j - norm_bound n i)) <-> (p < n)%nat /\ (from_start n i <= Z.of_nat p < from_start n j)%Z).
    { intros p. rewrite in_seq. pose proof (norm_bound_le n j). pose proof (norm_bound_le n i). split.
      - intros [H1 H2]. assert (p < n)%nat by lia. pose proof (proj1 (bound_spec n i p H3) H1). pose proof (proj2 (bound_spec n j p H3)). split; [auto|]. split; [auto|]. 
        destruct (Z_lt_le_dec (Z.of_nat p) (from_start n j)) as [|C]; auto. specialize (H5 C). lia.
      - intros (H1 & H2 & H3). pose proof (proj2 (bound_spec n i p H1) H2). pose proof (proj1 (bound_spec n j p H1)). split; [auto|].
        destruct (le_lt_dec (norm_bound n j) p) as [C|]; [|lia]. specialize (H5 C). lia. }
    split.
    + intros H. injection H as <-. split; [apply seq_sorted|exact Hin].
    + intros [Hs H]. f_equal. apply sorted_ext; [apply seq_sorted|exact Hs|]. intros p. rewrite Hin, H. tauto.
  - assert (Hin : forall p, In p (mask_positions 0 m) <-> nth p m false = true).
    { intros p. rewrite mask_in, Nat.sub_0_r. split; [tauto|]. intros H. split; [lia|auto]. }
    destruct (Nat.eqb_spec (length m) n) as [E|E].
    + split.
      * intros H. injection H as <-. split; [exact E|]. split; [apply mask_sorted|exact Hin].
      * intros (_ & Hs & H). f_equal. apply sorted_ext; [apply mask_sorted|exact Hs|]. intros p. rewrite Hin, H. tauto.
    + split; [discriminate|]. intros (H & _). congruence.
  - apply norm_list_iff.
Qed.
Lemma sliced_entries i A d : sliced (KInt i) A [d] = entries A d.
Proof.
  unfold sliced, entries. generalize O. induction A as [|[k c] A IH]; intros j; [reflexivity|]. cbn [sliced_from entries_from]. rewrite IH. f_equal. f_equal.
  unfold col_sliced. cbn [is_int map]. destruct c; cbn [entry concat]; rewrite app_nil_r; reflexivity.
Qed.

(** ** Made ensembles hold rows *)
Notation rep_of X := (ReachProofs.rep (s_phi X) (s_Phi X) (s_quad X) (s_cubic X) (s_dspline X) (s_Phinv X)).
Notation represents_in X := (EnsembleProofs.represents (s_phi X) (s_Phi X) (s_quad X) (s_cubic X) (s_dspline X) (s_Phinv X)).
Lemma made_rep X M e : fill_outside X -> made X M e -> rep_of X M e.
Proof. intros H. apply reachable_rep. exact H. Qed.
Definition row_answer (X : scipy) (k : kind) (m : method) (x : points R) (d : row) : list (xnum R) :=
  let v := val (s_phi X) (s_Phi X) (s_quad X) (s_Phinv X) k m d in
  match x with PScalar t => [v t] | PGrid l => map v l | PMat _ => [] end.
Lemma rep_answers X k D e m x : represents_in X k D e -> In m (methods k) -> on_points x ->
  evaluate m e x = Ok (map (row_answer X k m x) D).
Proof.
  intros (_ & _ & _ & _ & (_ & _ & _ & _ & Ha)) Hm Hx. destruct (Ha m Hm) as (H1 & H2 & _).
  assert (E : evaluate m e x = g_eval m (e_obj e) x) by (destruct m; reflexivity). rewrite E.
  destruct x as [t|l|]; [apply H1|apply H2; exact Hx|destruct Hx].
Qed.
(** the same on matrices, and on grids of any order *)
Lemma rep_matrix X k D e m : represents_in X k D e -> In m (methods k) -> answers_mats (dom m) (evaluate m e) D (val (s_phi X) (s_Phi X) (s_quad X) (s_Phinv X) k m).
Proof. intros (_ & _ & _ & _ & (_ & _ & _ & _ & Ha)) Hm. destruct (Ha m Hm) as (_ & _ & H). destruct m; exact H. Qed.
Lemma map_select {A B} (f : A -> B) dflt dflt' l ps : (forall p, In p ps -> (p < length l)%nat) -> map f (select dflt l ps) = select dflt' (map f l) ps.
Proof.
  intros H. unfold select. rewrite map_map. apply map_ext_in. intros p Hp. specialize (H p Hp). symmetry.
  rewrite (nth_indep _ _ (f dflt)) by (rewrite map_length; auto). apply map_nth.
Qed.
Lemma rep_npdf' X k D e : represents_in X k D e -> e_npdf e = length D.
Proof. apply rep_npdf. Qed.
Lemma rep_meta X k D e : represents_in X k D e -> metadata e = kind_meta k /\ objdata e = cols k D /\ g_name (e_obj e) = kind_name k.
Proof. intros (_ & _ & _ & _ & (H1 & H2 & H3 & _)). auto. Qed.

(** ** C21: slicing *)
Lemma c21_slice : forall X M e key ps s, fill_outside X -> made X M e -> picks (e_npdf e) key ps -> ps <> [] ->
  has_ancil e s -> (is_int key = true -> anc_plain s) ->
  exists e', getitem (qp X) e key = Ok e' /\ made X M e' /\ e_npdf e' = length ps /\ metadata e' = metadata e /\
    (forall m x, In m M -> on_points x -> exists t, evaluate m e x = Ok t /\ length t = e_npdf e /\
       evaluate m e' x = Ok (select [] t ps)) /\
    e_ancil e' = match s with
                 | None => None
                 | Some (A, B) => match key with
                                  | KInt i => Some (entries A (nth (hd 0%nat ps) B []))
                                  | _ => Some (columns A (select [] B ps))
                                  end
                 end.
Proof.
  intros X M e key ps s HX Hm Hp Hne (Ha & Hg) Hi. destruct (made_rep X M e HX Hm) as (k & D & Hr & Hk & Hc).
  pose proof (rep_npdf' X k D e Hr) as Hn. pose proof (proj2 (picks_iff _ _ _) Hp) as Hpos.
  pose proof Hpos as Hpos'. rewrite Hn in Hpos'. rewrite Hn in Hg.
  destruct (getitem_rep (s_phi X) (s_Phi X) (s_quad X) (s_cubic X) (s_dspline X) (s_Phinv X) HX k D e key ps s Hr Hpos' Hne Ha Hg Hi) as (e' & E & Hr' & Ha' & _).
  exists e'. split; [exact E|]. split; [exact (reach_slice _ _ _ _ _ _ M e key ps e' Hm Hpos Hne E)|].
  split; [rewrite (rep_npdf' X k _ e' Hr'); apply select_length|].
  split; [rewrite (proj1 (rep_meta X k _ e' Hr')), (proj1 (rep_meta X k _ e Hr)); reflexivity|].
  split.
  - intros m x Hin Hx. subst M. exists (map (row_answer X k m x) D). split; [apply rep_answers; auto|]. split; [rewrite map_length; auto|].
    rewrite (rep_answers X k _ e' m x Hr' Hin Hx). f_equal. apply map_select. intros p Hq. eapply key_positions_lt; eauto.
  - rewrite Ha'. destruct s as [[A B]|]; [|reflexivity]. cbn [anc_sliced]. destruct key as [i|i j|mk|is]; try (rewrite sliced_columns by reflexivity; reflexivity).
    destruct Hp as (p & -> & _). cbn [select map hd]. rewrite sliced_entries. reflexivity.
Qed.
Lemma c21_out_of_range : forall X M e key, fill_outside X -> made X M e ->
  (forall ps, ~ picks (e_npdf e) key ps) -> getitem (qp X) e key = Err IndexError.
Proof.
  intros X M e key HX Hm Hno. destruct (made_rep X M e HX Hm) as (k & D & Hr & Hk & Hc).
  apply (getitem_bad _ _ _ _ _ _ k D e key Hr). destruct (key_positions (length D) key) as [ps|] eqn:E; [|reflexivity].
  exfalso. apply (Hno ps). rewrite (rep_npdf' X k D e Hr). apply picks_iff. exact E.
Qed.
Lemma c21_integer : forall X M e (i : Z), fill_outside X -> made X M e ->
  (i < - Z.of_nat (e_npdf e) \/ Z.of_nat (e_npdf e) <= i)%Z -> getitem (qp X) e (KInt i) = Err IndexError.
Proof. intros X M e i HX Hm Hi. apply (c21_out_of_range X M); auto. intros ps (p & _ & Hp & [E|E]); lia. Qed.

(** ** C22: concatenation *)
Definition widths (e : ens R) : list (string * list nat) := map (fun kv => (fst kv, tl (v_shape (snd kv)))) (objdata e).
Definition total (es : list (ens R)) : nat := fold_right (fun e n => (e_npdf e + n)%nat) 0%nat es.
Lemma widths_kind k D : map (fun kv => (fst kv, tl (v_shape (snd kv)))) (cols k D) = map (fun kc => (fst kc, rest_of (snd kc))) (kind_layout k).
Proof.
  unfold cols, columns. generalize O. induction (kind_layout k) as [|[n c] L IH]; intros j; [reflexivity|]. cbn [columns_from map fst snd].
  rewrite IH. f_equal. f_equal. destruct c; reflexivity.
Qed.
Lemma kind_same X k D e k0 D0 e0 : represents_in X k D e -> represents_in X k0 D0 e0 -> metadata e = metadata e0 -> widths e = widths e0 -> k = k0.
Proof.
  intros Hr H0 Hm Hw. destruct (rep_meta _ _ _ _ Hr) as (E1 & E2 & _). destruct (rep_meta _ _ _ _ H0) as (F1 & F2 & _).
  destruct Hr as (G & _). destruct H0 as (G0 & _). rewrite E1, F1 in Hm. destruct (kind_meta_inj k k0 G G0 Hm) as [|[F Feq]]; [auto|].
  apply Feq. unfold widths in Hw. rewrite E2, F2, !widths_kind in Hw. destruct k, k0; try destruct F; cbn in Hw; injection Hw; auto.
Qed.
Lemma reps_of X M e0 es : fill_outside X -> (forall e, In e (e0 :: es) -> made X M e) -> 
  (forall e, In e es -> metadata e = metadata e0 /\ widths e = widths e0) ->
  exists k Ds, methods k = M /\ Forall2 (represents_in X k) Ds (e0 :: es).
Proof.
  intros HX Hm Hs. destruct (made_rep X M e0 HX (Hm e0 (or_introl eq_refl))) as (k & D & Hr & Hk & _). exists k.
  assert (G : exists Ds, Forall2 (represents_in X k) Ds es).
  { assert (G : forall l, incl l es -> exists Ds, Forall2 (represents_in X k) Ds l).
    { induction l as [|e l IH]; intros Hi; [exists []; constructor|]. destruct IH as (Ds & HDs); [intros x Hx; apply Hi; right; auto|].
      assert (He : In e es) by (apply Hi; left; auto). destruct (made_rep X M e HX (Hm e (or_intror He))) as (k' & D' & Hr' & _).
      destruct (Hs e He). rewrite (kind_same X k' D' e k D e0 Hr' Hr) in Hr' by auto. exists (D' :: Ds). constructor; auto. }
    apply G. apply incl_refl. }
  destruct G as (Ds & HDs). exists (D :: Ds). split; [exact Hk|]. constructor; auto.
Qed.
Lemma total_rows X k Ds es : Forall2 (represents_in X k) Ds es -> total es = length (concat Ds).
Proof. intros H. induction H as [|D e Ds1 es1 Hr H IH]; [reflexivity|]. cbn [total fold_right concat]. fold (total es1). rewrite IH, app_length, (rep_npdf' X k D e Hr). reflexivity. Qed.
Lemma answers_concat X k Ds es m x : Forall2 (represents_in X k) Ds es -> In m (methods k) -> on_points x ->
  Forall2 (fun e t => evaluate m e x = Ok t /\ length t = e_npdf e) es (map (map (row_answer X k m x)) Ds).
Proof.
  intros H Hm Hx. induction H as [|D e Ds1 es1 Hr H IH]; [constructor|]. cbn [map]. constructor; [|exact IH].
  split; [apply rep_answers; auto|]. rewrite map_length, (rep_npdf' X k D e Hr). reflexivity.
Qed.
(** what all ensembles in a list that can be joined have in common *)
Definition joinable (X : scipy) (M : list method) (es : list (ens R)) : Prop :=
  (forall e, In e es -> made X M e) /\
  (forall e e', In e es -> In e' es -> metadata e = metadata e' /\ widths e = widths e').
Definition joined (X : scipy) (M : list method) (es : list (ens R)) (e' : ens R) : Prop :=
  made X M e' /\ e_npdf e' = total es /\ (forall e, In e es -> metadata e' = metadata e) /\
  forall m x, In m M -> on_points x -> exists ts,
    Forall2 (fun e t => evaluate m e x = Ok t /\ length t = e_npdf e) es ts /\ evaluate m e' x = Ok (concat ts).
Lemma joinable_reps X M es : fill_outside X -> joinable X M es -> es <> [] ->
  exists k Ds, methods k = M /\ Forall2 (represents_in X k) Ds es.
Proof.
  intros HX [H1 H2] Hne. destruct es as [|e0 es]; [congruence|]. apply reps_of; auto.
  intros e He. apply H2; [right; auto|left; auto].
Qed.
Lemma joined_of X M es e' k Ds : joinable X M es -> es <> [] -> concatenate es = Ok (Some e') -> methods k = M -> Forall2 (represents_in X k) Ds es ->
  represents_in X k (concat Ds) e' -> joined X M es e'.
Proof.
  intros [J1 J2] Hne E Hk HDs Hr. split; [|split; [|split]].
  - destruct es as [|e0 es]; [congruence|]. apply (reach_concatenate _ _ _ _ _ _ M e0 es); auto.
    + apply J1. left. auto.
    + intros e He. apply J1. right. auto.
    + intros e He. apply J2; [right; auto|left; auto].
  - rewrite (total_rows X k Ds es HDs). apply rep_npdf' with (1 := Hr).
  - intros e He. rewrite (proj1 (rep_meta _ _ _ _ Hr)). clear - HDs He. induction HDs as [|D x Ds1 es1 Hx H IH]; [destruct He|].
    destruct He as [->|He]; [symmetry; apply (proj1 (rep_meta _ _ _ _ Hx))|auto].
  - intros m x Hm Hx. subst M. exists (map (map (row_answer X k m x)) Ds). split; [apply answers_concat; auto|].
    rewrite (rep_answers X k _ e' m x Hr Hm Hx), concat_map. reflexivity.
Qed.
Lemma c22_concatenate_ancil : forall X M es A Bs, fill_outside X -> joinable X M es -> es <> [] ->
  Forall2 (fun e B => has_ancil e (Some (A, B))) es Bs ->
  exists e', concatenate es = Ok (Some e') /\ joined X M es e' /\ has_ancil e' (Some (A, concat Bs)).
Proof.
  intros X M es A Bs HX J Hne HB. destruct (joinable_reps X M es HX J Hne) as (k & Ds & Hk & HDs).
  assert (HB' : Forall2 (fun B e => e_ancil e = Some (columns A B) /\ length B = e_npdf e /\ List.Forall (row_fits A) B) Bs es).
  { clear - HB. induction HB as [|e B es1 Bs1 (H1 & H2 & H3 & H4) HB IH]; constructor; auto. }
  assert (Hnd : NoDup (map fst A)) by (destruct HB as [|e B es1 Bs1 (H1 & H2 & H3 & H4) HB]; [congruence|auto]).
  destruct (concatenate_rep (s_phi X) (s_Phi X) (s_quad X) (s_cubic X) (s_dspline X) (s_Phinv X) HX k Ds es A Bs Hne HDs HB' Hnd) as (e' & E & Hr & Ha & _).
  exists e'. split; [exact E|]. pose proof (joined_of X M es e' k Ds J Hne E Hk HDs Hr) as Hj. split; [exact Hj|].
  split; [exact Ha|]. cbn [anc_good]. destruct Hj as (_ & -> & _). split; [|split; [|exact Hnd]].
  - clear - HB. induction HB as [|e B es1 Bs1 (H1 & H2 & H3 & H4) HB IH]; [reflexivity|]. cbn [concat total fold_right]. fold (total es1). rewrite app_length. lia.
  - clear - HB. induction HB as [|e B es1 Bs1 (H1 & H2 & H3 & H4) HB IH]; [constructor|]. cbn [concat]. apply Forall_app. auto.
Qed.
Lemma c22_concatenate_none : forall X M es, fill_outside X -> joinable X M es -> (exists e, In e es /\ e_ancil e = None) ->
  exists e', concatenate es = Ok (Some e') /\ joined X M es e' /\ e_ancil e' = None.
Proof.
  intros X M es HX J Hnone. assert (Hne : es <> []) by (destruct Hnone as (e & He & _); destruct es; [destruct He|discriminate]).
  destruct (joinable_reps X M es HX J Hne) as (k & Ds & Hk & HDs).
  destruct (concatenate_rep_none (s_phi X) (s_Phi X) (s_quad X) (s_cubic X) (s_dspline X) (s_Phinv X) HX k Ds es Hne HDs Hnone) as (e' & E & Hr & Ha & _).
  exists e'. split; [exact E|]. split; [exact (joined_of X M es e' k Ds J Hne E Hk HDs Hr)|exact Ha].
Qed.
Lemma select_middle {A} (dflt : A) P D Q : select dflt (P ++ D ++ Q) (seq (length P) (length D)) = D.
Proof.
  unfold select. apply (nth_ext _ _ dflt dflt); rewrite map_length, seq_length; [reflexivity|]. intros j Hj.
  rewrite (nth_indep _ dflt (nth (length P) (P ++ D ++ Q) dflt)) by (rewrite map_length, seq_length; auto).
  rewrite (map_nth (fun p => nth p (P ++ D ++ Q) dflt)), seq_nth by auto. rewrite app_nth2 by lia. rewrite app_nth1 by lia. f_equal. lia.
Qed.
Lemma slice_range N off n : (off + n <= N)%nat -> key_positions N (KSlice (Z.of_nat off) (Z.of_nat (off + n))) = Some (seq off n).
Proof.
  intros H. cbn [key_positions]. unfold norm_bound. destruct (Z.ltb_spec (Z.of_nat off) 0); [lia|]. destruct (Z.ltb_spec (Z.of_nat (off + n)) 0); [lia|].
  f_equal. f_equal; lia.
Qed.
Lemma total_app pre post : total (pre ++ post) = (total pre + total post)%nat.
Proof. induction pre as [|e pre IH]; [reflexivity|]. cbn [app total fold_right]. fold (total pre). fold (total (pre ++ post)). rewrite IH. lia. Qed.
Lemma c22_part : forall X M pre e post e' s, fill_outside X -> joinable X M (pre ++ e :: post) ->
  concatenate (pre ++ e :: post) = Ok (Some e') -> has_ancil e' s ->
  exists p, getitem (qp X) e' (KSlice (Z.of_nat (total pre)) (Z.of_nat (total pre + e_npdf e))) = Ok p /\
    objdata p = objdata e /\ metadata p = metadata e /\
    (forall m x, In m M -> on_points x -> evaluate m p x = evaluate m e x) /\
    e_ancil p = match s with
                | None => None
                | Some (A, B) => Some (columns A (select [] B (seq (total pre) (e_npdf e))))
                end.
Proof.
  intros X M pre e post e' s HX J E (Ha & Hg). assert (Hne : pre ++ e :: post <> []) by (destruct pre; discriminate).
  destruct (joinable_reps X M _ HX J Hne) as (k & Ds & Hk & HDs).
  pose proof (concatenate_inv (s_phi X) (s_Phi X) (s_quad X) (s_cubic X) (s_dspline X) (s_Phinv X) HX k Ds _ e' Hne HDs E) as Hr.
  apply Forall2_app_inv_r in HDs. destruct HDs as (Dpre & Dx & Hpre & Hx & ->). inversion Hx as [|D ? Dpost ? HD Hpost]; subst.
  rewrite concat_app in Hr. cbn [concat] in Hr.
  assert (Ht : total pre = length (concat Dpre)) by (apply (total_rows X k); auto). pose proof (rep_npdf' X k D e HD) as Hn.
  set (ps := seq (total pre) (e_npdf e)).
  assert (Hps : key_positions (length (concat Dpre ++ D ++ concat Dpost)) (KSlice (Z.of_nat (total pre)) (Z.of_nat (total pre + e_npdf e))) = Some ps).
  { apply slice_range. rewrite !app_length. lia. }
  assert (Hpne : ps <> []).
  { unfold ps. rewrite Hn. destruct HD as (_ & HDne & _). destruct D; [congruence|discriminate]. }
  rewrite (rep_npdf' X k _ e' Hr) in Hg.
  destruct (getitem_rep (s_phi X) (s_Phi X) (s_quad X) (s_cubic X) (s_dspline X) (s_Phinv X) HX k _ e' _ ps s Hr Hps Hpne Ha Hg) as (p & Ep & Hrp & Hap & _); [discriminate|].
  assert (Hsel : select [] (concat Dpre ++ D ++ concat Dpost) ps = D) by (unfold ps; rewrite Ht, Hn; apply select_middle).
  rewrite Hsel in Hrp.
  exists p. split; [exact Ep|]. destruct (rep_meta _ _ _ _ Hrp) as (M1 & O1 & _). destruct (rep_meta _ _ _ _ HD) as (M2 & O2 & _).
  split; [congruence|]. split; [congruence|]. split.
  - intros m x Hm Hx'. rewrite (rep_answers X k D p m x Hrp Hm Hx'), (rep_answers X k D e m x HD Hm Hx'). reflexivity.
  - rewrite Hap. destruct s as [[A B]|]; [|reflexivity]. cbn [anc_sliced]. rewrite sliced_columns by reflexivity. reflexivity.
Qed.
Lemma c22_part_ancil : forall A (pre : list (ens R)) e post Bpre B Bpost e',
  Forall2 (fun x C => has_ancil x (Some (A, C))) pre Bpre -> has_ancil e (Some (A, B)) ->
  has_ancil e' (Some (A, concat (Bpre ++ B :: Bpost))) ->
  select [] (concat (Bpre ++ B :: Bpost)) (seq (total pre) (e_npdf e)) = B /\ total (pre ++ e :: post) = (total pre + (e_npdf e + total post))%nat.
Proof.
  intros A pre e post Bpre B Bpost e' Hpre (_ & He & _) _. split; [|rewrite total_app; reflexivity].
  assert (Ht : total pre = length (concat Bpre)).
  { clear - Hpre. induction Hpre as [|x C es1 Bs1 (_ & H2 & _) HB IH]; [reflexivity|]. cbn [concat total fold_right]. fold (total es1). rewrite app_length. lia. }
  rewrite Ht, <- He, concat_app. cbn [concat]. apply select_middle.
Qed.
Lemma c22_parts : forall X M pre e post A Bpre B Bpost, fill_outside X -> joinable X M (pre ++ e :: post) ->
  Forall2 (fun e B => has_ancil e (Some (A, B))) (pre ++ e :: post) (Bpre ++ B :: Bpost) -> length Bpre = length pre ->
  exists e' p, concatenate (pre ++ e :: post) = Ok (Some e') /\
    getitem (qp X) e' (KSlice (Z.of_nat (total pre)) (Z.of_nat (total pre + e_npdf e))) = Ok p /\
    objdata p = objdata e /\ metadata p = metadata e /\ e_ancil p = e_ancil e /\
    (forall m x, In m M -> on_points x -> evaluate m p x = evaluate m e x).
Proof.
  intros X M pre e post A Bpre B Bpost HX J HB Hl. assert (Hne : pre ++ e :: post <> []) by (destruct pre; discriminate).
  destruct (c22_concatenate_ancil X M _ A (Bpre ++ B :: Bpost) HX J Hne HB) as (e' & E & _ & Ha).
  destruct (c22_part X M pre e post e' _ HX J E Ha) as (p & Ep & H1 & H2 & H3 & H4). exists e', p. repeat (split; [assumption|]). split; [|exact H3].
  rewrite H4. apply Forall2_app_inv_l in HB. destruct HB as (B1 & B2 & Hp & H5 & Eq).
  assert (L : length B1 = length pre) by (clear - Hp; induction Hp; simpl; auto).
  assert (Bpre = B1 /\ B :: Bpost = B2) as [-> <-] by (clear - Eq L Hl; revert B1 L Eq Hl; revert pre; induction Bpre as [|x Bp IH]; intros pre [|y B1] L Eq Hl; simpl in *; try lia; [auto|destruct pre; [discriminate|]; injection Eq as <- Eq; destruct (IH pre B1) as [-> <-]; auto]).
  inversion H5 as [|? ? ? ? He Hpost]; subst. destruct He as (He1 & He2). rewrite He1. cbn [anc_dict]. f_equal. f_equal.
  apply (c22_part_ancil A pre e post B1 B Bpost e' Hp); [split; auto|exact Ha].
Qed.
Lemma c22_parts_none : forall X M pre e post, fill_outside X -> joinable X M (pre ++ e :: post) ->
  (exists x, In x (pre ++ e :: post) /\ e_ancil x = None) ->
  exists e' p, concatenate (pre ++ e :: post) = Ok (Some e') /\
    getitem (qp X) e' (KSlice (Z.of_nat (total pre)) (Z.of_nat (total pre + e_npdf e))) = Ok p /\
    objdata p = objdata e /\ metadata p = metadata e /\ e_ancil p = None /\
    (forall m x, In m M -> on_points x -> evaluate m p x = evaluate m e x).
Proof.
  intros X M pre e post HX J Hn. destruct (c22_concatenate_none X M _ HX J Hn) as (e' & E & _ & Ha).
  destruct (c22_part X M pre e post e' None HX J E) as (p & Ep & H1 & H2 & H3 & H4); [split; [exact Ha|exact I]|].
  exists e', p. repeat (split; [assumption|]). exact H3.
Qed.

(** what concatenation accepts: one class, same number of parameters, grids equal up to numpy's tolerance, same ancillary columns *)
Definition close_to (l l' : list R) : Prop :=
  length l = length l' /\ forall i, (i < length l)%nat -> Rabs (nth0 i l - nth0 i l') <= 1 / 100000000 + 1 / 100000 * Rabs (nth0 i l').
Lemma isclose_R (x y : R) : np_isclose x y = true -> Rabs (x - y) <= 1 / 100000000 + 1 / 100000 * Rabs y.
Proof.
  unfold np_isclose. destruct (nleb_reflect (nabs (nsub x y)) (nadd (nfrac 1 100000000) (nmul (nfrac 1 100000) (nabs y)))) as [H|]; [|discriminate].
  intros _. rewrite !nabs_R in H. unfold nfrac in H. revert H. numR. simpl. intros. lra.
Qed.
Lemma allclose_R (l : list R) : forall l', length l = length l' -> np_allclose l l' = true -> close_to l l'.
Proof.
  induction l as [|x l IH]; intros [|y l'] E H; try discriminate; [split; [reflexivity|]; intros i Hi; simpl in Hi; lia|].
  unfold np_allclose in H. cbn [map2 forallb] in H. apply andb_prop in H. destruct H as [H1 H2]. destruct (IH l') as [_ H3]; [simpl in E; lia|exact H2|].
  split; [exact E|]. intros [|i] Hi; [apply isclose_R; exact H1|]. apply H3. simpl in Hi. lia.
Qed.
Lemma match_close (a b : nd R) : shp a = shp b -> length (dat a) = length (dat b) -> v_match (VArr a) (VArr b) = Ok true -> close_to (dat a) (dat b).
Proof.
  intros E El. cbn [v_match]. unfold pairs_of. destruct (list_eq_dec Nat.eq_dec (shp a) (shp b)) as [_|]; [|congruence].
  destruct (dat a) as [|x [|y l]]; destruct (dat b) as [|x' [|y' l']]; try discriminate El; intros H.
  - apply allclose_R; auto.
  - injection H as H. destruct (neqb_reflect x x') as [->|]; [|discriminate]. split; [reflexivity|]. intros i Hi. replace (nth0 i [x'] - nth0 i [x']) with 0 by ring.
    rewrite Rabs_R0. pose proof (Rabs_pos (nth0 i [x'])). lra.
  - injection H as H. apply allclose_R; auto.
Qed.
Lemma compare_all_in (d0 : vdict R) ds : compare_all d0 ds = Ok true -> forall d, In d ds -> compare_dicts [d0; d] = Ok true.
Proof.
  induction ds as [|x ds IH]; intros H d Hd; [destruct Hd|]. cbn [compare_all] in H. destruct (compare_two_dicts d0 x) as [[]|] eqn:E; cbn [bind] in H; try discriminate.
  destruct Hd as [<-|Hd]; [unfold compare_dicts; cbn [compare_all]; rewrite E; reflexivity|auto].
Qed.
Lemma check_keys_in (d0 : vdict R) ds z : concatenate_dicts (d0 :: ds) = Ok z -> forall d, In d ds -> forall key, In key (keys d) <-> In key (keys d0).
Proof.
  unfold concatenate_dicts, check_keys. destruct (forallb (same_keys d0) ds) eqn:E; [|discriminate]. intros _ d Hd. rewrite forallb_forall in E. specialize (E d Hd).
  unfold same_keys in E. apply andb_prop in E. destruct E as [E1 E2]. rewrite forallb_forall in E1, E2.
  assert (G : forall (d : vdict R) k, dmem String.eqb d k = true -> In k (keys d)).
  { intros d' k. unfold dmem. destruct (dget String.eqb d' k) as [v|] eqn:Ev; [|discriminate]. intros _. unfold keys. change k with (fst (k, v)). apply in_map. apply vget_in. exact Ev. }
  intros key. split; intros H; apply G; auto.
Qed.
Lemma ancil_list_in (es : list (ens R)) : (forall e, In e es -> e_ancil e <> None) -> exists l, ancil_list es = Some l /\ forall e a, In e es -> e_ancil e = Some a -> In a l.
Proof.
  induction es as [|e es IH]; intros H; [exists []; split; [reflexivity|intros e a []]|]. destruct IH as (l & El & Hl); [intros x Hx; apply H; right; auto|].
  cbn [ancil_list]. destruct (e_ancil e) as [a|] eqn:Ea; [|exfalso; apply (H e (or_introl eq_refl)); auto]. rewrite El. exists (a :: l). split; [reflexivity|].
  intros x b [<-|Hx] Hb; [left; congruence|right; eauto].
Qed.
Lemma meta_shapes k k' key (a b : nd R) : good_kind k -> good_kind k' -> compare_items (kind_meta k) (kind_meta k') = Ok true -> kind_layout k' = kind_layout k \/ same_family k k' ->
  kind_name k = kind_name k' -> vget (kind_meta k) key = Some (VArr a) -> vget (kind_meta k') key = Some (VArr b) -> shp a = shp b /\ length (dat a) = length (dat b).
Proof.
  intros G G' Hc HL Hn Ha Hb. apply vget_in in Ha, Hb. 
  destruct k, k'; try discriminate Hn; unfold good_kind in G, G'; unfold kind_meta, kind_own_meta, class_meta, add_meta in *; cbn [app v_expand_first kind_name] in Ha, Hb;
    repeat (destruct Ha as [Ha|Ha]; [injection Ha as <- Ea; try discriminate Ea|]); try destruct Ha;
    repeat (destruct Hb as [Hb|Hb]; [first [discriminate Hb|injection Hb as Eb; try discriminate Eb]|]); try destruct Hb;
    try (subst a; subst b; split; reflexivity).
  all: try match type of Hn with kind_name (KSparse ?x _ _ _ _) = kind_name (KSparse ?y _ _ _ _) =>
    destruct (compare_item _ _ "xvals" (v_expand_first (VArr (nd1 x))) Hc ltac:(right; right; left; reflexivity)) as (v' & Hv & Hmm);
    injection Hv as <-; apply match_grids in Hmm; [|lia|lia]; subst a; subst b; unfold nd1, expand_first; cbn [shp dat]; rewrite Hmm; split; reflexivity end.
  all: destruct HL as [HL|[]]; cbn [kind_layout] in HL; injection HL as HL; subst a; subst b; unfold nd1, expand_first; cbn [shp dat]; (split; [f_equal; f_equal|]); lia.
Qed.
Lemma c22_accepted : forall X M0 e0 es e', fill_outside X -> made X M0 e0 -> (forall e, In e es -> exists M, made X M e) ->
  concatenate (e0 :: es) = Ok (Some e') -> forall e, In e es ->
  g_name (e_obj e) = g_name (e_obj e0) /\ widths e = widths e0 /\
  (forall key a b, vget (metadata e0) key = Some (VArr a) -> vget (metadata e) key = Some (VArr b) -> close_to (dat a) (dat b)) /\
  ((forall x, In x (e0 :: es) -> e_ancil x <> None) -> forall a0 a, e_ancil e0 = Some a0 -> e_ancil e = Some a ->
     forall key, In key (keys a) <-> In key (keys a0)).
Proof.
  intros X M0 e0 es e' HX H0 Hes E e He. destruct (Hes e He) as (M & Hm). destruct (made_rep X M0 e0 HX H0) as (k0 & D0 & R0 & _ & _).
  destruct (made_rep X M e HX Hm) as (k & D & Hr & _ & _). destruct (rep_meta _ _ _ _ R0) as (M1 & O1 & N1). destruct (rep_meta _ _ _ _ Hr) as (M2 & O2 & N2).
  pose proof R0 as (G0 & _). pose proof Hr as (G & _). destruct (concat_data_ok _ _ E) as (z & Hz).
  unfold concatenate in E. cbn [map] in E. unfold compare_dicts in E. destruct (compare_all (metadata e0) (map metadata es)) as [[]|] eqn:Ec; cbn [bind] in E; try discriminate.
  pose proof (compare_all_in _ _ Ec (metadata e) (in_map _ _ _ He)) as Hc. rewrite M1, M2 in Hc. pose proof (compare_pair _ _ Hc) as Hi.
  assert (Hn : kind_name k0 = kind_name k).
  { destruct (compare_item _ _ "pdf_name" (VTxt (nd1 [kind_name k0])) Hi) as (v' & Hv & Hmm); [left; reflexivity|].
    change (vget (kind_meta k) "pdf_name") with (Some (VTxt (nd1 [kind_name k]) : value R)) in Hv. injection Hv as <-.
    rewrite match_names in Hmm. injection Hmm as Hmm. apply String.eqb_eq in Hmm. exact Hmm. }
  assert (HL : kind_layout k = kind_layout k0).
  { destruct (compare_layout k0 k G0 G Hc) as [EL|F]; [exact EL|]. symmetry. apply family_layout; [exact F|]. destruct (family_sym k0 k F) as (F1 & F2 & Fk).
    destruct (family_column k0 D0 F1) as (K0 & a0 & V0 & Nm0 & S0). destruct (family_column k D F2) as (K1 & a1 & V1 & Nm1 & S1). cbn [map] in Hz. rewrite O1 in Hz.
    destruct (concat_dicts_tails _ _ _ _ a0 Hz K0 V0 Nm0 (objdata e) (in_map objdata _ _ He)) as (a & V & S). rewrite O2, <- Fk, V1 in V. injection V as <-. congruence. }
  split; [congruence|]. split; [unfold widths; rewrite O1, O2, !widths_kind, HL; reflexivity|]. split.
  - intros key a b Ha Hb. rewrite M1 in Ha. rewrite M2 in Hb. destruct (meta_shapes k0 k key a b G0 G Hi (or_introl HL) Hn Ha Hb) as [S1 S2]. apply match_close; auto.
    destruct (compare_item _ _ key (VArr a) Hi (vget_in _ _ _ Ha)) as (v' & Hv & Hmm). rewrite Hb in Hv. injection Hv as <-. exact Hmm.
  - intros Hall a0 a Ea0 Ea. destruct (ancil_list_in es) as (l & El & Hl); [intros x Hx; apply Hall; right; auto|].
    change (objdata e0 :: map objdata es) with (map objdata (e0 :: es)) in E. rewrite Hz in E. cbn [bind] in E.
    cbn [ancil_list] in E. rewrite Ea0, El in E.
    destruct (concatenate_dicts (a0 :: l)) as [z2|] eqn:Ez2; [|discriminate]. apply (check_keys_in a0 l z2 Ez2). eapply Hl; eauto.
Qed.

(** ** C23: append *)
Lemma c23_append : forall X M M' a b, fill_outside X -> made X M a -> made X M' b ->
  match concatenate [a; b] with
  | Ok (Some c) => append a b = (Ok tt, c)
  | Ok None => False
  | Err _ => exists x, append a b = (Err x, a)
  end.
Proof.
  intros X M M' a b HX Ha Hb. eapply append_concatenate; eapply made_rep; eauto.
Qed.

(** ** C24: tables *)
Lemma c24_tables : forall X M e, fill_outside X -> made X M e ->
  exists e', from_tables (qp X) (build_tables e) = Ok e' /\ made X M e' /\
    build_tables e' = build_tables e /\ e_npdf e' = e_npdf e /\ g_name (e_obj e') = g_name (e_obj e) /\
    (forall m x, (m = MPpf -> g_name (e_obj e) <> "quant") -> evaluate m e' x = evaluate m e x) /\
    (forall m x, In m M -> on_points x -> evaluate m e' x = evaluate m e x).
Proof.
  intros X M e HX Hm. destruct (made_rep X M e HX Hm) as (k & D & Hr & Hk & Hc). pose proof Hr as (G & Hne & HD & (_ & (g0 & Eg0 & Hsame)) & Hh).
  pose proof (rep_npdf' X k D e Hr) as Hn. rewrite Hn in Hc.
  destruct (rebuild (s_phi X) (s_Phi X) (s_quad X) (s_cubic X) (s_dspline X) (s_Phinv X) HX k D _ (e_ancil e) G Hne HD (or_introl eq_refl) Hc) as (e' & E & Hr' & Ha' & _).
  assert (Ef : from_tables (qp X) (build_tables e) = Ok e') by (unfold qp; rewrite (from_tables_eq _ _ _ _ _ _ k D e Hr); exact E).
  exists e'. split; [exact Ef|]. split; [exact (reach_tables _ _ _ _ _ _ M e e' Hm Ef)|].
  destruct (rep_meta _ _ _ _ Hr) as (M1 & O1 & N1). destruct (rep_meta _ _ _ _ Hr') as (M2 & O2 & N2).
  split; [unfold build_tables; congruence|]. split; [rewrite Hn; apply rep_npdf' with (1 := Hr')|]. split; [congruence|]. split.
  - intros m x Hq. apply ens_new_inv in E. destruct E as (g & Eg & _ & ->). rewrite Eg0 in Eg. injection Eg as <-.
    assert (Ee : forall f a c, evaluate m (mkens f g0 a c) x = g_eval m g0 x) by (intros; destruct m; reflexivity). rewrite Ee.
    rewrite (Hsame m x); [destruct m; reflexivity|]. intros Em. specialize (Hq Em). rewrite N1 in Hq. destruct k; try reflexivity. exfalso. apply Hq. reflexivity.
  - intros m x Hin Hx. subst M. rewrite (rep_answers X k D e' m x Hr' Hin Hx), (rep_answers X k D e m x Hr Hin Hx). reflexivity.
Qed.

(** ** C50: iteration *)
Lemma iterate_all (cc : string -> option (vdict R -> res (gobj R))) e n : forall j i fuel, (j + i = n)%nat -> (j < fuel)%nat ->
  (forall i, (i < n)%nat -> exists p, getitem cc e (KInt (Z.of_nat i)) = Ok p) -> getitem cc e (KInt (Z.of_nat n)) = Err IndexError ->
  exists l, iterate_from cc e i fuel = Some (Ok l) /\ length l = j /\ forall q p, nth_error l q = Some p -> getitem cc e (KInt (Z.of_nat (i + q))) = Ok p.
Proof.
  induction j as [|j IH]; intros i fuel Hn Hf Hok Hend.
  - replace i with n by lia. destruct fuel as [|fuel]; [lia|]. cbn [iterate_from]. rewrite Hend. exists []. split; [reflexivity|]. split; [reflexivity|]. intros [|q] p Hq; discriminate.
  - destruct fuel as [|fuel]; [lia|]. cbn [iterate_from]. destruct (Hok i) as (p & Hp); [lia|]. rewrite Hp.
    destruct (IH (S i) fuel) as (l & El & Hl & Hq); [lia|lia|auto|auto|]. rewrite El. exists (p :: l). split; [reflexivity|]. split; [simpl; lia|].
    intros [|q] p' H; [injection H as <-; rewrite Nat.add_0_r; exact Hp|]. replace (i + S q)%nat with (S i + q)%nat by lia. apply Hq. exact H.
Qed.
Lemma c50_iterate : forall X M e s, fill_outside X -> made X M e -> has_ancil e s -> anc_plain s ->
  exists l, (forall fuel, (e_npdf e < fuel)%nat -> iterate_from (qp X) e 0 fuel = Some (Ok l)) /\
    length l = e_npdf e /\ forall i p, nth_error l i = Some p -> getitem (qp X) e (KInt (Z.of_nat i)) = Ok p.
Proof.
  intros X M e s HX Hm Hs Hp.
  assert (Hok : forall i, (i < e_npdf e)%nat -> exists p, getitem (qp X) e (KInt (Z.of_nat i)) = Ok p).
  { intros i Hi. destruct (c21_slice X M e (KInt (Z.of_nat i)) [i] s HX Hm) as (e' & E & _); eauto; [|discriminate]. exists i. split; [reflexivity|]. split; [exact Hi|]. left. reflexivity. }
  assert (Hend : getitem (qp X) e (KInt (Z.of_nat (e_npdf e))) = Err IndexError) by (apply (c21_integer X M); auto; lia).
  destruct (iterate_all (qp X) e (e_npdf e) (e_npdf e) 0 (S (e_npdf e))) as (l & El & Hl & Hq); auto; [lia|].
  exists l. split; [|split; [exact Hl|exact Hq]]. intros fuel Hf. destruct (iterate_all (qp X) e (e_npdf e) (e_npdf e) 0 fuel) as (l' & El' & Hl' & Hq'); auto; [lia|].
  rewrite El'. f_equal. f_equal. apply nth_ext with (d := e) (d' := e); [congruence|]. intros q Hq0.
  assert (H1 : nth_error l' q = Some (nth q l' e)) by (apply nth_error_nth'; auto). assert (H2 : nth_error l q = Some (nth q l e)) by (apply nth_error_nth'; lia).
  specialize (Hq' _ _ H1). specialize (Hq _ _ H2). congruence.
Qed.

(** ** C29-C31: histories of calls *)
Inductive call :=
| CGridded (grid : list R)
| CMode (grid : list R)
| CMoment (n : nat) (lo hi dx : R)
| CSetAncil (anc : option (vdict R))
| CAddAncil (d : vdict R)
| CUpdate (d : vdict R) (anc : option (vdict R))
| CUpdateObjdata (d : vdict R) (anc : option (vdict R))
| CAppend (other : ens R).
(** the exception if any, and the ensemble afterwards *)
Definition outcome {A} (p : res A * ens R) : option exn * ens R := (match fst p with Ok _ => None | Err x => Some x end, snd p).
Definition perform (e : ens R) (c : call) : option exn * ens R :=
  match c with
  | CGridded g => outcome (gridded e g)
  | CMode g => outcome (mode e g)
  | CMoment n lo hi dx => outcome (moment_partial e n lo hi dx)
  | CSetAncil a => outcome (set_ancil e a)
  | CAddAncil d => outcome (add_to_ancil e d)
  | CUpdate d a => outcome (update e d a)
  | CUpdateObjdata d a => outcome (update_objdata e d a)
  | CAppend o => outcome (append e o)
  end.
Definition changes_pdfs (c : call) : bool := match c with CUpdate _ _ | CUpdateObjdata _ _ | CAppend _ => true | _ => false end.
(** [history e cs e']: the calls [cs] turned [e] into [e']; calls that replace the PDFs succeeded
    (the others may have raised exceptions). *)
Inductive history (e : ens R) : list call -> ens R -> Prop :=
| h_start : history e [] e
| h_call cs e1 c x e2 : history e cs e1 -> perform e1 c = (x, e2) -> (changes_pdfs c = true -> x = None) -> history e (cs ++ [c]) e2.

Definition cache_right (e : ens R) : Prop := match e_gridded e with None => True | Some (g, v) => ens_pdf e (PGrid g) = Ok v end.
Lemma array_equal_eq (a b : list R) : array_equal a b = true <-> a = b.
Proof.
  unfold array_equal. split.
  - intros H. apply andb_prop in H. destruct H as [H1 H2]. apply Nat.eqb_eq in H1. revert b H1 H2. induction a as [|x a IH]; intros [|y b] H1 H2; try discriminate; [reflexivity|].
    cbn [map2 forallb] in H2. apply andb_prop in H2. destruct H2 as [H2 H3]. destruct (neqb_reflect x y) as [->|]; [|discriminate]. f_equal. apply IH; auto.
  - intros <-. rewrite Nat.eqb_refl. induction a as [|x a IH]; [reflexivity|]. cbn [map2 forallb]. destruct (neqb_reflect x x); [|congruence]. exact IH.
Qed.
Lemma gridded_right (e : ens R) g : cache_right e ->
  fst (gridded e g) = match ens_pdf e (PGrid g) with Ok v => Ok (g, v) | Err x => Err x end /\ cache_right (snd (gridded e g)).
Proof.
  unfold cache_right, gridded. intros H. destruct (e_gridded e) as [[g0 v0]|] eqn:Eg.
  - destruct (array_equal g0 g) eqn:Ea.
    + apply array_equal_eq in Ea. subst g0. rewrite H. cbn [fst snd]. rewrite Eg. auto.
    + destruct (ens_pdf e (PGrid g)) eqn:Ep; cbn [fst snd e_gridded]; [auto|]. rewrite Eg. auto.
  - destruct (ens_pdf e (PGrid g)) eqn:Ep; cbn [fst snd e_gridded]; [auto|]. rewrite Eg. auto.
Qed.
Lemma mode_state (e : ens R) g : snd (mode e g) = snd (gridded e g).
Proof. unfold mode. destruct (gridded e g) as [[[g0 v0]|] e1]; [destruct (length g0 =? 0)%nat|]; reflexivity. Qed.
Lemma moment_state (e : ens R) n lo hi dx : snd (moment_partial e n lo hi dx) = e \/ exists g, snd (moment_partial e n lo hi dx) = snd (gridded e g).
Proof.
  unfold moment_partial. destruct (_ <? 0)%Z; [left; reflexivity|right]. exists (np_linspace lo hi (Z.to_nat (int_trunc (ndiv (nsub hi lo) dx)))).
  destruct (gridded e _) as [[[g0 v0]|] e1]; reflexivity.
Qed.
Lemma update_cleared (e : ens R) d a e' : update e d a = (Ok tt, e') -> e_gridded e' = None.
Proof. intros H. apply update_ok in H. apply ens_new_inv in H. destruct H as (g & _ & _ & ->). reflexivity. Qed.
Lemma append_cleared (e o e' : ens R) : append e o = (Ok tt, e') -> e_gridded e' = None.
Proof.
  unfold append. destruct (compare_dicts _) as [[]|]; cbn [bind]; try discriminate. destruct (concatenate_dicts _); cbn [bind]; [|discriminate].
  destruct (joined_ancil _ _); cbn [bind]; [|discriminate]. apply update_cleared.
Qed.
Lemma outcome_ok {A} (p : res A * ens R) x e' : outcome p = (x, e') -> e' = snd p /\ (x = None -> exists a, fst p = Ok a).
Proof. unfold outcome. intros H. injection H as <- <-. split; [reflexivity|]. destruct (fst p); [eauto|discriminate]. Qed.
Lemma perform_right e c x e' : cache_right e -> perform e c = (x, e') -> (changes_pdfs c = true -> x = None) -> cache_right e'.
Proof.
  intros H E Hc. destruct c; cbn [perform changes_pdfs] in *; apply outcome_ok in E; destruct E as [-> E].
  - apply gridded_right. exact H.
  - rewrite mode_state. apply gridded_right. exact H.
  - destruct (moment_state e n lo hi dx) as [->|(g & ->)]; [exact H|apply gridded_right; exact H].
  - unfold set_ancil. destruct (check_array_shapes anc (e_npdf e)); exact H.
  - unfold add_to_ancil. destruct (check_columns d (e_npdf e)); [|exact H]. destruct (e_ancil e); exact H.
  - destruct (E (Hc eq_refl)) as ([] & E1). unfold cache_right. rewrite (update_cleared e d anc (snd (update e d anc))); [exact I|]. rewrite <- E1. apply surjective_pairing.
  - destruct (E (Hc eq_refl)) as ([] & E1). unfold cache_right. unfold update_objdata in *. erewrite update_cleared; [exact I|]. rewrite <- E1. apply surjective_pairing.
  - destruct (E (Hc eq_refl)) as ([] & E1). unfold cache_right. rewrite (append_cleared e other (snd (append e other))); [exact I|]. rewrite <- E1. apply surjective_pairing.
Qed.
Lemma history_right e cs e' : cache_right e -> history e cs e' -> cache_right e'.
Proof. intros H. induction 1 as [|cs e1 c x e2 _ IH E Hc]; [exact H|]. eapply perform_right; eauto. Qed.
Lemma c29_gridded : forall f d anc e cs e' grid, ens_new f d anc = Ok e -> history e cs e' ->
  fst (gridded e' grid) = match ens_pdf e' (PGrid grid) with Ok v => Ok (grid, v) | Err x => Err x end.
Proof.
  intros f d anc e cs e' grid E H. apply gridded_right. eapply history_right; [|exact H]. apply ens_new_inv in E. destruct E as (g & _ & _ & ->). exact I.
Qed.
(** mode and moment_partial use the current PDFs too *)
Lemma c29_mode : forall f d anc e cs e' grid v, ens_new f d anc = Ok e -> history e cs e' -> ens_pdf e' (PGrid grid) = Ok v -> grid <> [] ->
  fst (mode e' grid) = Ok (map (fun line => nth0 (np_argmax (map xval line)) grid) v).
Proof.
  intros f d anc e cs e' grid v E H Hv Hne. pose proof (c29_gridded f d anc e cs e' grid E H) as Hg. rewrite Hv in Hg. unfold mode.
  destruct (gridded e' grid) as [r e2]. cbn [fst] in Hg. subst r. destruct grid as [|x l]; [congruence|]. reflexivity.
Qed.

(** ** C30: ancillary columns *)
Definition ancil_fits (e : ens R) : Prop := match e_ancil e with None => True | Some d => forall k v, In (k, v) d -> one_per_pdf (e_npdf e) v end.
Lemma fits_iff (e : ens R) : ancil_fits e <-> check_array_shapes (e_ancil e) (e_npdf e) = Ok tt.
Proof. unfold ancil_fits, check_array_shapes. destruct (e_ancil e); [symmetry; apply check_columns_iff|split; auto]. Qed.
Lemma new_fits f d anc (e : ens R) : ens_new f d anc = Ok e -> ancil_fits e.
Proof. intros H. apply fits_iff. apply ens_new_inv in H. destruct H as (g & _ & H & ->). exact H. Qed.
Lemma update_fits (e : ens R) d a e' : update e d a = (Ok tt, e') -> ancil_fits e'.
Proof. intros H. apply update_ok in H. eapply new_fits; eauto. Qed.
Lemma fits_same (e e' : ens R) : e_obj e' = e_obj e -> e_ancil e' = e_ancil e -> ancil_fits e -> ancil_fits e'.
Proof. unfold ancil_fits, e_npdf. intros -> ->. auto. Qed.
Lemma gridded_obj' (e : ens R) g : e_obj (snd (gridded e g)) = e_obj e /\ e_ancil (snd (gridded e g)) = e_ancil e.
Proof. unfold gridded. destruct (e_gridded e) as [[g0 v0]|]; [destruct (array_equal g0 g)|]; try destruct (ens_pdf e (PGrid g)); auto. Qed.
Lemma perform_fits e c x e' : ancil_fits e -> perform e c = (x, e') -> (changes_pdfs c = true -> x = None) -> ancil_fits e'.
Proof.
  intros H E Hc. destruct c; cbn [perform changes_pdfs] in *; apply outcome_ok in E; destruct E as [-> E].
  - destruct (gridded_obj' e grid). eapply fits_same; eauto.
  - rewrite mode_state. destruct (gridded_obj' e grid). eapply fits_same; eauto.
  - destruct (moment_state e n lo hi dx) as [->|(g & ->)]; [exact H|]. destruct (gridded_obj' e g). eapply fits_same; eauto.
  - unfold set_ancil. destruct (check_array_shapes anc (e_npdf e)) as [[]|] eqn:Ec; [|exact H]. apply fits_iff. exact Ec.
  - unfold add_to_ancil. destruct (check_columns d (e_npdf e)) as [[]|] eqn:Ec; [|exact H]. destruct (e_ancil e) as [a|] eqn:Ea; [|exact H]. apply fits_iff.
    cbn [e_ancil snd check_array_shapes]. apply fits_iff in H. rewrite Ea in H. apply check_update; auto.
  - destruct (E (Hc eq_refl)) as ([] & E1). eapply update_fits. rewrite <- E1. apply surjective_pairing.
  - destruct (E (Hc eq_refl)) as ([] & E1). unfold update_objdata in *. eapply update_fits. rewrite <- E1. apply surjective_pairing.
  - destruct (E (Hc eq_refl)) as ([] & E1). revert E1. unfold append. destruct (compare_dicts _) as [[]|]; cbn [bind]; try discriminate. destruct (concatenate_dicts _); cbn [bind]; [|discriminate].
    destruct (joined_ancil _ _); cbn [bind]; [|discriminate]. unfold update_objdata. intros E1. eapply update_fits. rewrite <- E1. apply surjective_pairing.
Qed.
Lemma c30_ancil : forall f d anc e cs e', ens_new f d anc = Ok e -> history e cs e' ->
  match e_ancil e' with None => True | Some t => forall k v, In (k, v) t -> one_per_pdf (e_npdf e') v end.
Proof.
  intros f d anc e cs e' E H. pose proof (new_fits _ _ _ _ E) as H0. clear E. change (ancil_fits e').
  induction H as [|cs e1 c x e2 _ IH E Hc]; [exact H0|]. eapply perform_fits; eauto.
Qed.
Lemma c30_rejected : forall (e : ens R) (d : vdict R),
  (~ (forall k v, In (k, v) d -> one_per_pdf (e_npdf e) v)) ->
  (exists x, set_ancil e (Some d) = (Err x, e)) /\ (exists x, add_to_ancil e d = (Err x, e)).
Proof.
  intros e d H. assert (E : exists x, check_columns d (e_npdf e) = Err x).
  { destruct (check_columns d (e_npdf e)) as [[]|x] eqn:E; [|eauto]. exfalso. apply H. apply check_columns_iff. exact E. }
  destruct E as (x & E). unfold set_ancil, add_to_ancil. cbn [check_array_shapes]. rewrite E. eauto.
Qed.
Lemma c30_accepted : forall (e : ens R) (d : vdict R),
  (forall k v, In (k, v) d -> one_per_pdf (e_npdf e) v) ->
  (exists e', set_ancil e (Some d) = (Ok tt, e') /\ e_ancil e' = Some d /\ e_obj e' = e_obj e) /\
  (forall a, e_ancil e = Some a -> exists e', add_to_ancil e d = (Ok tt, e') /\ e_ancil e' = Some (vupdate a d) /\ e_obj e' = e_obj e).
Proof.
  intros e d H. apply check_columns_iff in H. unfold set_ancil, add_to_ancil. cbn [check_array_shapes]. rewrite H. split; [eauto|].
  intros a ->. eauto.
Qed.

(** ** C31: update *)
(** a successful update is a fresh build; a failing constructor changes nothing; ancillary data
    that does not fit is noticed too late: the PDFs are replaced, the old table and cache stay. *)
Lemma c31_update : forall (e : ens R) d anc,
  match e_func e d with
  | Err x => update e d anc = (Err x, e)
  | Ok g => match check_array_shapes anc (g_npdf g) with
            | Ok _ => exists e', ens_new (e_func e) d anc = Ok e' /\ update e d anc = (Ok tt, e')
            | Err x => exists e', update e d anc = (Err x, e') /\ e_obj e' = g /\ e_ancil e' = e_ancil e /\ e_gridded e' = e_gridded e
            end
  end.
Proof.
  intros e d anc. rewrite update_new. unfold ens_new. destruct (e_func e d) as [g|]; [|reflexivity]. cbn [bind].
  destruct (check_array_shapes anc (g_npdf g)) as [[]|]; cbn [bind]; eauto.
Qed.
Lemma c31_atomic : forall (e : ens R) d anc x e', update e d anc = (Err x, e') ->
  (forall g, e_func e d = Ok g -> check_array_shapes anc (g_npdf g) = Ok tt) -> e' = e.
Proof.
  intros e d anc x e' H Hg. rewrite update_new in H. destruct (e_func e d) as [g|]; [|congruence]. rewrite (Hg g eq_refl) in H. discriminate.
Qed.

(** ** Examples *)
(** every valid call of a constructor gives an ensemble *)
Lemma made_new : forall X i s, fill_outside X -> input_ok i -> anc_good (input_npdf i) s ->
  exists e, qp_create (qp X) (input_name i) (input_dict i) = Ok (mkens (e_func e) (e_obj e) None None) /\
    ens_new (create_of (qp X) (input_name i)) (input_dict i) (anc_dict s) = Ok e /\
    made X (input_methods i) e /\ e_npdf e = input_npdf i /\ has_ancil e s /\ g_name (e_obj e) = input_name i.
Proof.
  intros X i s HX Hi Hs. destruct (input_holds (s_phi X) (s_Phi X) (s_quad X) (s_cubic X) (s_dspline X) (s_Phinv X) HX i Hi) as (G & HD & g & Eg & Hh & Hc).
  unfold Kinds.kind_create in Eg. rewrite input_kind_name in Eg. fold (qp X) in Eg.
  assert (Hn : g_npdf g = input_npdf i).
  { unfold g_npdf. destruct Hh as (_ & _ & _ & -> & _). rewrite input_rows_length by auto. unfold prod. simpl. lia. }
  exists (mkens (create_of (qp X) (input_name i)) g (anc_dict s) None).
  assert (E : ens_new (create_of (qp X) (input_name i)) (input_dict i) (anc_dict s) = Ok (mkens (create_of (qp X) (input_name i)) g (anc_dict s) None)).
  { unfold ens_new. rewrite Eg. cbn [bind]. rewrite Hn, (check_ancil s) by auto. reflexivity. }
  split; [|split; [exact E|]].
  - unfold qp_create. cbn [e_func e_obj]. unfold create_of in Eg |- *. destruct (qp X (input_name i)) as [c|]; [|discriminate].
    unfold ens_new. rewrite Eg. reflexivity.
  - split; [exact (reach_new _ _ _ _ _ _ i _ _ Hi E)|]. split; [exact Hn|]. split; [split; [reflexivity|]|].
    + unfold e_npdf. cbn [e_obj]. rewrite Hn. exact Hs.
    + destruct Hh as (H & _). cbn [e_obj]. rewrite H. apply input_kind_name.
Qed.
Definition scipy0 : scipy := mkscipy (fun x => x) (fun x => x) (fun p => Fin p) interp1d (fun _ _ x => x) (fun _ _ x => x).
Lemma scipy0_fill : fill_outside scipy0.
Proof. intros xs ys lo hi lo' hi' x [H1 H2]. apply interp1d_inside; [destruct xs; exact H1|exact H2]. Qed.
Definition hist0 : input := IHist [0; 1; 3] [[1; 2]; [0; 1]; [2; 0]].
Definition table0 : atable := Some ([("z", NumCol []); ("name", TextCol [])], [[Nums [5]; Texts ["a"]]; [Nums [6]; Texts ["b"]]; [Nums [7]; Texts ["c"]]]).
Lemma hist0_ok : input_ok hist0.
Proof.
  split; [|split; [|split]].
  - repeat constructor; lra.
  - simpl. lia.
  - discriminate.
  - intros row [<-|[<-|[<-|[]]]]; (split; [reflexivity|]); (split; [intros [|[|i]] Hi; simpl in Hi; unfold nth0; simpl; try lra; lia|]); unfold rsum, nth0; simpl; lra.
Qed.
Lemma table0_ok : anc_good (input_npdf hist0) table0 /\ anc_plain table0.
Proof.
  split; [split; [reflexivity|split]|].
  - repeat constructor.
  - repeat constructor; simpl; intuition discriminate.
  - intros k c [E|[E|[]]]; injection E as <- <-; reflexivity.
Qed.
(** an ensemble of three histograms with a table of two columns, a key that picks PDFs 2 and 0 *)
Lemma c21_example : exists X M e key ps s,
  fill_outside X /\ made X M e /\ M = [MPdf; MCdf; MPpf] /\ e_npdf e = 3%nat /\
  picks (e_npdf e) key ps /\ ps = [2; 0]%nat /\ key = KList [-1; 0]%Z /\ has_ancil e s /\ anc_plain s /\ s <> None.
Proof.
  destruct (made_new scipy0 hist0 table0 scipy0_fill hist0_ok (proj1 table0_ok)) as (e & _ & _ & Hm & Hn & Hs & _).
  exists scipy0, (input_methods hist0), e, (KList [-1; 0]%Z), [2; 0]%nat, table0. split; [apply scipy0_fill|]. split; [exact Hm|]. split; [reflexivity|]. split; [exact Hn|].
  split; [rewrite Hn; simpl; repeat constructor; simpl; unfold at_index; simpl; lia|]. split; [reflexivity|]. split; [reflexivity|]. split; [exact Hs|].
  split; [apply table0_ok|discriminate].
Qed.
Definition hist1 : input := IHist [0; 1; 3] [[1; 0]].
Definition table1 : atable := Some ([("z", NumCol []); ("name", TextCol [])], [[Nums [8]; Texts ["d"]]]).
Lemma c22_example : exists X M a b A Ba Bb,
  fill_outside X /\ joinable X M [a; b] /\ e_npdf a = 3%nat /\ e_npdf b = 1%nat /\
  has_ancil a (Some (A, Ba)) /\ has_ancil b (Some (A, Bb)).
Proof.
  assert (H1 : input_ok hist1).
  { split; [|split; [|split]]; [repeat constructor; lra|simpl; lia|discriminate|]. intros row [<-|[]].
    split; [reflexivity|]. split; [intros [|[|i]] Hi; simpl in Hi; unfold nth0; simpl; try lra; lia|unfold rsum, nth0; simpl; lra]. }
  assert (T1 : anc_good (input_npdf hist1) table1).
  { split; [reflexivity|split]; [repeat constructor|repeat constructor; simpl; intuition discriminate]. }
  destruct (made_new scipy0 hist0 table0 scipy0_fill hist0_ok (proj1 table0_ok)) as (a & _ & Ea & Ha & Na & Sa & _).
  destruct (made_new scipy0 hist1 table1 scipy0_fill H1 T1) as (b & _ & Eb & Hb & Nb & Sb & _).
  assert (Hab : metadata a = metadata b /\ widths a = widths b).
  { apply ens_new_inv in Ea. destruct Ea as (ga & Ea & _ & ->). apply ens_new_inv in Eb. destruct Eb as (gb & Eb & _ & ->).
    destruct (input_holds (s_phi scipy0) (s_Phi scipy0) (s_quad scipy0) (s_cubic scipy0) (s_dspline scipy0) (s_Phinv scipy0) scipy0_fill hist0 hist0_ok) as (_ & _ & g & Eg & (_ & Hga & Hda & _) & _).
    destruct (input_holds (s_phi scipy0) (s_Phi scipy0) (s_quad scipy0) (s_cubic scipy0) (s_dspline scipy0) (s_Phinv scipy0) scipy0_fill hist1 H1) as (_ & _ & g' & Eg' & (_ & Hgb & Hdb & _) & _).
    change (Kinds.kind_create _ _ _ _ _ _ (input_kind hist0) (input_dict hist0)) with (create_of (qp scipy0) (input_name hist0) (input_dict hist0)) in Eg.
    change (Kinds.kind_create _ _ _ _ _ _ (input_kind hist1) (input_dict hist1)) with (create_of (qp scipy0) (input_name hist1) (input_dict hist1)) in Eg'.
    rewrite Ea in Eg. rewrite Eb in Eg'. injection Eg as ->. injection Eg' as ->.
    unfold metadata, widths, objdata. cbn [e_obj]. rewrite Hga, Hgb, Hda, Hdb. split; reflexivity. }
  destruct Hab as [Hm Hw].
  exists scipy0, (input_methods hist0), a, b, [("z", NumCol []); ("name", TextCol [])], [[Nums [5]; Texts ["a"]]; [Nums [6]; Texts ["b"]]; [Nums [7]; Texts ["c"]]], [[Nums [8]; Texts ["d"]]].
  split; [apply scipy0_fill|]. split; [|repeat split; auto; try apply Sa; apply Sb].
  split; [intros e [<-|[<-|[]]]; auto|]. intros e e' [<-|[<-|[]]] [<-|[<-|[]]]; auto.
Qed.

(** ** C77: slices of slices *)
Lemma select_select {A} (dflt : A) l ps qs : (forall q, In q qs -> (q < length ps)%nat) ->
  select dflt (select dflt l ps) qs = select dflt l (select 0%nat ps qs).
Proof.
  intros H. unfold select. rewrite map_map. apply map_ext_in. intros q Hq. specialize (H q Hq).
  rewrite (nth_indep _ dflt (nth 0%nat l dflt)) by (rewrite map_length; auto). apply (map_nth (fun p => nth p l dflt)).
Qed.
Lemma select_fits A B ps n : length B = n -> List.Forall (row_fits A) B -> (forall p, In p ps -> (p < n)%nat) -> List.Forall (row_fits A) (select [] B ps).
Proof. intros <- H Hp. rewrite Forall_forall in *. intros d Hd. apply H. eapply select_in; eauto. Qed.
Lemma c77_slice_of_slice : forall X M e key ps key' qs s, fill_outside X -> made X M e ->
  picks (e_npdf e) key ps -> ps <> [] -> is_int key = false -> picks (length ps) key' qs -> qs <> [] ->
  has_ancil e s -> (is_int key' = true -> anc_plain s) ->
  exists e1 e2, getitem (qp X) e key = Ok e1 /\ getitem (qp X) e1 key' = Ok e2 /\ e_npdf e2 = length qs /\
    (forall m x, In m M -> on_points x -> exists t, evaluate m e x = Ok t /\ length t = e_npdf e /\
       evaluate m e2 x = Ok (select [] t (select 0%nat ps qs))) /\
    (is_int key' = false -> e_ancil e2 = match s with None => None | Some (A, B) => Some (columns A (select [] B (select 0%nat ps qs))) end).
Proof.
  intros X M e key ps key' qs s HX Hm Hp Hne Hi Hq Hqne Hs Hi'.
  destruct (c21_slice X M e key ps s HX Hm Hp Hne Hs) as (e1 & E1 & Hm1 & Hn1 & _ & Hev1 & Ha1); [rewrite Hi; discriminate|].
  assert (Hlt : forall p, In p ps -> (p < e_npdf e)%nat) by (apply (key_positions_lt _ key); apply picks_iff; exact Hp).
  assert (Hlt' : forall q, In q qs -> (q < length ps)%nat) by (apply (key_positions_lt _ key'); apply picks_iff; exact Hq).
  assert (Hs1 : has_ancil e1 (anc_select ps s)).
  { destruct Hs as (Hs & Hg). destruct s as [[A B]|]; (split; [|rewrite Hn1]).
    - rewrite Ha1. destruct key; try discriminate Hi; reflexivity.
    - destruct Hg as (G1 & G2 & G3). split; [apply select_length|]. split; [eapply select_fits; eauto|exact G3].
    - exact Ha1.
    - exact I. }
  rewrite <- Hn1 in Hq.
  destruct (c21_slice X M e1 key' qs (anc_select ps s) HX Hm1 Hq Hqne Hs1) as (e2 & E2 & _ & Hn2 & _ & Hev2 & Ha2).
  { intros H. specialize (Hi' H). destruct s as [[A B]|]; exact Hi'. }
  exists e1, e2. split; [exact E1|]. split; [exact E2|]. split; [exact Hn2|]. split.
  - intros m x Hin Hx. destruct (Hev1 m x Hin Hx) as (t & Et & Lt & Et1). destruct (Hev2 m x Hin Hx) as (t1 & Et1' & _ & Et2).
    rewrite Et1 in Et1'. injection Et1' as <-. exists t. split; [exact Et|]. split; [exact Lt|]. rewrite Et2. f_equal. apply select_select. auto.
  - intros Hk. rewrite Ha2. destruct s as [[A B]|]; [|reflexivity]. cbn [anc_select]. rewrite <- (select_select [] B ps qs Hlt'). destruct key'; try discriminate Hk; reflexivity.
Qed.
Lemma picks_example : picks 5 (KSlice (-3) 10) [2; 3; 4]%nat /\ picks 5 (KInt (-1)) [4]%nat /\ picks 3 (KMask [true; false; true]) [0; 2]%nat.
Proof. split; [|split]; apply picks_iff; reflexivity. Qed.
Lemma c29_example : exists f d anc e cs e' g, ens_new f d anc = Ok e /\ history e cs e' /\ (3 <= length cs)%nat /\ ens_pdf e' (PGrid g) <> ens_pdf e (PGrid g).
Proof.
  set (mk := fun (d : vdict R) => Ok (mkgobj "toy" [] d [1%nat] (fun _ => match vget d "a" with Some (VNum t) => Ok [[Fin t]] | _ => Err KeyError end) (fun _ => Err KeyError) (fun _ => Err KeyError) : gobj R)).
  exists mk, [("a", VNum 1)], None. eexists. exists [CGridded [0]; CUpdate [("a", VNum 2)] None; CSetAncil (Some [("z", VArr (nd1 [1; 2]))])]. eexists. exists [0].
  split; [reflexivity|]. split.
  - change [CGridded [0]; CUpdate [("a", VNum 2)] None; CSetAncil (Some [("z", VArr (nd1 [1; 2]))])] with ((([] ++ [CGridded [0]]) ++ [CUpdate [("a", VNum 2)] None]) ++ [CSetAncil (Some [("z", VArr (nd1 [1; 2]))])]).
    econstructor; [econstructor; [econstructor; [constructor| |]| |]| |]; try reflexivity; discriminate.
  - split; [simpl; lia|]. cbn. intros H. injection H as H. lra.
Qed.
