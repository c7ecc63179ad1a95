(** Which ensembles share ancillary data: C121, C122. *)
From Coq Require Import String ZArith Bool List Arith Lia Relations.
From Verif Require Import Py NdArray Heap HeapProofs.
Import ListNotations.
Local Open Scope string_scope.
Local Open Scope list_scope.
Local Open Scope nat_scope.

Section HeapTheorems.
  Context {V : Type}.
  Notation heap := (heap V).
  Notation act := (act V).
  Notation columns := (dict string (cell V)).

  (** ** specification *)
  (** the heaps a user can reach *)
  Inductive reached : heap -> Prop :=
  | reached_start : reached empty
  | reached_step h a : reached h -> reached (fst (step h a)).
  (** the ensemble a method is called on, or whose array is written *)
  Definition acts_on (a : act) (o : nat) : Prop :=
    match a with ASet o' _ | AAdd o' _ | AUpdate o' _ _ | AAppend o' _ | AWrite o' _ _ _ => o' = o | _ => False end.
  Definition same_dict (h : heap) (o o' : nat) : Prop :=
    exists n n' d, nth_error (ensembles h) o = Some (n, Some d) /\ nth_error (ensembles h) o' = Some (n', Some d).
  (** [a] is one of the arrays in [o.ancil] *)
  Definition has_array (h : heap) (o : nat) (a : arr) : Prop :=
    exists n d k, nth_error (ensembles h) o = Some (n, Some d) /\ In (k, CArr a) (dict_at h d).
  (** element [j] of column [k] of [o] lies in the memory of a column of [o'] *)
  Definition same_place (h : heap) (o : nat) (k : string) (j o' : nat) : Prop :=
    exists n d a p a', nth_error (ensembles h) o = Some (n, Some d) /\ dget String.eqb (dict_at h d) k = Some (CArr a) /\ nth_error (a_pos a) j = Some p /\
      has_array h o' a' /\ a_buf a' = a_buf a /\ In p (a_pos a').
  Definition same_memory (h : heap) (o o' : nat) : Prop :=
    exists a a', has_array h o a /\ has_array h o' a' /\ a_buf a = a_buf a'.

  (** A careful user gives every dictionary made of new arrays to one ensemble only, makes no copies by [from_tables], and does
      not go on after a failing [update].  [F] are the dictionaries not yet given away, [L] which ensembles were sliced from which. *)
  Definition gives (a : act) : option nat :=
    match a with ANew _ d | ASet _ d | AUpdate _ _ d => d | AAdd _ d => Some d | _ => None end.
  Definition careful (F : list nat) (a : act) (r : res unit) : Prop :=
    (forall d, gives a = Some d -> In d F) /\
    match a with ACopy _ | ATables _ => False | AUpdate _ _ _ => r = Ok tt | _ => True end.
  Definition left_over (h : heap) (F : list nat) (a : act) : list nat :=
    match a with
    | ADict _ => length (dicts h) :: F
    | _ => match gives a with Some d => remove Nat.eq_dec d F | None => F end
    end.
  Definition sliced (h : heap) (L : list (nat * nat)) (a : act) (r : res unit) : list (nat * nat) :=
    match a, r with AGet o (KSlice _ _), Ok _ => (o, length (ensembles h)) :: L | _, _ => L end.
  Inductive clean : list nat -> list (nat * nat) -> heap -> Prop :=
  | clean_start : clean [] [] empty
  | clean_step F L h a h' r : clean F L h -> step h a = (h', r) -> careful F a r -> clean (left_over h F a) (sliced h L a r) h'.
  (** linked by slices, in any direction *)
  Definition linked (L : list (nat * nat)) : nat -> nat -> Prop := clos_refl_sym_trans _ (fun o o' => In (o, o') L).

  (** ** well-formed heaps *)
  Definition wf (h : heap) : Prop :=
    (forall o n d, nth_error (ensembles h) o = Some (n, Some d) -> d < length (dicts h)) /\ (forall d, good h (dict_at h d)).
  Definition bounded (h : heap) (d : option nat) : Prop := forall i, d = Some i -> i < length (dicts h).

  Lemma dict_at_snoc : forall (h : heap) c, dict_at (new_dict h c) (length (dicts h)) = c.
  Proof. intros h c. unfold dict_at, new_dict. cbn [dicts]. rewrite app_nth2, Nat.sub_diag by lia. reflexivity. Qed.
  Lemma dict_at_app : forall (h : heap) l b e d, d < length (dicts h) -> dict_at (mkheap b (dicts h ++ l) e) d = dict_at h d.
  Proof. intros h l b e d L. unfold dict_at. cbn [dicts]. apply app_nth1. exact L. Qed.
  Lemma dict_at_over : forall (h : heap) d, length (dicts h) <= d -> dict_at h d = [].
  Proof. intros h d L. apply nth_overflow. exact L. Qed.
  Lemma good_nil : forall h : heap, good h [].
  Proof. intros h a []. Qed.
  (** heaps that got one dictionary more *)
  Lemma good_snoc : forall (h h' : heap) c, grows h h' -> dicts h' = dicts h ++ [c] -> good h' c -> (forall d, good h (dict_at h d)) -> forall d, good h' (dict_at h' d).
  Proof.
    intros h h' c G E Hc Hg d. destruct (lt_eq_lt_dec d (length (dicts h))) as [[L|L]|L].
    - rewrite (grows_dict h h' G d L). apply (grows_good h h' _ G), Hg.
    - unfold dict_at. rewrite E, L, app_nth2, Nat.sub_diag by lia. exact Hc.
    - rewrite dict_at_over; [apply good_nil|]. rewrite E, app_length. cbn. lia.
  Qed.
  Lemma good_same : forall (h h' : heap), grows h h' -> dicts h' = dicts h -> (forall d, good h (dict_at h d)) -> forall d, good h' (dict_at h' d).
  Proof.
    intros h h' G E Hg d. replace (dict_at h' d) with (dict_at h d) by (unfold dict_at; rewrite E; reflexivity). apply (grows_good h h' _ G), Hg.
  Qed.
  Lemma grows_new_dict : forall (h h1 : heap) c, grows h h1 -> grows h (new_dict h1 c).
  Proof. intros h h1 c (x & y & E1 & E2). exists x, (y ++ [c]). cbn. rewrite E1, E2, app_assoc. split; reflexivity. Qed.

  Lemma fetch_read_length : forall (h : heap) a vs, fetch (read h a) = Ok vs -> length vs = length (a_pos a).
  Proof. intros h a vs E. apply fetch_some in E. apply (f_equal (@length _)) in E. unfold read in E. rewrite !map_length in E. lia. Qed.
  Lemma dget_in : forall (d : columns) k c, dget String.eqb d k = Some c -> In (k, c) d.
  Proof.
    induction d as [|[k' c'] d IH]; intros k c E; cbn [dget] in E; [discriminate E|]. destruct (String.eqb_spec k k') as [->|N]; [injection E as ->; left; reflexivity|right; exact (IH k c E)].
  Qed.
  Lemma gather_columns_length : forall (h : heap) k ds ns l, gather_columns h k ds = Ok l -> Forall2 (fun d n => check_shapes d n = Ok tt) ds ns -> length l = list_sum ns.
  Proof.
    intros h k ds ns l E F. unfold gather_columns in E. destruct (mapM _ ds) as [ls|] eqn:M; [|discriminate E]. cbn [bind] in E. injection E as <-.
    revert ls M. induction F as [|d n ds ns H F IH]; intros ls M; cbn [mapM] in M; [injection M as <-; reflexivity|].
    destruct (dget String.eqb d k) as [[a|v]|] eqn:D; try discriminate M. destruct (fetch (read h a)) as [vs|] eqn:E; [|discriminate M]. cbn [bind] in M.
    destruct (mapM _ ds) as [r|] eqn:M'; [|discriminate M]. cbn [bind] in M. injection M as <-. cbn [concat list_sum fold_right]. rewrite app_length, (IH r eq_refl).
    unfold list_sum. f_equal. rewrite (fetch_read_length h a vs E). rewrite check_shapes_fits in H. exact (H k (CArr a) (dget_in d k _ D)).
  Qed.
  Lemma mapM_in : forall {A B} (f : A -> res B) l r, mapM f l = Ok r -> forall y, In y r -> exists x, In x l /\ f x = Ok y.
  Proof.
    induction l as [|x l IH]; intros r E y Hy; cbn [mapM] in E; [injection E as <-; destruct Hy|]. destruct (f x) as [z|] eqn:Ez; [|discriminate E]. cbn [bind] in E.
    destruct (mapM f l) as [r'|]; [|discriminate E]. cbn [bind] in E. injection E as <-. destruct Hy as [<-|Hy]; [exists x; split; [left; reflexivity|exact Ez]|].
    destruct (IH r' eq_refl y Hy) as (x' & Hx & E'). exists x'. split; [right; exact Hx|exact E'].
  Qed.
  Lemma concatenate_length : forall (h : heap) ds ns cols, concatenate_columns h ds = Ok cols -> Forall2 (fun d n => check_shapes d n = Ok tt) ds ns ->
    forall k l, In (k, l) cols -> length l = list_sum ns.
  Proof.
    intros h ds ns cols E F k l Hi. unfold concatenate_columns in E. destruct ds as [|d ds]; [injection E as <-; destruct Hi|].
    destruct (forallb (same_names d) ds); [|discriminate E]. destruct (mapM_in _ _ _ E (k, l) Hi) as (k' & _ & E'). cbv beta in E'.
    destruct (gather_columns h k' (d :: ds)) as [l'|] eqn:G; [|discriminate E']. cbn [bind] in E'. injection E' as <- <-. exact (gather_columns_length h k' (d :: ds) ns l' G F).
  Qed.
  Lemma gather_ancil_fits : forall (h : heap) ds l ns, gather_ancil h ds = Some l -> Forall2 (fun d n => check_ancil h d n = Ok tt) ds ns ->
    Forall2 (fun d n => check_shapes d n = Ok tt) l ns.
  Proof.
    intros h ds l ns E F. revert l E. induction F as [|d n ds ns H F IH]; intros l E; cbn [gather_ancil fold_right] in E; [injection E as <-; constructor|].
    destruct d as [d|]; [|discriminate E]. fold (gather_ancil h ds) in E. destruct (gather_ancil h ds) as [l'|]; [|discriminate E]. injection E as <-. constructor; [exact H|]. apply IH. reflexivity.
  Qed.
  Lemma joined_spec : forall (h : heap) ds h1 r, joined h ds = Ok (h1, r) ->
    (r = None /\ h1 = h) \/
    (exists c, r = Some (length (dicts h)) /\ grows h h1 /\ dicts h1 = dicts h ++ [c] /\ ensembles h1 = ensembles h /\
       (forall a, In a (arrays c) -> fresh_in h h1 a) /\
       forall ns, Forall2 (fun d n => check_ancil h d n = Ok tt) ds ns -> check_shapes c (list_sum ns) = Ok tt).
  Proof.
    intros h ds h1 r E. unfold joined in E. destruct (gather_ancil h ds) as [l|] eqn:G; [|left; injection E as <- <-; split; reflexivity].
    right. destruct (concatenate_columns h l) as [cols|] eqn:C; [|discriminate E]. cbn [bind] in E. destruct (alloc_all h cols) as [h0 c] eqn:A. injection E as <- <-.
    destruct (alloc_all_spec cols h h0 c A) as (G0 & D0 & N0 & K & F). exists c. split; [reflexivity|]. split; [apply grows_new_dict; exact G0|].
    split; [cbn; rewrite D0; reflexivity|]. split; [exact N0|]. split.
    - intros a Ha. exact (alloc_all_fresh cols h h0 c A a Ha).
    - intros ns Hn. apply check_shapes_fits. intros k0 c0 Hi. pose proof (concatenate_length h l ns cols C (gather_ancil_fits h ds l ns G Hn)) as Ln.
      clear - F Hi Ln K. revert K. induction F as [|x y c cols H F IH]; intros K; [destruct Hi|]. destruct Hi as [->|Hi].
      + destruct H as (a & E & _ & L & _). cbn [snd] in E. rewrite E. cbn [fits]. rewrite L. destruct y as [ky ly]. apply (Ln ky). left. reflexivity.
      + apply IH; [exact Hi| |injection K; auto]. intros k l Hk. apply (Ln k). right. exact Hk.
  Qed.

  (** ** what a step does to the heap *)
  Inductive effect (h : heap) (a : act) : heap -> Prop :=
  | eff_grow h' ext : grows h h' -> (forall d, good h' (dict_at h' d)) -> ensembles h' = ensembles h ++ ext ->
      (forall n d, In (n, Some d) ext -> d < length (dicts h')) -> effect h a h'
  | eff_set h' o n d : acts_on a o -> grows h h' -> (forall d, good h' (dict_at h' d)) -> ensembles h' = set_nth (ensembles h) o (n, d) ->
      bounded h' d -> effect h a h'
  | eff_add o n b d : a = AAdd o d -> nth_error (ensembles h) o = Some (n, Some b) ->
      effect h a (mkheap (bufs h) (set_nth (dicts h) b (dupdate String.eqb (dict_at h b) (dict_at h d))) (ensembles h))
  | eff_write o k j v n d c p : a = AWrite o k j v -> nth_error (ensembles h) o = Some (n, Some d) -> dget String.eqb (dict_at h d) k = Some (CArr c) -> nth_error (a_pos c) j = Some p ->
      effect h a (mkheap (set_nth (bufs h) (a_buf c) (set_nth (nth (a_buf c) (bufs h) []) p v)) (dicts h) (ensembles h)).

  Lemma eff_same : forall h a, wf h -> effect h a h.
  Proof. intros h a [W1 W2]. apply (eff_grow h a h []); [apply grows_refl|exact W2|symmetry; apply app_nil_r|intros n d []]. Qed.
  Lemma eff_create : forall h h1 a n d, grows h h1 -> (forall i, good h1 (dict_at h1 i)) -> ensembles h1 = ensembles h -> bounded h1 d -> effect h a (fst (create h1 n d)).
  Proof.
    intros h h1 a n d G Hg E B. unfold create. destruct (check_ancil h1 d n); cbn [fst].
    - apply (eff_grow h a (new_ens h1 n d) [(n, d)]); [exact G|exact Hg|cbn; rewrite E; reflexivity|]. intros n' d' [E'|[]]. injection E' as -> ->. apply B. reflexivity.
    - apply (eff_grow h a h1 []); [exact G|exact Hg|rewrite app_nil_r; exact E|intros n' d' []].
  Qed.
  Lemma eff_update : forall h h1 a o n old d, acts_on a o -> grows h h1 -> (forall i, good h1 (dict_at h1 i)) -> ensembles h1 = ensembles h -> bounded h1 d -> bounded h1 old ->
    effect h a (fst (update h1 o n old d)).
  Proof.
    intros h h1 a o n old d A G Hg E B Bo. unfold update. destruct (check_ancil h1 d n); cbn [fst];
      (eapply (eff_set h a); [exact A|exact G|exact Hg|cbn; rewrite E; reflexivity|assumption]).
  Qed.
  Lemma known_bounded : forall h d, known_opt h d = true -> bounded h d.
  Proof. intros h d H i ->. cbn in H. unfold known in H. apply Nat.ltb_lt in H. exact H. Qed.
  Lemma joined_good : forall (h : heap) ds h1 r, wf h -> joined h ds = Ok (h1, r) -> grows h h1 /\ (forall d, good h1 (dict_at h1 d)) /\ ensembles h1 = ensembles h /\ bounded h1 r.
  Proof.
    intros h ds h1 r [W1 W2] E. destruct (joined_spec h ds h1 r E) as [[-> ->]|(c & -> & G & D & N & A & _)].
    - split; [apply grows_refl|]. split; [exact W2|]. split; [reflexivity|]. intros i Hi. discriminate Hi.
    - split; [exact G|]. split; [|split; [exact N|]].
      + apply (good_snoc h h1 c G D); [|exact W2]. intros a Ha. destruct (A a Ha) as (_ & R & I). split; assumption.
      + intros i Hi. injection Hi as <-. rewrite D, app_length. cbn. lia.
  Qed.

  Lemma step_effect : forall h a, wf h -> effect h a (fst (step h a)).
  Proof.
    intros h a W. pose proof W as [W1 W2]. pose proof (eff_same h a W) as Same. destruct a as [cols|d|n d|o key|o d|o d|o n d|o o2|os|o|o k j v]; cbn [step] in *.
    - destruct (alloc_all h cols) as [h1 c] eqn:A. cbn [fst]. destruct (alloc_all_spec cols h h1 c A) as (G & D & N & _ & _).
      apply (eff_grow h _ _ []); [apply grows_new_dict; exact G| |cbn; rewrite app_nil_r; exact N|intros n d []].
      apply (good_snoc h (new_dict h1 (dupdate String.eqb [] c)) (dupdate String.eqb [] c)); [apply grows_new_dict; exact G|cbn; rewrite D; reflexivity| |exact W2].
      intros a Ha. destruct (dupdate_arrays c [] a Ha) as [[]|Ha']. destruct (alloc_all_fresh cols h h1 c A a Ha') as (_ & R & I). split; assumption.
    - destruct (known h d); [|exact Same]. cbn [fst]. apply (eff_grow h _ _ []); [apply grows_new_dict, grows_refl| |cbn; rewrite app_nil_r; reflexivity|intros n d' []].
      apply (good_snoc h (new_dict h (dict_at h d)) (dict_at h d)); [apply grows_new_dict, grows_refl|reflexivity| |exact W2]. apply (W2 d).
    - destruct (known_opt h d) eqn:K; [|exact Same]. apply eff_create; [apply grows_refl|exact W2|reflexivity|apply known_bounded; exact K].
    - unfold with_ens. destruct (nth_error (ensembles h) o) as [[n d]|] eqn:O; [|exact Same]. destruct (key_positions n key) as [ps|]; [|exact Same].
      destruct d as [d|]; [|apply eff_create; [apply grows_refl|exact W2|reflexivity|intros i Hi; discriminate Hi]].
      destruct (slice_columns h key (dict_at h d)) as [[h1 c]|] eqn:S; [|exact Same].
      destruct (slice_columns_spec key n ps (dict_at h d) h h1 c S (W2 d)) as (G & D & N & A & _).
      apply eff_create; [apply grows_new_dict; exact G| |exact N|intros i Hi; injection Hi as <-; cbn; rewrite D, app_length; cbn; lia].
      apply (good_snoc h (new_dict h1 c) c); [apply grows_new_dict; exact G|cbn; rewrite D; reflexivity| |exact W2]. intros a Ha. destruct (A a Ha) as (R & I & _). split; assumption.
    - unfold with_ens. destruct (nth_error (ensembles h) o) as [[n old]|] eqn:O; [|exact Same]. destruct (known_opt h d) eqn:K; [|exact Same].
      destruct (check_ancil h d n); [|exact Same]. cbn [fst]. apply (eff_set h _ (set_ens h o n d) o n d); [reflexivity|exact (grows_refl h)|exact W2|reflexivity|apply known_bounded; exact K].
    - unfold with_ens. destruct (nth_error (ensembles h) o) as [[n old]|] eqn:O; [|exact Same]. destruct (known h d) eqn:K; [|exact Same].
      destruct (check_shapes (dict_at h d) n); [|exact Same]. destruct old as [b|]; [|exact Same]. cbn [fst]. exact (eff_add h _ o n b d eq_refl O).
    - unfold with_ens. destruct (nth_error (ensembles h) o) as [[n0 old]|] eqn:O; [|exact Same]. destruct (known_opt h d) eqn:K; [|exact Same].
      apply eff_update; [reflexivity|apply grows_refl|exact W2|reflexivity|apply known_bounded; exact K|]. intros i ->. exact (W1 o n0 i O).
    - unfold with_ens. destruct (nth_error (ensembles h) o) as [[n d]|] eqn:O; [|exact Same]. destruct (nth_error (ensembles h) o2) as [[n2 d2]|] eqn:O2; [|exact Same].
      destruct (joined h [d; d2]) as [[h1 r]|] eqn:J; [|exact Same]. destruct (joined_good h _ h1 r W J) as (G & Hg & N & B).
      apply eff_update; [reflexivity|exact G|exact Hg|exact N|exact B|]. intros i ->. pose proof (W1 o n i O). pose proof (grows_dicts h h1 G). lia.
    - destruct (pick (ensembles h) os) as [l|]; [|exact Same]. destruct l as [|x l]; [exact Same|]. destruct (joined h (map snd (x :: l))) as [[h1 r]|] eqn:J; [|exact Same].
      destruct (joined_good h _ h1 r W J) as (G & Hg & N & B). apply eff_create; assumption.
    - unfold with_ens. destruct (nth_error (ensembles h) o) as [[n d]|] eqn:O; [|exact Same]. apply eff_create; [apply grows_refl|exact W2|reflexivity|]. intros i ->. exact (W1 o n i O).
    - unfold with_ens. destruct (nth_error (ensembles h) o) as [[n d]|] eqn:O; [|exact Same]. destruct d as [d|]; [|exact Same].
      destruct (dget String.eqb (dict_at h d) k) as [[c|]|] eqn:D; try exact Same. destruct (nth_error (a_pos c) j) as [p|] eqn:P; [|exact Same]. cbn [fst].
      exact (eff_write h _ o k j v n d c p eq_refl O D P).
  Qed.

  Lemma place_other : forall (h : heap) b q v b' p D E, ~ (b' = b /\ p = q) -> place (mkheap (set_nth (bufs h) b (set_nth (nth b (bufs h) []) q v)) D E) b' p = place h b' p.
  Proof.
    intros h b q v b' p D E H. unfold place. cbn [bufs]. destruct (Nat.eq_dec b b') as [->|N]; [|rewrite set_nth_other by congruence; reflexivity].
    assert (Hpq : q <> p) by (intros ->; apply H; split; reflexivity). destruct (lt_dec b' (length (bufs h))) as [L|L].
    - rewrite set_nth_same by exact L. destruct (nth_error (bufs h) b') as [l|] eqn:Eb; [|apply nth_error_None in Eb; lia].
      rewrite (nth_error_nth _ _ [] Eb), set_nth_other by exact Hpq. reflexivity.
    - rewrite (proj2 (nth_error_None (set_nth _ b' _) b')) by (rewrite set_nth_length; lia). rewrite (proj2 (nth_error_None _ b')) by lia. reflexivity.
  Qed.
  Lemma place_kept : forall (h : heap) b q v b' p D E, place (mkheap (set_nth (bufs h) b (set_nth (nth b (bufs h) []) q v)) D E) b' p = None -> place h b' p = None.
  Proof.
    intros h b q v b' p D E H. unfold place in *. cbn [bufs] in H. destruct (nth_error (bufs h) b') as [l|] eqn:Eb; [|reflexivity]. assert (L : b' < length (bufs h)) by (apply nth_error_Some; congruence).
    destruct (Nat.eq_dec b b') as [->|N].
    - rewrite set_nth_same in H by exact L. rewrite (nth_error_nth _ _ [] Eb) in H. apply nth_error_None in H. rewrite set_nth_length in H. apply nth_error_None. exact H.
    - rewrite set_nth_other, Eb in H by exact N. exact H.
  Qed.
  Lemma dict_at_set : forall (h : heap) b c B E d, dict_at (mkheap B (set_nth (dicts h) b c) E) d = if (d =? b) && (b <? length (dicts h)) then c else dict_at h d.
  Proof.
    intros h b c B E d. unfold dict_at. cbn [dicts]. destruct (Nat.eqb_spec d b) as [->|N]; cbn [andb].
    - destruct (Nat.ltb_spec b (length (dicts h))) as [L|L]; [apply nth_error_nth, set_nth_same; exact L|]. rewrite !nth_overflow; [reflexivity|exact L|rewrite set_nth_length; exact L].
    - pose proof (set_nth_other (dicts h) b d c (not_eq_sym N)) as H. destruct (nth_error (dicts h) d) as [x|] eqn:Ed.
      + transitivity x; [apply nth_error_nth; exact H|symmetry; apply nth_error_nth; exact Ed].
      + apply nth_error_None in H. apply nth_error_None in Ed. rewrite !nth_overflow by assumption. reflexivity.
  Qed.
  Lemma step_wf : forall h a, wf h -> wf (fst (step h a)).
  Proof.
    intros h a W. pose proof W as [W1 W2]. destruct (step_effect h a W) as [h' ext G Hg E B|h' o n d A G Hg E B|o n b d -> O|o k j v n d c p -> O D P].
    - split; [|exact Hg]. intros o n d O. rewrite E in O. destruct (lt_dec o (length (ensembles h))) as [L|L].
      + rewrite nth_error_app1 in O by exact L. pose proof (W1 o n d O). pose proof (grows_dicts h h' G). lia.
      + rewrite nth_error_app2 in O by lia. apply nth_error_In in O. exact (B n d O).
    - split; [|exact Hg]. intros o' n' d' O. rewrite E in O. destruct (nth_error_cases _ _ _ _ _ O) as [(_ & E' & _)|(_ & O')].
      + injection E' as -> <-. apply B. reflexivity.
      + pose proof (W1 o' n' d' O'). pose proof (grows_dicts h h' G). lia.
    - split; cbn [ensembles dicts]; [intros o' n' d' O'; rewrite set_nth_length; exact (W1 o' n' d' O')|].
      intros d'. rewrite dict_at_set. assert (K : forall i, good (mkheap (bufs h) (set_nth (dicts h) b (dupdate String.eqb (dict_at h b) (dict_at h d))) (ensembles h)) (dict_at h i)) by (intros i a Ha; exact (W2 i a Ha)).
      destruct ((d' =? b) && (b <? length (dicts h))); [|apply K]. intros a Ha. destruct (dupdate_arrays _ _ a Ha) as [H|H]; [exact (K b a H)|exact (K d a H)].
    - split; cbn [ensembles dicts]; [exact W1|]. intros i a Ha. change (In a (arrays (dict_at h i))) in Ha. destruct (W2 i a Ha) as [R I]. split.
      + unfold in_range in *. cbn [bufs]. rewrite set_nth_length. exact R.
      + intros q Hq Hn. apply place_kept in Hn. exact (I q Hq Hn).
  Qed.
  Lemma wf_empty : wf empty.
  Proof. split; [intros [|o] n d H; discriminate H|]. intros d. unfold dict_at, empty. cbn. destruct d; apply good_nil. Qed.
  Lemma reached_wf : forall h, reached h -> wf h.
  Proof. intros h H. induction H as [|h a H IH]; [exact wf_empty|apply step_wf; exact IH]. Qed.

  (** ** C122: how an operation on one ensemble can change what another one shows *)
  Lemma c122_frame : forall h a o, reached h -> o < length (ensembles h) ->
    shown (fst (step h a)) o = shown h o \/
    acts_on a o \/
    (exists o' d, a = AAdd o' d /\ same_dict h o' o) \/
    (exists o' k j v, a = AWrite o' k j v /\ same_place h o' k j o).
  Proof.
    intros h a o Hr Lo. pose proof (reached_wf h Hr) as W. pose proof W as [W1 W2].
    destruct (step_effect h a W) as [h' ext G Hg E B|h' o1 n d A G Hg E B|o1 n b d -> O|o1 k j v n d c p -> O D P].
    - left. unfold shown. rewrite E, nth_error_app1 by exact Lo. destruct (nth_error (ensembles h) o) as [[n0 [d0|]]|] eqn:O; try reflexivity.
      f_equal. rewrite (grows_dict h h' G d0 (W1 o n0 d0 O)). apply (grows_see h h' _ G), W2.
    - destruct (Nat.eq_dec o1 o) as [->|N]; [right; left; exact A|]. left. unfold shown. rewrite E, set_nth_other by exact N.
      destruct (nth_error (ensembles h) o) as [[n0 [d0|]]|] eqn:O; try reflexivity. f_equal. rewrite (grows_dict h h' G d0 (W1 o n0 d0 O)). apply (grows_see h h' _ G), W2.
    - destruct (Nat.eq_dec o1 o) as [->|N]; [right; left; reflexivity|].
      destruct (nth_error (ensembles h) o) as [[n0 [d0|]]|] eqn:Oo.
      + destruct (Nat.eq_dec d0 b) as [->|Nb]; [right; right; left; exists o1, d; split; [reflexivity|]; exists n, n0, b; split; [exact O|exact Oo]|]. left. unfold shown. cbn [ensembles]. rewrite Oo, dict_at_set.
        rewrite (proj2 (Nat.eqb_neq d0 b) Nb). reflexivity.
      + left. unfold shown. cbn [ensembles]. rewrite Oo. reflexivity.
      + left. unfold shown. cbn [ensembles]. rewrite Oo. reflexivity.
    - destruct (nth_error (ensembles h) o) as [[n0 [d0|]]|] eqn:Oo.
      2, 3: left; unfold shown; cbn [ensembles]; rewrite Oo; reflexivity.
      destruct (existsb (fun kc => match snd kc with CArr a' => (a_buf a' =? a_buf c) && existsb (Nat.eqb p) (a_pos a') | CScal _ => false end) (dict_at h d0)) eqn:X.
      + right. right. right. exists o1, k, j, v. split; [reflexivity|]. apply existsb_exists in X. destruct X as ((ka & [a'|w]) & Hi & X); cbn [snd] in X; [|discriminate X]. apply andb_prop in X. destruct X as [X1 X2]. apply Nat.eqb_eq in X1.
        apply existsb_exists in X2. destruct X2 as (q & Hq & X2). apply Nat.eqb_eq in X2. subst q. exists n, d, c, p, a'.
        split; [exact O|]. split; [exact D|]. split; [exact P|]. split; [exists n0, d0, ka; split; [exact Oo|exact Hi]|]. split; assumption.
      + left. unfold shown. cbn [ensembles]. rewrite Oo. f_equal. apply map_ext_in. intros (ka & ca) Hi. cbn [fst snd]. f_equal. destruct ca as [a'|w]; [|reflexivity]. cbn [see]. f_equal.
        unfold read. apply map_ext_in. intros q Hq. apply place_other. intros [Eb ->].
        assert (X' : existsb (fun kc => match snd kc with CArr a' => (a_buf a' =? a_buf c) && existsb (Nat.eqb p) (a_pos a') | CScal _ => false end) (dict_at h d0) = true).
        { apply existsb_exists. exists (ka, CArr a'). split; [exact Hi|]. cbn [snd]. rewrite Eb, Nat.eqb_refl. apply existsb_exists. exists p. split; [exact Hq|apply Nat.eqb_refl]. }
        congruence.
  Qed.

  (** ** careful users *)
  Definition live (F : list nat) (h : heap) (d : nat) : Prop := In d F \/ exists o n, nth_error (ensembles h) o = Some (n, Some d).
  Record inv (F : list nat) (L : list (nat * nat)) (h : heap) : Prop := mkinv {
    inv_wf : wf h;
    inv_free : forall d, In d F -> d < length (dicts h);
    inv_given : forall o n d, nth_error (ensembles h) o = Some (n, Some d) -> ~ In d F;
    inv_one : forall o o' n n' d, nth_error (ensembles h) o = Some (n, Some d) -> nth_error (ensembles h) o' = Some (n', Some d) -> o = o';
    inv_apart : forall d d' a a', In d F -> live F h d' -> d <> d' -> In a (arrays (dict_at h d)) -> In a' (arrays (dict_at h d')) -> a_buf a <> a_buf a';
    inv_linked : forall o o' n n' d d' a a', nth_error (ensembles h) o = Some (n, Some d) -> nth_error (ensembles h) o' = Some (n', Some d') ->
      In a (arrays (dict_at h d)) -> In a' (arrays (dict_at h d')) -> a_buf a = a_buf a' -> linked L o o';
    inv_fits : forall o n d, nth_error (ensembles h) o = Some (n, Some d) -> check_shapes (dict_at h d) n = Ok tt }.
  Definition rem (d : option nat) (F : list nat) : list nat := match d with Some d => remove Nat.eq_dec d F | None => F end.
  Lemma rem_in : forall d F x, In x (rem d F) -> In x F.
  Proof. intros [d|] F x H; [exact (proj1 (in_remove _ _ _ _ H))|exact H]. Qed.
  Lemma rem_not : forall d F, ~ In d (rem (Some d) F).
  Proof. intros d F H. exact (proj2 (in_remove _ _ _ _ H) eq_refl). Qed.
  Lemma live_rem : forall d F h x, live (rem d F) h x -> live F h x.
  Proof. intros d F h x [H|H]; [left; exact (rem_in d F x H)|right; exact H]. Qed.
  Lemma inv_drop : forall d F L h, inv F L h -> inv (rem d F) L h.
  Proof.
    intros d F L h I. split; [exact (inv_wf _ _ _ I)| | |exact (inv_one _ _ _ I)| |exact (inv_linked _ _ _ I)|exact (inv_fits _ _ _ I)].
    - intros x Hx. exact (inv_free _ _ _ I x (rem_in d F x Hx)).
    - intros o n x O Hx. exact (inv_given _ _ _ I o n x O (rem_in d F x Hx)).
    - intros x x' a a' Hx Hl. apply (inv_apart _ _ _ I x x' a a' (rem_in d F x Hx) (live_rem d F h x' Hl)).
  Qed.
  Lemma wf_ext : forall h h', wf h -> bufs h' = bufs h -> dicts h' = dicts h -> (forall o n d, nth_error (ensembles h') o = Some (n, Some d) -> d < length (dicts h)) -> wf h'.
  Proof.
    intros h h' [W1 W2] B D H. split; [rewrite D; exact H|]. intros d a Ha. unfold dict_at in Ha. rewrite D in Ha. destruct (W2 d a Ha) as [R I]. split.
    - unfold in_range. rewrite B. exact R.
    - intros p Hp. unfold place. rewrite B. exact (I p Hp).
  Qed.
  (** ensemble [o1] is given the dictionary [d] *)
  Lemma inv_own : forall F L h h' o1 d, inv F L h -> bufs h' = bufs h -> dicts h' = dicts h ->
    (forall o n x, nth_error (ensembles h') o = Some (n, Some x) -> check_shapes (dict_at h x) n = Ok tt /\
       ((exists n0, nth_error (ensembles h) o = Some (n0, Some x)) \/ (o = o1 /\ d = Some x /\ In x F))) ->
    inv (rem d F) L h'.
  Proof.
    intros F L h h' o1 d I B D H.
    assert (DA : forall x, dict_at h' x = dict_at h x) by (intros x; unfold dict_at; rewrite D; reflexivity).
    assert (Lv : forall x, live (rem d F) h' x -> live F h x).
    { intros x [Hx|(o & n & O)]; [left; exact (rem_in d F x Hx)|]. destruct (H o n x O) as [_ [(n0 & O')|(_ & _ & Hx)]]; [right; exists o, n0; exact O'|left; exact Hx]. }
    split.
    - apply (wf_ext h h' (inv_wf _ _ _ I) B D). intros o n x O. destruct (H o n x O) as [_ [(n0 & O')|(_ & _ & Hx)]]; [exact (proj1 (inv_wf _ _ _ I) o n0 x O')|exact (inv_free _ _ _ I x Hx)].
    - intros x Hx. rewrite D. exact (inv_free _ _ _ I x (rem_in d F x Hx)).
    - intros o n x O Hx. destruct (H o n x O) as [_ [(n0 & O')|(_ & -> & _)]]; [exact (inv_given _ _ _ I o n0 x O' (rem_in d F x Hx))|exact (rem_not x F Hx)].
    - intros o o' n n' x O O'. destruct (H o n x O) as [_ [(m & P)|(E & _ & Hx)]], (H o' n' x O') as [_ [(m' & P')|(E' & _ & Hx')]].
      + exact (inv_one _ _ _ I o o' m m' x P P').
      + exfalso. exact (inv_given _ _ _ I o m x P Hx').
      + exfalso. exact (inv_given _ _ _ I o' m' x P' Hx).
      + congruence.
    - intros x x' a a' Hx Hl N Ha Ha'. rewrite DA in Ha, Ha'. exact (inv_apart _ _ _ I x x' a a' (rem_in d F x Hx) (Lv x' Hl) N Ha Ha').
    - intros o o' n n' x x' a a' O O' Ha Ha' Eb. rewrite DA in Ha, Ha'. destruct (H o n x O) as [_ [(m & P)|(E & Ed & Hx)]], (H o' n' x' O') as [_ [(m' & P')|(E' & Ed' & Hx')]].
      + exact (inv_linked _ _ _ I o o' m m' x x' a a' P P' Ha Ha' Eb).
      + exfalso. apply (inv_apart _ _ _ I x' x a' a Hx' (or_intror (ex_intro _ o (ex_intro _ m P)))); try assumption; [|congruence]. intros ->. exact (inv_given _ _ _ I o m x P Hx').
      + exfalso. apply (inv_apart _ _ _ I x x' a a' Hx (or_intror (ex_intro _ o' (ex_intro _ m' P')))); try assumption. intros ->. exact (inv_given _ _ _ I o' m' x' P' Hx).
      + rewrite E, E'. apply rst_refl.
    - intros o n x O. rewrite DA. exact (proj1 (H o n x O)).
  Qed.
  Lemma check_ancil_tt : forall (h : heap) d n u, check_ancil h d n = Ok u -> check_ancil h d n = Ok tt.
  Proof. intros h d n [] E. exact E. Qed.
  Lemma inv_create : forall F L h n d, inv F L h -> (forall x, d = Some x -> In x F) -> inv (rem d F) L (fst (create h n d)).
  Proof.
    intros F L h n d I Hd. unfold create. destruct (check_ancil h d n) as [u|e] eqn:C; cbn [fst]; [|apply inv_drop; exact I].
    apply (inv_own F L h _ (length (ensembles h)) d I); [reflexivity|reflexivity|]. intros o m x O. cbn [new_ens ensembles] in O. destruct (nth_error_snoc _ _ _ _ O) as [O'|[-> E]].
    - split; [exact (inv_fits _ _ _ I o m x O')|]. left. exists m. exact O'.
    - injection E as -> <-. split; [exact (check_ancil_tt h (Some x) n u C)|]. right. split; [reflexivity|]. split; [reflexivity|]. apply Hd. reflexivity.
  Qed.
  Lemma inv_set : forall F L h o n d, inv F L h -> check_ancil h d n = Ok tt -> (forall x, d = Some x -> In x F) -> inv (rem d F) L (set_ens h o n d).
  Proof.
    intros F L h o n d I C Hd. apply (inv_own F L h _ o d I); [reflexivity|reflexivity|]. intros o' m x O. cbn [set_ens ensembles] in O. destruct (nth_error_cases _ _ _ _ _ O) as [(-> & E & _)|(_ & O')].
    - injection E as -> <-. split; [exact C|]. right. split; [reflexivity|]. split; [reflexivity|]. apply Hd. reflexivity.
    - split; [exact (inv_fits _ _ _ I o' m x O')|]. left. exists m. exact O'.
  Qed.
  (** a new dictionary of new arrays *)
  Lemma inv_alloc : forall F L h h' c, inv F L h -> grows h h' -> dicts h' = dicts h ++ [c] -> ensembles h' = ensembles h -> (forall a, In a (arrays c) -> fresh_in h h' a) ->
    inv (length (dicts h) :: F) L h'.
  Proof.
    intros F L h h' c I G D N A. pose proof (inv_wf _ _ _ I) as [W1 W2].
    assert (DA : forall x, x < length (dicts h) -> dict_at h' x = dict_at h x) by (intros x Hx; exact (grows_dict h h' G x Hx)).
    assert (DN : dict_at h' (length (dicts h)) = c) by (unfold dict_at; rewrite D, app_nth2, Nat.sub_diag by lia; reflexivity).
    assert (Lo : forall x, live F h x -> x < length (dicts h)) by (intros x [Hx|(o & n & O)]; [exact (inv_free _ _ _ I x Hx)|exact (W1 o n x O)]).
    assert (Lv : forall x, live (length (dicts h) :: F) h' x -> x = length (dicts h) \/ live F h x).
    { intros x [[Hx|Hx]|(o & n & O)]; [left; congruence|right; left; exact Hx|]. right. right. exists o, n. rewrite <- N. exact O. }
    assert (Old : forall x a, x < length (dicts h) -> In a (arrays (dict_at h x)) -> a_buf a < length (bufs h)) by (intros x a Hx Ha; exact (proj1 (W2 x a Ha))).
    split.
    - split; [intros o n d O; rewrite N in O; pose proof (W1 o n d O); rewrite D, app_length; lia|]. apply (good_snoc h h' c G D); [|exact W2]. intros a Ha. destruct (A a Ha) as (_ & R & Ia). split; assumption.
    - intros d [<-|Hd]; rewrite D, app_length; cbn; [lia|]. pose proof (inv_free _ _ _ I d Hd). lia.
    - intros o n d O. rewrite N in O. intros [E|Hd]; [pose proof (W1 o n d O); lia|exact (inv_given _ _ _ I o n d O Hd)].
    - intros o o' n n' d O O'. rewrite N in O, O'. exact (inv_one _ _ _ I o o' n n' d O O').
    - intros d d' a a' Hd Hl Ne Ha Ha'. destruct (Lv d' Hl) as [->|Hl'].
      + destruct Hd as [Hd|Hd]; [congruence|]. pose proof (inv_free _ _ _ I d Hd) as Hlt. rewrite DA in Ha by exact Hlt. rewrite DN in Ha'. pose proof (Old d a Hlt Ha). destruct (A a' Ha') as [Lb _]. lia.
      + pose proof (Lo d' Hl') as Hlt'. rewrite DA in Ha' by exact Hlt'. destruct Hd as [<-|Hd].
        * rewrite DN in Ha. pose proof (Old d' a' Hlt' Ha'). destruct (A a Ha) as [Lb _]. lia.
        * rewrite DA in Ha by exact (inv_free _ _ _ I d Hd). exact (inv_apart _ _ _ I d d' a a' Hd Hl' Ne Ha Ha').
    - intros o o' n n' d d' a a' O O' Ha Ha' Eb. rewrite N in O, O'. rewrite DA in Ha by exact (W1 o n d O). rewrite DA in Ha' by exact (W1 o' n' d' O'). exact (inv_linked _ _ _ I o o' n n' d d' a a' O O' Ha Ha' Eb).
    - intros o n d O. rewrite N in O. rewrite DA by exact (W1 o n d O). exact (inv_fits _ _ _ I o n d O).
  Qed.
  Lemma rem_new : forall F L h, inv F L h -> rem (Some (length (dicts h))) (length (dicts h) :: F) = F.
  Proof.
    intros F L h I. cbn [rem remove]. destruct (Nat.eq_dec (length (dicts h)) (length (dicts h))) as [_|N]; [|congruence].
    apply notin_remove. intros H. pose proof (inv_free _ _ _ I _ H). lia.
  Qed.
  Lemma linked_mono : forall L x o o', linked L o o' -> linked (x :: L) o o'.
  Proof. intros L x o o' H. induction H as [a b H|a|a b H IH|a b c H1 IH1 H2 IH2]; [apply rst_step; right; exact H|apply rst_refl|apply rst_sym; exact IH|exact (rst_trans _ _ _ _ _ IH1 IH2)]. Qed.
  (** a slice of ensemble [o] *)
  Lemma inv_slice : forall F L h h1 c o n d m, inv F L h -> nth_error (ensembles h) o = Some (n, Some d) -> grows h h1 -> dicts h1 = dicts h -> ensembles h1 = ensembles h ->
    (forall a1, In a1 (arrays c) -> in_range h1 a1 /\ inside h1 a1 /\ (length (bufs h) <= a_buf a1 \/ exists a, In a (arrays (dict_at h d)) /\ a_buf a1 = a_buf a)) ->
    check_shapes c m = Ok tt -> inv F ((o, length (ensembles h)) :: L) (new_ens (new_dict h1 c) m (Some (length (dicts h)))).
  Proof.
    intros F L h h1 c o n d m I O G D N A C. pose proof (inv_wf _ _ _ I) as [W1 W2]. set (h' := new_ens _ m _).
    assert (G' : grows h h') by (destruct (grows_new_dict h h1 c G) as (x & y & E1 & E2); exists x, y; split; assumption).
    assert (D' : dicts h' = dicts h ++ [c]) by (cbn; rewrite D; reflexivity).
    assert (N' : ensembles h' = ensembles h ++ [(m, Some (length (dicts h)))]) by (cbn; rewrite N; reflexivity).
    assert (DA : forall x, x < length (dicts h) -> dict_at h' x = dict_at h x) by (intros x Hx; exact (grows_dict h h' G' x Hx)).
    assert (DN : dict_at h' (length (dicts h)) = c) by (unfold dict_at; rewrite D', app_nth2, Nat.sub_diag by lia; reflexivity).
    assert (En : forall o' n' d', nth_error (ensembles h') o' = Some (n', Some d') -> nth_error (ensembles h) o' = Some (n', Some d') \/ (o' = length (ensembles h) /\ n' = m /\ d' = length (dicts h))).
    { intros o' n' d' H. rewrite N' in H. destruct (nth_error_snoc _ _ _ _ H) as [H'|[-> E]]; [left; exact H'|]. injection E as -> ->. right. split; [reflexivity|]. split; reflexivity. }
    assert (Src : forall a1 x a', In a1 (arrays c) -> x < length (dicts h) -> In a' (arrays (dict_at h x)) -> a_buf a1 = a_buf a' -> exists a, In a (arrays (dict_at h d)) /\ a_buf a = a_buf a').
    { intros a1 x a' H1 Hx H2 Eb. destruct (A a1 H1) as (_ & _ & [Lb|(a & Ha & Ea)]); [|exists a; split; [exact Ha|congruence]]. pose proof (proj1 (W2 x a' H2)) as R. unfold in_range in R. lia. }
    assert (Link : forall o', linked L o o' -> linked ((o, length (ensembles h)) :: L) (length (ensembles h)) o').
    { intros o' H. apply (rst_trans _ _ _ o); [apply rst_sym, rst_step; left; reflexivity|apply linked_mono; exact H]. }
    split.
    - split.
      + intros o' n' d' H. rewrite D', app_length. cbn. destruct (En o' n' d' H) as [H'|(_ & _ & ->)]; [pose proof (W1 o' n' d' H'); lia|lia].
      + apply (good_snoc h h' c G' D'); [|exact W2]. intros a Ha. destruct (A a Ha) as (R & Ia & _). split; assumption.
    - intros x Hx. rewrite D', app_length. pose proof (inv_free _ _ _ I x Hx). lia.
    - intros o' n' d' H Hx. destruct (En o' n' d' H) as [H'|(_ & _ & ->)]; [exact (inv_given _ _ _ I o' n' d' H' Hx)|]. pose proof (inv_free _ _ _ I _ Hx). lia.
    - intros o1 o2 n1 n2 x H1 H2. destruct (En _ _ _ H1) as [H1'|(-> & _ & E1)], (En _ _ _ H2) as [H2'|(-> & _ & E2)].
      + exact (inv_one _ _ _ I o1 o2 n1 n2 x H1' H2').
      + pose proof (W1 _ _ _ H1'). lia.
      + pose proof (W1 _ _ _ H2'). lia.
      + reflexivity.
    - intros x x' a a' Hx Hl Ne Ha Ha' Eb. pose proof (inv_free _ _ _ I x Hx) as Lx. rewrite DA in Ha by exact Lx.
      assert (Keep : live F h x' -> False).
      { intros Hl'. assert (Lx' : x' < length (dicts h)) by (destruct Hl' as [H|(o' & n' & H)]; [exact (inv_free _ _ _ I x' H)|exact (W1 _ _ _ H)]). rewrite DA in Ha' by exact Lx'.
        exact (inv_apart _ _ _ I x x' a a' Hx Hl' Ne Ha Ha' Eb). }
      destruct Hl as [Hl|(o' & n' & H)]; [apply Keep; left; exact Hl|]. destruct (En _ _ _ H) as [H'|(_ & _ & ->)]; [apply Keep; right; exists o', n'; exact H'|].
      rewrite DN in Ha'. destruct (Src a' x a Ha' Lx Ha (eq_sym Eb)) as (a0 & Ha0 & Eb0).
      apply (inv_apart _ _ _ I x d a a0 Hx (or_intror (ex_intro _ o (ex_intro _ n O)))); try assumption; [|congruence]. intros ->. exact (inv_given _ _ _ I o n d O Hx).
    - intros o1 o2 n1 n2 d1 d2 a1 a2 H1 H2 Ha1 Ha2 Eb. destruct (En _ _ _ H1) as [H1'|(-> & _ & ->)], (En _ _ _ H2) as [H2'|(-> & _ & ->)].
      + rewrite DA in Ha1 by exact (W1 _ _ _ H1'). rewrite DA in Ha2 by exact (W1 _ _ _ H2'). apply linked_mono. exact (inv_linked _ _ _ I o1 o2 n1 n2 d1 d2 a1 a2 H1' H2' Ha1 Ha2 Eb).
      + rewrite DA in Ha1 by exact (W1 _ _ _ H1'). rewrite DN in Ha2. destruct (Src a2 d1 a1 Ha2 (W1 _ _ _ H1') Ha1 (eq_sym Eb)) as (a0 & Ha0 & Eb0).
        apply rst_sym, Link. exact (inv_linked _ _ _ I o o1 n n1 d d1 a0 a1 O H1' Ha0 Ha1 Eb0).
      + rewrite DA in Ha2 by exact (W1 _ _ _ H2'). rewrite DN in Ha1. destruct (Src a1 d2 a2 Ha1 (W1 _ _ _ H2') Ha2 Eb) as (a0 & Ha0 & Eb0).
        apply Link. exact (inv_linked _ _ _ I o o2 n n2 d d2 a0 a2 O H2' Ha0 Ha2 Eb0).
      + apply rst_refl.
    - intros o' n' d' H. destruct (En _ _ _ H) as [H'|(_ & -> & ->)]; [rewrite DA by exact (W1 _ _ _ H'); exact (inv_fits _ _ _ I o' n' d' H')|]. rewrite DN. exact C.
  Qed.
  Lemma inv_add : forall F L h o n b d, inv F L h -> nth_error (ensembles h) o = Some (n, Some b) -> In d F -> check_shapes (dict_at h d) n = Ok tt ->
    inv (rem (Some d) F) L (mkheap (bufs h) (set_nth (dicts h) b (dupdate String.eqb (dict_at h b) (dict_at h d))) (ensembles h)).
  Proof.
    intros F L h o n b d I O Hd C. pose proof (inv_wf _ _ _ I) as [W1 W2]. set (h' := mkheap _ _ _).
    assert (Lb : b < length (dicts h)) by exact (W1 _ _ _ O).
    assert (Nb : ~ In b F) by exact (inv_given _ _ _ I o n b O).
    assert (DA : forall x, x <> b -> dict_at h' x = dict_at h x) by (intros x Hx; unfold h'; rewrite dict_at_set, (proj2 (Nat.eqb_neq x b) Hx); reflexivity).
    assert (DB : dict_at h' b = dupdate String.eqb (dict_at h b) (dict_at h d)) by (unfold h'; rewrite dict_at_set, Nat.eqb_refl, (proj2 (Nat.ltb_lt _ _) Lb); reflexivity).
    assert (AB : forall a, In a (arrays (dict_at h' b)) -> In a (arrays (dict_at h b)) \/ In a (arrays (dict_at h d))) by (intros a Ha; rewrite DB in Ha; exact (dupdate_arrays _ _ a Ha)).
    assert (Hob : live F h b) by (right; exists o, n; exact O).
    split.
    - pose proof (step_wf h (AAdd o d) (inv_wf _ _ _ I)) as W. cbn [step] in W. unfold with_ens in W. rewrite O in W. unfold known in W. rewrite (proj2 (Nat.ltb_lt _ _) (inv_free _ _ _ I d Hd)), C in W. exact W.
    - intros x Hx. unfold h'. cbn [dicts]. rewrite set_nth_length. exact (inv_free _ _ _ I x (rem_in _ _ _ Hx)).
    - intros o' n' x H Hx. exact (inv_given _ _ _ I o' n' x H (rem_in _ _ _ Hx)).
    - exact (inv_one _ _ _ I).
    - intros x x' a a' Hx Hl Ne Ha Ha'. pose proof (rem_in _ _ _ Hx) as Hx0. assert (Hl0 : live F h x') by exact (live_rem (Some d) F h x' Hl).
      assert (Nx : x <> b) by (intros ->; exact (Nb Hx0)). rewrite DA in Ha by exact Nx. destruct (Nat.eq_dec x' b) as [->|Nx'].
      + destruct (AB a' Ha') as [H|H]; [exact (inv_apart _ _ _ I x b a a' Hx0 Hob Ne Ha H)|]. apply (inv_apart _ _ _ I x d a a' Hx0 (or_introl Hd)); try assumption. intros ->. exact (rem_not d F Hx).
      + rewrite DA in Ha' by exact Nx'. exact (inv_apart _ _ _ I x x' a a' Hx0 Hl0 Ne Ha Ha').
    - intros o1 o2 n1 n2 d1 d2 a1 a2 H1 H2 Ha1 Ha2 Eb. change (nth_error (ensembles h) o1 = Some (n1, Some d1)) in H1. change (nth_error (ensembles h) o2 = Some (n2, Some d2)) in H2.
      assert (Case : forall ox nx x a, nth_error (ensembles h) ox = Some (nx, Some x) -> In a (arrays (dict_at h' x)) -> In a (arrays (dict_at h x)) \/ (ox = o /\ In a (arrays (dict_at h d)))).
      { intros ox nx x a Hx Ha. destruct (Nat.eq_dec x b) as [->|N]; [|left; rewrite DA in Ha by exact N; exact Ha]. destruct (AB a Ha) as [H|H]; [left; exact H|]. right. split; [exact (inv_one _ _ _ I ox o nx n b Hx O)|exact H]. }
      destruct (Case o1 n1 d1 a1 H1 Ha1) as [K1|[E1 K1]], (Case o2 n2 d2 a2 H2 Ha2) as [K2|[E2 K2]].
      + exact (inv_linked _ _ _ I o1 o2 n1 n2 d1 d2 a1 a2 H1 H2 K1 K2 Eb).
      + exfalso. apply (inv_apart _ _ _ I d d1 a2 a1 Hd (or_intror (ex_intro _ o1 (ex_intro _ n1 H1)))); try assumption; [|congruence]. intros ->. exact (inv_given _ _ _ I _ _ _ H1 Hd).
      + exfalso. apply (inv_apart _ _ _ I d d2 a1 a2 Hd (or_intror (ex_intro _ o2 (ex_intro _ n2 H2)))); try assumption. intros ->. exact (inv_given _ _ _ I _ _ _ H2 Hd).
      + rewrite E1, E2. apply rst_refl.
    - intros o' n' x H. change (nth_error (ensembles h) o' = Some (n', Some x)) in H. destruct (Nat.eq_dec x b) as [->|N]; [|rewrite DA by exact N; exact (inv_fits _ _ _ I o' n' x H)].
      pose proof (inv_one _ _ _ I o' o n' n b H O) as ->. rewrite O in H. injection H as ->. rewrite DB. apply check_shapes_fits. intros k c Hi.
      destruct (dupdate_in _ _ _ _ Hi) as [Hi'|(k' & Hi')]; [exact (proj1 (check_shapes_fits _ _) (inv_fits _ _ _ I o n' b O) k c Hi')|exact (proj1 (check_shapes_fits _ _) C k' c Hi')].
  Qed.
  Lemma pick_forall2 : forall {A} (l : list A) (P : A -> Prop) ps r, pick l ps = Ok r -> (forall i x, nth_error l i = Some x -> P x) -> List.Forall P r.
  Proof. intros A l P ps r E H. apply List.Forall_forall. intros x Hx. pose proof (pick_in l ps r E x Hx) as Hi. destruct (In_nth_error _ _ Hi) as (i & Ei). exact (H i x Ei). Qed.
  Lemma ancil_fits : forall F L h o n d, inv F L h -> nth_error (ensembles h) o = Some (n, d) -> check_ancil h d n = Ok tt.
  Proof. intros F L h o n [d|] I O; [exact (inv_fits _ _ _ I o n d O)|reflexivity]. Qed.

  Lemma clean_inv : forall F L h, clean F L h -> inv F L h.
  Proof.
    intros F L h H. induction H as [|F L h a h' r Hc I E [Hg Hs]].
    { split; [exact wf_empty|intros d []|intros o n d _ []| |intros d d' a a' []| |]; intros [|o]; intros; discriminate. }
    pose proof (inv_wf _ _ _ I) as [W1 W2].
    destruct a as [cols|d|n d|o key|o d|o d|o n d|o o2|os|o|o k j v]; cbn [step] in E; cbn [left_over gives sliced] in *; try contradiction.
    - destruct (alloc_all h cols) as [h1 c] eqn:A. injection E as <- <-. destruct (alloc_all_spec cols h h1 c A) as (G & D & N & _ & _).
      apply (inv_alloc F L h _ (dupdate String.eqb [] c) I); [apply grows_new_dict; exact G|cbn; rewrite D; reflexivity|exact N|].
      intros a Ha. destruct (dupdate_arrays c [] a Ha) as [[]|Ha']. exact (alloc_all_fresh cols h h1 c A a Ha').
    - change (inv (rem d F) L h'). destruct (known_opt h d); [|injection E as <- <-; apply inv_drop; exact I]. pose proof (inv_create F L h n d I Hg) as J. rewrite E in J. exact J.
    - unfold with_ens in E. destruct (nth_error (ensembles h) o) as [[n d]|] eqn:O; [|injection E as <- <-; destruct key; exact I].
      destruct (key_positions n key) as [ps|] eqn:K; [|injection E as <- <-; destruct key; exact I].
      destruct d as [d|].
      + destruct (slice_columns h key (dict_at h d)) as [[h1 c]|] eqn:S; [|injection E as <- <-; destruct key; exact I].
        destruct (slice_columns_spec key n ps (dict_at h d) h h1 c S (W2 d)) as (G & D & N & A & Ck). pose proof (Ck (inv_fits _ _ _ I o n d O) K) as Ck'.
        unfold create in E. cbn [check_ancil] in E. assert (DN : dict_at (new_dict h1 c) (length (dicts h)) = c) by (rewrite <- D; apply dict_at_snoc). rewrite DN, Ck' in E. injection E as <- <-.
        assert (Fresh : ~ is_slice key -> inv F L (new_ens (new_dict h1 c) (length ps) (Some (length (dicts h))))).
        { intros Ns. assert (J : inv (length (dicts h) :: F) L (new_dict h1 c)).
          { apply (inv_alloc F L h _ c I); [apply grows_new_dict; exact G|cbn; rewrite D; reflexivity|exact N|]. intros a Ha. destruct (A a Ha) as (R & Ia & [Lb|[Sl _]]); [|exfalso; exact (Ns Sl)]. split; [exact Lb|split; assumption]. }
          assert (Q : forall x, Some (length (dicts h)) = Some x -> In x (length (dicts h) :: F)) by (intros x Ex; injection Ex as <-; left; reflexivity).
          pose proof (inv_create _ L (new_dict h1 c) (length ps) (Some (length (dicts h))) J Q) as Z. unfold create in Z. cbn [check_ancil] in Z. rewrite DN, Ck' in Z. cbn [fst] in Z. rewrite (rem_new F L h I) in Z. exact Z. }
        destruct key as [i|i j|m|is]; try (apply Fresh; intros (x & y & Ex); discriminate Ex).
        apply (inv_slice F L h h1 c o n d (length ps) I O G D N); [|exact Ck']. intros a1 H1. destruct (A a1 H1) as (R & Ia & [Lb|[_ Ex]]); (split; [exact R|]); (split; [exact Ia|]); [left; exact Lb|right; exact Ex].
      + unfold create in E. cbn [check_ancil] in E. injection E as <- <-.
        assert (Q : forall x : nat, None = Some x -> In x F) by discriminate. pose proof (inv_create F L h (length ps) None I Q) as J. unfold create in J. cbn [check_ancil fst rem] in J.
        destruct key as [i|i j|m|is]; try exact J. destruct J as [J1 J2 J3 J4 J5 J6 J7]. split; try assumption. intros. apply linked_mono. eapply J6; eassumption.
    - change (inv (rem d F) L h'). unfold with_ens in E. destruct (nth_error (ensembles h) o) as [[n old]|] eqn:O; [|injection E as <- <-; apply inv_drop; exact I].
      destruct (known_opt h d); [|injection E as <- <-; apply inv_drop; exact I]. destruct (check_ancil h d n) as [u|] eqn:C; [|injection E as <- <-; apply inv_drop; exact I].
      injection E as <- <-. apply inv_set; [exact I|exact (check_ancil_tt h d n u C)|exact Hg].
    - change (inv (rem (Some d) F) L h'). unfold with_ens in E. destruct (nth_error (ensembles h) o) as [[n old]|] eqn:O; [|injection E as <- <-; apply inv_drop; exact I].
      destruct (known h d); [|injection E as <- <-; apply inv_drop; exact I]. destruct (check_shapes (dict_at h d) n) as [u|] eqn:C; [|injection E as <- <-; apply inv_drop; exact I].
      destruct old as [b|]; injection E as <- <-; [|apply inv_drop; exact I]. apply (inv_add F L h o n b d I O (Hg d eq_refl)). destruct u. exact C.
    - change (inv (rem d F) L h'). unfold with_ens in E. destruct (nth_error (ensembles h) o) as [[n0 old]|] eqn:O; [|injection E as <- <-; apply inv_drop; exact I].
      destruct (known_opt h d); [|injection E as <- <-; apply inv_drop; exact I]. unfold update in E. destruct (check_ancil h d n) as [u|] eqn:C; injection E as <- <-; [|discriminate Hs].
      apply inv_set; [exact I|exact (check_ancil_tt h d n u C)|exact Hg].
    - unfold with_ens in E. destruct (nth_error (ensembles h) o) as [[n d]|] eqn:O; [|injection E as <- <-; exact I].
      destruct (nth_error (ensembles h) o2) as [[n2 d2]|] eqn:O2; [|injection E as <- <-; exact I].
      destruct (joined h [d; d2]) as [[h1 q]|] eqn:J; [|injection E as <- <-; exact I]. destruct (joined_spec h _ h1 q J) as [[-> ->]|(c & -> & G & D & N & A & Ck)].
      + unfold update in E. cbn [check_ancil] in E. injection E as <- <-. exact (inv_set F L h o (n + n2) None I eq_refl (fun x Ex => False_ind _ (eq_ind None (fun z => match z with None => True | _ => False end) Logic.I _ Ex))).
      + assert (F2 : Forall2 (fun d n => check_ancil h d n = Ok tt) [d; d2] [n; n2]) by (constructor; [exact (ancil_fits F L h o n d I O)|constructor; [exact (ancil_fits F L h o2 n2 d2 I O2)|constructor]]).
        pose proof (Ck [n; n2] F2) as Ck'. cbn [list_sum fold_right] in Ck'. rewrite Nat.add_0_r in Ck'.
        assert (DN : dict_at h1 (length (dicts h)) = c) by (unfold dict_at; rewrite D, app_nth2, Nat.sub_diag by lia; reflexivity).
        pose proof (inv_alloc F L h h1 c I G D N A) as J1. unfold update in E. cbn [check_ancil] in E. rewrite DN, Ck' in E. injection E as <- <-.
        assert (Q : forall x, Some (length (dicts h)) = Some x -> In x (length (dicts h) :: F)) by (intros x Ex; injection Ex as <-; left; reflexivity).
        assert (Ca : check_ancil h1 (Some (length (dicts h))) (n + n2) = Ok tt) by (cbn [check_ancil]; rewrite DN; exact Ck').
        pose proof (inv_set _ L h1 o (n + n2) (Some (length (dicts h))) J1 Ca Q) as Z. rewrite (rem_new F L h I) in Z. exact Z.
    - destruct (pick (ensembles h) os) as [l|] eqn:P; [|injection E as <- <-; exact I]. destruct l as [|x l]; [injection E as <- <-; exact I|].
      destruct (joined h (map snd (x :: l))) as [[h1 q]|] eqn:J; [|injection E as <- <-; exact I]. destruct (joined_spec h _ h1 q J) as [[-> ->]|(c & -> & G & D & N & A & Ck)].
      + assert (Q : forall x : nat, None = Some x -> In x F) by discriminate. pose proof (inv_create F L h (list_sum (map fst (x :: l))) None I Q) as Z. rewrite E in Z. exact Z.
      + pose proof (inv_alloc F L h h1 c I G D N A) as J1.
        assert (Q : forall x, Some (length (dicts h)) = Some x -> In x (length (dicts h) :: F)) by (intros y Ex; injection Ex as <-; left; reflexivity).
        pose proof (inv_create _ L h1 (list_sum (map fst (x :: l))) (Some (length (dicts h))) J1 Q) as Z. rewrite (rem_new F L h I), E in Z. exact Z.
    - unfold with_ens in E. destruct (nth_error (ensembles h) o) as [[n d]|] eqn:O; [|injection E as <- <-; exact I]. destruct d as [d|]; [|injection E as <- <-; exact I].
      destruct (dget String.eqb (dict_at h d) k) as [[c|]|] eqn:Dg; try (injection E as <- <-; exact I). destruct (nth_error (a_pos c) j) as [p|] eqn:P; [|injection E as <- <-; exact I].
      assert (W : wf h').
      { pose proof (step_wf h (AWrite o k j v) (inv_wf _ _ _ I)) as W. cbn [step] in W. unfold with_ens in W. rewrite O, Dg, P in W. injection E as <- <-. exact W. }
      injection E as <- <-. destruct I as [I1 I2 I3 I4 I5 I6 I7]. split; assumption.
  Qed.

  (** ** C122: what careful users share *)
  Lemma c122_own_dict : forall F L h o o', clean F L h -> same_dict h o o' -> o = o'.
  Proof. intros F L h o o' H (n & n' & d & O & O'). exact (inv_one _ _ _ (clean_inv F L h H) o o' n n' d O O'). Qed.
  Lemma c122_memory : forall F L h o o', clean F L h -> same_memory h o o' -> linked L o o'.
  Proof.
    intros F L h o o' H (a & a' & (n & d & k & O & Hi) & (n' & d' & k' & O' & Hi') & Eb).
    apply (inv_linked _ _ _ (clean_inv F L h H) o o' n n' d d' a a' O O'); [apply in_arrays; exists k; exact Hi|apply in_arrays; exists k'; exact Hi'|exact Eb].
  Qed.
  Lemma clean_reached : forall F L h, clean F L h -> reached h.
  Proof. intros F L h H. induction H as [|F L h a h' r H IH E _]; [apply reached_start|]. replace h' with (fst (step h a)) by (rewrite E; reflexivity). apply reached_step. exact IH. Qed.
  (** only a write, and only through a slice, changes what another ensemble shows *)
  Lemma c122_careful : forall F L h a o, clean F L h -> o < length (ensembles h) -> ~ acts_on a o -> shown (fst (step h a)) o = shown h o \/
    exists o' k j v, a = AWrite o' k j v /\ o' <> o /\ linked L o' o.
  Proof.
    intros F L h a o H Lo Hn. destruct (c122_frame h a o (clean_reached F L h H) Lo) as [E|[A|[(o' & d & -> & S)|(o' & k & j & v & -> & (n & d & c & p & c' & O & D & P & Hs & Eb & _))]]].
    - left. exact E.
    - contradiction.
    - exfalso. apply Hn. exact (c122_own_dict F L h o' o H S).
    - right. exists o', k, j, v. split; [reflexivity|]. split; [exact Hn|]. apply (c122_memory F L h o' o H). exists c, c'. split; [exists n, d, k; split; [exact O|exact (dget_in _ _ _ D)]|]. split; [exact Hs|]. symmetry. exact Eb.
  Qed.
  (** the columns always have one entry per PDF *)
  Lemma c122_lengths : forall F L h o n d k c, clean F L h -> nth_error (ensembles h) o = Some (n, Some d) -> In (k, c) (dict_at h d) ->
    match c with CArr a => length (read h a) = n | CScal _ => n = 1 end.
  Proof.
    intros F L h o n d k c H O Hi. pose proof (proj1 (check_shapes_fits _ _) (inv_fits _ _ _ (clean_inv F L h H) o n d O) k c Hi) as Z. destruct c as [a|v]; [|exact Z].
    unfold read. rewrite map_length. exact Z.
  Qed.
End HeapTheorems.
