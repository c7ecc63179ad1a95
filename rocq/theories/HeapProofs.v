(** Lemmas about the memory model of ancillary data. *)
From Coq Require Import String ZArith Bool List Arith Lia Relations.
From Verif Require Import Py NdArray Heap.
Import ListNotations.
Local Open Scope string_scope.
Local Open Scope list_scope.
Local Open Scope nat_scope.

Section Lists.
  Context {A : Type}.
  Lemma set_nth_length : forall (l : list A) i x, length (set_nth l i x) = length l.
  Proof. induction l as [|y l IH]; intros [|i] x; cbn [set_nth length]; try reflexivity. rewrite IH. reflexivity. Qed.
  Lemma set_nth_same : forall (l : list A) i x, i < length l -> nth_error (set_nth l i x) i = Some x.
  Proof. induction l as [|y l IH]; intros [|i] x H; cbn [set_nth length nth_error] in *; try lia; try reflexivity. apply IH. lia. Qed.
  Lemma set_nth_other : forall (l : list A) i j x, i <> j -> nth_error (set_nth l i x) j = nth_error l j.
  Proof. induction l as [|y l IH]; intros [|i] [|j] x H; cbn [set_nth nth_error]; try reflexivity; try congruence. apply IH. lia. Qed.
  Lemma nth_error_cases : forall (l : list A) i x j y, nth_error (set_nth l i x) j = Some y ->
    (i = j /\ y = x /\ j < length l) \/ (i <> j /\ nth_error l j = Some y).
  Proof.
    intros l i x j y E. destruct (Nat.eq_dec i j) as [->|N].
    - left. assert (j < length l) by (rewrite <- (set_nth_length l j x); apply nth_error_Some; congruence).
      rewrite set_nth_same in E by assumption. split; [reflexivity|]. split; [congruence|assumption].
    - right. rewrite set_nth_other in E by exact N. split; assumption.
  Qed.
  Lemma nth_error_snoc : forall (l : list A) x i y, nth_error (l ++ [x]) i = Some y ->
    nth_error l i = Some y \/ (i = length l /\ y = x).
  Proof.
    intros l x i y E. destruct (lt_dec i (length l)) as [L|L].
    - rewrite nth_error_app1 in E by exact L. left. exact E.
    - rewrite nth_error_app2 in E by lia. destruct (i - length l) as [|k] eqn:K; cbn in E.
      + right. split; [lia|congruence].
      + destruct k; discriminate E.
  Qed.
End Lists.

Section HeapProofs.
  Context {V : Type}.
  Notation heap := (heap V).
  Notation cell := (cell V).
  Notation columns := (dict string cell).

  (** the arrays, the buffers of a dictionary *)
  Definition arrays (d : columns) : list arr := flat_map (fun kc => match snd kc with CArr a => [a] | CScal _ => [] end) d.
  Lemma in_arrays : forall (d : columns) a, In a (arrays d) <-> exists k, In (k, CArr a) d.
  Proof.
    intros d a. unfold arrays. rewrite in_flat_map. split.
    - intros ((k & c) & Hi & Ha). cbn [snd] in Ha. destruct c as [a'|v]; [|destruct Ha]. destruct Ha as [->|[]]. exists k. exact Hi.
    - intros (k & Hi). exists (k, CArr a). split; [exact Hi|left; reflexivity].
  Qed.
  Definition inside (h : heap) (a : arr) : Prop := forall p, In p (a_pos a) -> place h (a_buf a) p <> None.
  Definition in_range (h : heap) (a : arr) : Prop := a_buf a < length (bufs h).

  (** ** growing heaps *)
  Definition grows (h h' : heap) : Prop := exists x y, bufs h' = bufs h ++ x /\ dicts h' = dicts h ++ y.
  Lemma grows_refl : forall h, grows h h.
  Proof. intros h. exists [], []. rewrite !app_nil_r. split; reflexivity. Qed.
  Lemma grows_trans : forall h1 h2 h3, grows h1 h2 -> grows h2 h3 -> grows h1 h3.
  Proof. intros h1 h2 h3 (x & y & E1 & E2) (x' & y' & E3 & E4). exists (x ++ x'), (y ++ y'). rewrite E3, E4, E1, E2, !app_assoc. split; reflexivity. Qed.
  Lemma grows_place : forall h h', grows h h' -> forall b p, b < length (bufs h) -> place h' b p = place h b p.
  Proof. intros h h' (x & y & E & _) b p L. unfold place. rewrite E, nth_error_app1 by exact L. reflexivity. Qed.
  Lemma grows_dict : forall h h', grows h h' -> forall d, d < length (dicts h) -> dict_at h' d = dict_at h d.
  Proof. intros h h' (x & y & _ & E) d L. unfold dict_at. rewrite E, app_nth1 by exact L. reflexivity. Qed.
  Lemma grows_bufs : forall h h', grows h h' -> length (bufs h) <= length (bufs h').
  Proof. intros h h' (x & y & E & _). rewrite E, app_length. lia. Qed.
  Lemma grows_dicts : forall h h', grows h h' -> length (dicts h) <= length (dicts h').
  Proof. intros h h' (x & y & _ & E). rewrite E, app_length. lia. Qed.
  Lemma inside_range : forall h a, inside h a -> a_pos a <> [] -> in_range h a.
  Proof.
    intros h a H N. unfold in_range. destruct (a_pos a) as [|p l] eqn:E; [congruence|].
    assert (P : place h (a_buf a) p <> None) by (apply H; rewrite E; left; reflexivity).
    unfold place in P. destruct (nth_error (bufs h) (a_buf a)) eqn:E'; [|congruence]. apply nth_error_Some. congruence.
  Qed.
  Lemma grows_inside : forall h h' a, grows h h' -> in_range h a -> inside h a -> inside h' a.
  Proof. intros h h' a G R H p Hp. rewrite (grows_place h h' G) by exact R. apply H, Hp. Qed.
  Lemma grows_read : forall h h' a, grows h h' -> in_range h a -> read h' a = read h a.
  Proof. intros h h' a G R. unfold read. apply map_ext. intros p. apply (grows_place h h' G). exact R. Qed.
  Definition good (h : heap) (d : columns) : Prop := forall a, In a (arrays d) -> in_range h a /\ inside h a.
  Lemma grows_good : forall h h' d, grows h h' -> good h d -> good h' d.
  Proof.
    intros h h' d G H a Ha. destruct (H a Ha) as [R I]. split; [|apply (grows_inside h h' a G R I)].
    unfold in_range in *. pose proof (grows_bufs h h' G). lia.
  Qed.
  Lemma grows_see : forall h h' d, grows h h' -> good h d ->
    map (fun kc => (fst kc, see h' (snd kc))) d = map (fun kc => (fst kc, see h (snd kc))) d.
  Proof.
    intros h h' d G H. apply map_ext_in. intros (k & c) Hi. cbn [fst snd]. destruct c as [a|v]; [|reflexivity]. cbn [see].
    rewrite (grows_read h h' a G); [reflexivity|]. apply H. apply in_arrays. exists k. exact Hi.
  Qed.

  (** ** new arrays *)
  Lemma alloc_spec : forall (h : heap) l h1 c, alloc h l = (h1, c) -> grows h h1 /\ dicts h1 = dicts h /\ ensembles h1 = ensembles h /\
    exists a, c = CArr a /\ a_buf a = length (bufs h) /\ length (a_pos a) = length l /\ in_range h1 a /\ inside h1 a /\ read h1 a = map Some l.
  Proof.
    intros h l h1 c E. unfold alloc in E. injection E as <- <-. split; [exists [l], []; cbn; rewrite app_nil_r; split; reflexivity|].
    split; [reflexivity|]. split; [reflexivity|]. eexists. split; [reflexivity|]. cbn [a_buf a_pos]. split; [reflexivity|]. split; [apply seq_length|].
    assert (P : forall p, place (mkheap (bufs h ++ [l]) (dicts h) (ensembles h)) (length (bufs h)) p = nth_error l p).
    { intros p. unfold place. cbn [bufs]. rewrite nth_error_app2, Nat.sub_diag by lia. reflexivity. }
    split; [unfold in_range; cbn; rewrite app_length; cbn; lia|]. split.
    - intros p Hp. cbn [a_buf a_pos] in *. rewrite P. apply nth_error_Some. apply in_seq in Hp. lia.
    - unfold read. cbn [a_buf a_pos]. rewrite (map_ext _ _ P). clear. induction l as [|x l IH]; [reflexivity|].
      cbn [length seq map nth_error]. f_equal. rewrite <- seq_shift, map_map. exact IH.
  Qed.
  Definition fresh_in (h h1 : heap) (a : arr) : Prop := length (bufs h) <= a_buf a /\ in_range h1 a /\ inside h1 a.
  Lemma fresh_later : forall h h1 h2 a, grows h1 h2 -> fresh_in h h1 a -> fresh_in h h2 a.
  Proof.
    intros h h1 h2 a G (L & R & I). split; [exact L|]. split; [unfold in_range in *; pose proof (grows_bufs h1 h2 G); lia|].
    apply (grows_inside h1 h2 a G R I).
  Qed.
  Lemma fresh_earlier : forall h h0 h1 a, grows h h0 -> fresh_in h0 h1 a -> fresh_in h h1 a.
  Proof. intros h h0 h1 a G (L & R & I). split; [pose proof (grows_bufs h h0 G); lia|]. split; assumption. Qed.

  Lemma alloc_all_spec : forall cols (h : heap) h1 c, alloc_all h cols = (h1, c) -> grows h h1 /\ dicts h1 = dicts h /\ ensembles h1 = ensembles h /\
    map fst c = map fst cols /\ Forall2 (fun kc kl => exists a, snd kc = CArr a /\ fresh_in h h1 a /\ length (a_pos a) = length (snd kl) /\ read h1 a = map Some (snd kl)) c cols.
  Proof.
    induction cols as [|[k l] cols IH]; intros h h1 c E; cbn [alloc_all] in E.
    - injection E as <- <-. split; [apply grows_refl|]. repeat split; constructor.
    - destruct (alloc h l) as [h0 c0] eqn:E0. destruct (alloc_all h0 cols) as [h2 r] eqn:E1. injection E as <- <-.
      destruct (alloc_spec h l h0 c0 E0) as (G0 & D0 & N0 & a & -> & B & L & R & I & Rd).
      destruct (IH h0 h2 r E1) as (G1 & D1 & N1 & K & F). split; [exact (grows_trans _ _ _ G0 G1)|].
      split; [congruence|]. split; [congruence|]. split; [cbn; f_equal; exact K|]. constructor.
      + exists a. split; [reflexivity|]. split; [apply (fresh_later h h0 h2 a G1); split; [lia|split; assumption]|]. split; [exact L|].
        cbn [snd]. rewrite (grows_read h0 h2 a G1 R). exact Rd.
      + clear - F G0. induction F as [|x y l l' H F IH]; constructor; [|exact IH]. destruct H as (a & E & H & L). exists a. split; [exact E|].
        split; [exact (fresh_earlier h h0 h2 a G0 H)|exact L].
  Qed.
  Lemma alloc_all_fresh : forall cols (h : heap) h1 c, alloc_all h cols = (h1, c) -> forall a, In a (arrays c) -> fresh_in h h1 a.
  Proof.
    intros cols h h1 c E a Ha. destruct (alloc_all_spec cols h h1 c E) as (_ & _ & _ & _ & F). apply in_arrays in Ha. destruct Ha as (k & Hi).
    clear E. induction F as [|x y l l' H F IH]; [destruct Hi|]. destruct Hi as [->|Hi]; [|exact (IH Hi)].
    destruct H as (a' & E & H & _). cbn [snd] in E. injection E as <-. exact H.
  Qed.

  (** ** dictionaries *)
  Lemma dset_arrays : forall (d : columns) k c a, In a (arrays (dset String.eqb d k c)) -> In a (arrays d) \/ c = CArr a.
  Proof.
    intros d k c a H. apply in_arrays in H. destruct H as (k' & H). revert H. induction d as [|[k0 c0] d IH]; cbn [dset].
    - intros [E|[]]. injection E as -> ->. right. reflexivity.
    - destruct (String.eqb k k0).
      + intros [E|H]; [injection E as -> ->; right; reflexivity|]. left. apply in_arrays. exists k'. right. exact H.
      + intros [E|H]; [left; apply in_arrays; exists k'; left; exact E|]. destruct (IH H) as [H'|H']; [|right; exact H'].
        left. apply in_arrays in H'. destruct H' as (k2 & H'). apply in_arrays. exists k2. right. exact H'.
  Qed.
  Lemma dupdate_arrays : forall (d2 d : columns) a, In a (arrays (dupdate String.eqb d d2)) -> In a (arrays d) \/ In a (arrays d2).
  Proof.
    unfold dupdate. induction d2 as [|[k c] d2 IH]; intros d a H; [left; exact H|]. cbn [fold_left fst snd] in H.
    destruct (IH _ a H) as [H1|H1].
    - destruct (dset_arrays d k c a H1) as [H2|H2]; [left; exact H2|]. right. apply in_arrays. exists k. left. congruence.
    - right. apply in_arrays in H1. destruct H1 as (k' & H1). apply in_arrays. exists k'. right. exact H1.
  Qed.
  Definition fits (n : nat) (c : cell) : Prop := match c with CArr a => length (a_pos a) = n | CScal _ => n = 1 end.
  Lemma check_shapes_fits : forall (d : columns) n, check_shapes d n = Ok tt <-> forall k c, In (k, c) d -> fits n c.
  Proof.
    induction d as [|[k c] d IH]; intros n; cbn [check_shapes]; [split; [intros _ k c []|reflexivity]|]. destruct c as [a|v].
    - destruct (Nat.eqb_spec (length (a_pos a)) n) as [E|E].
      + rewrite IH. split; [intros H k' c' [E'|Hi]; [injection E' as <- <-; exact E|exact (H k' c' Hi)]|]. intros H k' c' Hi. apply (H k' c'). right. exact Hi.
      + split; [discriminate|]. intros H. exfalso. apply E. apply (H k (CArr a)). left. reflexivity.
    - destruct (Nat.eqb_spec n 1) as [E|E].
      + rewrite IH. split; [intros H k' c' [E'|Hi]; [injection E' as <- <-; exact E|exact (H k' c' Hi)]|]. intros H k' c' Hi. apply (H k' c'). right. exact Hi.
      + split; [discriminate|]. intros H. exfalso. apply E. apply (H k (CScal v)). left. reflexivity.
  Qed.
  Lemma check_shapes_tt : forall (d : columns) n u, check_shapes d n = Ok u -> check_shapes d n = Ok tt.
  Proof. intros d n [] E. exact E. Qed.
  Lemma dset_in : forall (d : columns) k c k' c', In (k', c') (dset String.eqb d k c) -> In (k', c') d \/ c' = c.
  Proof.
    intros d k c k' c'. induction d as [|[k0 c0] d IH]; cbn [dset].
    - intros [E|[]]. right. congruence.
    - destruct (String.eqb k k0); intros [E|H]; [right; congruence|left; right; exact H|left; left; exact E|]. destruct (IH H) as [?|?]; [left; right; assumption|right; assumption].
  Qed.
  Lemma dupdate_in : forall (d2 d : columns) k c, In (k, c) (dupdate String.eqb d d2) -> In (k, c) d \/ exists k', In (k', c) d2.
  Proof.
    unfold dupdate. induction d2 as [|[k c] d2 IH]; intros d k' c' H; [left; exact H|]. cbn [fold_left fst snd] in H.
    destruct (IH _ k' c' H) as [H1|(k2 & H1)].
    - destruct (dset_in d k c k' c' H1) as [H2| ->]; [left; exact H2|]. right. exists k. left. reflexivity.
    - right. exists k2. right. exact H1.
  Qed.

  (** ** slices *)
  Definition is_slice (key : pykey) : Prop := exists i j, key = KSlice i j.
  Lemma mapM_length : forall {A B} (f : A -> res B) l r, mapM f l = Ok r -> length r = length l.
  Proof.
    induction l as [|x l IH]; intros r E; cbn [mapM] in E; [injection E as <-; reflexivity|]. destruct (f x) as [y|]; [|discriminate E]. cbn [bind] in E.
    destruct (mapM f l) as [r'|]; [|discriminate E]. cbn [bind] in E. injection E as <-. cbn. f_equal. apply IH. reflexivity.
  Qed.
  Lemma pick_in : forall {A} (l : list A) ps r, pick l ps = Ok r -> forall x, In x r -> In x l.
  Proof.
    intros A l ps. unfold pick. induction ps as [|p ps IH]; intros r E x Hx; cbn [mapM] in E; [injection E as <-; destruct Hx|].
    destruct (nth_error l p) as [y|] eqn:Ey; [|discriminate E]. cbn [bind] in E. destruct (mapM _ ps) as [r'|] eqn:Er; [|discriminate E]. cbn [bind] in E. injection E as <-.
    destruct Hx as [<-|Hx]; [exact (nth_error_In _ _ Ey)|]. exact (IH r' eq_refl x Hx).
  Qed.
  Lemma fetch_some : forall (l : list (option V)) vs, fetch l = Ok vs <-> l = map Some vs.
  Proof.
    induction l as [|[v|] l IH]; intros vs; cbn [fetch].
    - split; [intros E; injection E as <-; reflexivity|]. destruct vs; [reflexivity|discriminate].
    - destruct (fetch l) as [r|e] eqn:E; cbn [bind].
      + split; [intros E'; injection E' as <-; cbn; f_equal; apply IH; reflexivity|]. destruct vs as [|v' vs]; [discriminate|]. cbn. intros E'. injection E' as -> E'. apply IH in E'. congruence.
      + split; [discriminate|]. destruct vs as [|v' vs]; [discriminate|]. cbn. intros E'. injection E' as _ E'. apply IH in E'. congruence.
    - split; [discriminate|]. destruct vs; discriminate.
  Qed.
  Lemma slice_cell_spec : forall (h : heap) key c h1 c1 n ps, slice_cell h key c = Ok (h1, c1) -> (forall a, c = CArr a -> inside h a /\ in_range h a) ->
    grows h h1 /\ dicts h1 = dicts h /\ ensembles h1 = ensembles h /\
    (forall a1, c1 = CArr a1 -> in_range h1 a1 /\ inside h1 a1 /\
       (length (bufs h) <= a_buf a1 \/ exists a, c = CArr a /\ is_slice key /\ a_buf a1 = a_buf a)) /\
    (fits n c -> key_positions n key = Some ps -> fits (length ps) c1).
  Proof.
    intros h key c h1 c1 n ps E Hc. destruct c as [a|v]; [|discriminate E]. cbn [slice_cell] in E. destruct (Hc a eq_refl) as [I R].
    destruct (key_positions (length (a_pos a)) key) as [ps'|] eqn:K; [|discriminate E]. destruct (pick (a_pos a) ps') as [qs|] eqn:P; [|discriminate E]. cbn [bind] in E.
    assert (Lq : length qs = length ps') by exact (mapM_length _ _ _ P).
    assert (Iq : inside h (mkarr (a_buf a) qs)) by (intros p Hp; apply I, (pick_in _ _ _ P p Hp)).
    assert (Fit : fits n (CArr a : cell) -> key_positions n key = Some ps -> ps' = ps) by (cbn [fits]; intros <- E2; congruence).
    assert (Copy : forall vs, fetch (read h (mkarr (a_buf a) qs)) = Ok vs -> alloc h vs = (h1, c1) ->
      grows h h1 /\ dicts h1 = dicts h /\ ensembles h1 = ensembles h /\
      (forall a1, c1 = CArr a1 -> in_range h1 a1 /\ inside h1 a1 /\ (length (bufs h) <= a_buf a1 \/ exists a0, (CArr a : cell) = CArr a0 /\ is_slice key /\ a_buf a1 = a_buf a0)) /\
      (fits n (CArr a : cell) -> key_positions n key = Some ps -> fits (length ps) c1)).
    { intros vs F A. apply fetch_some in F. destruct (alloc_spec h vs h1 c1 A) as (G & D & N & a1 & -> & B & L & R1 & I1 & _).
      split; [exact G|]. split; [exact D|]. split; [exact N|]. split.
      - intros a2 E2. injection E2 as <-. split; [exact R1|]. split; [exact I1|]. left. lia.
      - intros F1 F2. cbn [fits]. rewrite <- (Fit F1 F2), L. apply (f_equal (@length _)) in F. unfold read in F. rewrite !map_length in F. cbn [a_pos] in F. lia. }
    destruct key as [i|i j|m|is].
    - destruct (fetch _) as [vs|] eqn:F; [|discriminate E]. cbn [bind] in E. destruct vs as [|v vs]; [discriminate E|]. injection E as <- <-.
      split; [apply grows_refl|]. split; [reflexivity|]. split; [reflexivity|]. split; [discriminate|]. intros F1 F2. cbn [fits]. cbn [key_positions] in F2. destruct (norm_index n i); [|discriminate F2]. injection F2 as <-. reflexivity.
    - injection E as <- <-. split; [apply grows_refl|]. split; [reflexivity|]. split; [reflexivity|]. split.
      + intros a1 E1. injection E1 as <-. split; [exact R|]. split; [exact Iq|]. right. exists a. split; [reflexivity|]. split; [exists i, j; reflexivity|reflexivity].
      + intros F1 F2. cbn [fits a_pos]. rewrite <- (Fit F1 F2). exact Lq.
    - destruct (fetch _) as [vs|] eqn:F; [|discriminate E]. cbn [bind] in E. apply (Copy vs eq_refl). congruence.
    - destruct (fetch _) as [vs|] eqn:F; [|discriminate E]. cbn [bind] in E. apply (Copy vs eq_refl). congruence.
  Qed.
  Lemma slice_columns_spec : forall key n ps d (h : heap) h1 c, slice_columns h key d = Ok (h1, c) -> good h d ->
    grows h h1 /\ dicts h1 = dicts h /\ ensembles h1 = ensembles h /\
    (forall a1, In a1 (arrays c) -> in_range h1 a1 /\ inside h1 a1 /\
       (length (bufs h) <= a_buf a1 \/ is_slice key /\ exists a, In a (arrays d) /\ a_buf a1 = a_buf a)) /\
    (check_shapes d n = Ok tt -> key_positions n key = Some ps -> check_shapes c (length ps) = Ok tt).
  Proof.
    intros key n ps. induction d as [|[k c0] d IH]; intros h h1 c E Hg; cbn [slice_columns] in E.
    - injection E as <- <-. split; [apply grows_refl|]. split; [reflexivity|]. split; [reflexivity|]. split; [intros a []|reflexivity].
    - destruct (slice_cell h key c0) as [[h0 c1]|] eqn:E0; [|discriminate E]. cbn [bind fst snd] in E.
      destruct (slice_columns h0 key d) as [[h2 r]|] eqn:E1; [|discriminate E]. cbn [bind fst snd] in E. injection E as <- <-.
      destruct (slice_cell_spec h key c0 h0 c1 n ps E0) as (G0 & D0 & N0 & A0 & F0).
      { intros a ->. destruct (Hg a) as [R I]; [apply in_arrays; exists k; left; reflexivity|]. split; assumption. }
      assert (Hd : good h d) by (intros a Ha; apply Hg; apply in_arrays in Ha; destruct Ha as (k' & Ha); apply in_arrays; exists k'; right; exact Ha).
      destruct (IH h0 h2 r E1 (grows_good h h0 d G0 Hd)) as (G1 & D1 & N1 & A1 & F1).
      split; [exact (grows_trans _ _ _ G0 G1)|]. split; [congruence|]. split; [congruence|]. split.
      + intros a1 Ha. apply in_arrays in Ha. destruct Ha as (k' & [E2|Ha]).
        * injection E2 as -> ->. destruct (A0 a1 eq_refl) as (R & I & S). split; [unfold in_range in *; pose proof (grows_bufs h0 h2 G1); lia|].
          split; [exact (grows_inside h0 h2 a1 G1 R I)|]. destruct S as [S|(a & -> & S & B)]; [left; exact S|]. right. split; [exact S|]. exists a. split; [apply in_arrays; exists k'; left; reflexivity|exact B].
        * destruct (A1 a1) as (R & I & S); [apply in_arrays; exists k'; exact Ha|]. split; [exact R|]. split; [exact I|].
          destruct S as [S|(S & a & Ia & B)]; [left; pose proof (grows_bufs h h0 G0); lia|]. right. split; [exact S|]. exists a. split; [|exact B].
          apply in_arrays in Ia. destruct Ia as (k2 & Ia). apply in_arrays. exists k2. right. exact Ia.
      + rewrite !check_shapes_fits. intros H K k' c' [E2|Hi].
        * injection E2 as <- <-. apply F0; [|exact K]. apply (H k c0). left. reflexivity.
        * assert (C : check_shapes r (length ps) = Ok tt) by (apply F1; [|exact K]; apply check_shapes_fits; intros k2 c2 H2; apply (H k2 c2); right; exact H2).
          rewrite check_shapes_fits in C. exact (C k' c' Hi).
  Qed.
End HeapProofs.
