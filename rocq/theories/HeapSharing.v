(** What is shared and what is copied: C121, C122. *)
From Coq Require Import String ZArith Bool List Arith Lia Relations.
From Verif Require Import EnsembleTheorems.
From Verif Require Import Py NdArray Heap HeapProofs HeapTheorems.
Import ListNotations.
Local Open Scope string_scope.
Local Open Scope list_scope.
Local Open Scope nat_scope.

Section HeapSharing.
  Context {V : Type}.
  Notation heap := (heap V).
  Notation act := (act V).

  (** entry [p] of column [k] in what an ensemble shows *)
  Definition entry_of (h : heap) (o : nat) (k : string) (p : nat) : option V :=
    match shown h o with
    | Some t => match dget String.eqb t k with Some (SArr l) => match nth_error l p with Some (Some v) => Some v | _ => None end | _ => None end
    | None => None
    end.
  Lemma dget_map : forall {A B} (f : A -> B) (d : dict string A) k, dget String.eqb (map (fun kc => (fst kc, f (snd kc))) d) k = option_map f (dget String.eqb d k).
  Proof. induction d as [|[k' c] d IH]; intros k; [reflexivity|]. cbn [map dget fst snd]. destruct (String.eqb k k'); [reflexivity|apply IH]. Qed.
  Lemma entry_of_at : forall (h : heap) o n d k a p q v, nth_error (ensembles h) o = Some (n, Some d) -> dget String.eqb (dict_at h d) k = Some (CArr a) -> nth_error (a_pos a) p = Some q ->
    place h (a_buf a) q = Some v -> entry_of h o k p = Some v.
  Proof.
    intros h o n d k a p q v O D P E. unfold entry_of, shown. rewrite O, (dget_map (see h)), D. cbn [option_map see]. unfold read. rewrite (map_nth_error _ _ _ P), E. reflexivity.
  Qed.
  Lemma pick_nth : forall {A} (l : list A) ps r, pick l ps = Ok r -> forall m p, nth_error ps m = Some p -> nth_error r m = nth_error l p.
  Proof.
    intros A l ps. unfold pick. induction ps as [|p ps IH]; intros r E m q Hm; [destruct m; discriminate Hm|]. cbn [mapM] in E. destruct (nth_error l p) as [x|] eqn:Ex; [|discriminate E]. cbn [bind] in E.
    destruct (mapM _ ps) as [r'|]; [|discriminate E]. cbn [bind] in E. injection E as <-. destruct m as [|m]; cbn [nth_error] in *; [congruence|]. exact (IH r' eq_refl m q Hm).
  Qed.
  Lemma slice_columns_get : forall i j (d : dict string (cell V)) (h : heap) h1 c k a ps, slice_columns h (KSlice i j) d = Ok (h1, c) -> dget String.eqb d k = Some (CArr a) ->
    key_positions (length (a_pos a)) (KSlice i j) = Some ps ->
    exists qs, pick (a_pos a) ps = Ok qs /\ dget String.eqb c k = Some (CArr (mkarr (a_buf a) qs)) /\ h1 = h.
  Proof.
    intros i j. assert (Same : forall (h : heap) c0 h0 c1, slice_cell h (KSlice i j) c0 = Ok (h0, c1) -> h0 = h /\ exists a ps qs, c0 = CArr a /\ key_positions (length (a_pos a)) (KSlice i j) = Some ps /\ pick (a_pos a) ps = Ok qs /\ c1 = CArr (mkarr (a_buf a) qs)).
    { intros h [a|v] h0 c1 E; [|discriminate E]. cbn [slice_cell] in E. destruct (key_positions (length (a_pos a)) (KSlice i j)) as [ps|] eqn:K; [|discriminate E]. destruct (pick (a_pos a) ps) as [qs|] eqn:P; [|discriminate E]. cbn [bind] in E. injection E as <- <-.
      split; [reflexivity|]. exists a, ps, qs. split; [reflexivity|]. split; [exact K|]. split; [exact P|reflexivity]. }
    assert (Sd : forall d (h : heap) h1 c, slice_columns h (KSlice i j) d = Ok (h1, c) -> h1 = h).
    { induction d as [|[k c0] d IH]; intros h h1 c E; cbn [slice_columns] in E; [injection E as <- <-; reflexivity|]. destruct (slice_cell h _ c0) as [[h0 c1]|] eqn:E0; [|discriminate E]. cbn [bind fst snd] in E.
      destruct (slice_columns h0 _ d) as [[h2 r]|] eqn:E1; [|discriminate E]. cbn [bind fst snd] in E. injection E as <- <-. rewrite (IH _ _ _ E1). exact (proj1 (Same _ _ _ _ E0)). }
    induction d as [|[k' c0] d IH]; intros h h1 c k a ps E D K; [discriminate D|]. pose proof (Sd _ _ _ _ E) as Eh. cbn [slice_columns] in E. destruct (slice_cell h _ c0) as [[h0 c1]|] eqn:E0; [|discriminate E]. cbn [bind fst snd] in E.
    destruct (slice_columns h0 _ d) as [[h2 r]|] eqn:E1; [|discriminate E]. cbn [bind fst snd] in E. injection E as <- <-. cbn [dget] in *. destruct (String.eqb k k').
    - injection D as ->. destruct (Same _ _ _ _ E0) as (_ & a' & ps' & qs & Ea & K' & P & ->). injection Ea as <-. rewrite K in K'. injection K' as <-. exists qs. split; [exact P|]. split; [reflexivity|exact Eh].
    - destruct (Same _ _ _ _ E0) as (-> & _). destruct (IH h h2 r k a ps E1 D K) as (qs & P & D' & E'). exists qs. split; [exact P|]. split; [exact D'|exact E'].
  Qed.
  Lemma place_written : forall (h : heap) b q v D E, place h b q <> None -> place (mkheap (set_nth (bufs h) b (set_nth (nth b (bufs h) []) q v)) D E) b q = Some v.
  Proof.
    intros h b q v D E H. unfold place in *. cbn [bufs]. destruct (nth_error (bufs h) b) as [l|] eqn:Eb; [|congruence]. rewrite set_nth_same by (apply nth_error_Some; congruence).
    rewrite (nth_error_nth _ _ [] Eb). apply set_nth_same. apply nth_error_Some. exact H.
  Qed.

  (** C122: a column of a slice is a window on the column it was taken from *)
  Lemma c122_window : forall (h : heap) o n d k a i j ps h', reached h -> nth_error (ensembles h) o = Some (n, Some d) -> dget String.eqb (dict_at h d) k = Some (CArr a) -> length (a_pos a) = n ->
    step h (AGet o (KSlice i j)) = (h', Ok tt) -> picks n (KSlice i j) ps ->
    forall m p v, nth_error ps m = Some p ->
      let new := length (ensembles h) in
      exists h2, step h' (AWrite new k m v) = (h2, Ok tt) /\ entry_of h2 new k m = Some v /\ entry_of h2 o k p = Some v.
  Proof.
    intros h o n d k a i j ps h' Hr O D La Es Hp m p v Hm new. apply picks_iff in Hp. pose proof (reached_wf h Hr) as [W1 W2]. subst n.
    cbn [step] in Es. unfold with_ens in Es. rewrite O, Hp in Es. destruct (slice_columns h (KSlice i j) (dict_at h d)) as [[h1 c]|] eqn:S; [|discriminate Es].
    destruct (slice_columns_get i j (dict_at h d) h h1 c k a ps S D Hp) as (qs & P & Dc & ->).
    assert (Hq : exists q, nth_error (a_pos a) p = Some q).
    { destruct (nth_error (a_pos a) p) as [q|] eqn:Q; [exists q; reflexivity|]. exfalso. pose proof (pick_nth _ _ _ P m p Hm) as Z. rewrite Q in Z. apply nth_error_None in Z. pose proof (mapM_length _ _ _ P) as Lq. assert (m < length ps) by (apply nth_error_Some; congruence). lia. }
    destruct Hq as (q & Q). pose proof (pick_nth _ _ _ P m p Hm) as Qm. rewrite Q in Qm.
    assert (Ia : place h (a_buf a) q <> None). { apply (proj2 (W2 d a (proj2 (in_arrays _ _) (ex_intro _ k (dget_in _ _ _ D))))). exact (nth_error_In _ _ Q). }
    unfold create in Es. destruct (check_ancil (new_dict h c) (Some (length (dicts h))) (length ps)) as [u|]; [|discriminate Es]. injection Es as <-.
    set (h' := new_ens (new_dict h c) (length ps) (Some (length (dicts h)))).
    assert (On : nth_error (ensembles h') new = Some (length ps, Some (length (dicts h)))) by (unfold h', new; cbn; rewrite nth_error_app2, Nat.sub_diag by lia; reflexivity).
    assert (Dn : dict_at h' (length (dicts h)) = c) by exact (dict_at_snoc h c).
    assert (Oo : nth_error (ensembles h') o = Some (length (a_pos a), Some d)) by (unfold h'; cbn; rewrite nth_error_app1 by (apply nth_error_Some; congruence); exact O).
    assert (Do : dict_at h' d = dict_at h d) by exact (dict_at_app h [c] _ _ d (W1 _ _ _ O)).
    eexists. split.
    - cbn [step]. unfold with_ens. rewrite On, Dn, Dc. cbn [a_pos]. rewrite Qm. reflexivity.
    - cbn [a_buf]. split.
      + apply (entry_of_at _ new (length ps) (length (dicts h)) k (mkarr (a_buf a) qs) m q v); [exact On| | |]; [change (dget String.eqb (dict_at h' (length (dicts h))) k = Some (CArr (mkarr (a_buf a) qs))); rewrite Dn; exact Dc|exact Qm|]. exact (place_written h' (a_buf a) q v _ _ Ia).
      + apply (entry_of_at _ o (length (a_pos a)) d k a p q v); [exact Oo| | |]; [change (dget String.eqb (dict_at h' d) k = Some (CArr a)); rewrite Do; exact D|exact Q|]. exact (place_written h' (a_buf a) q v _ _ Ia).
  Qed.
  (** C122: the other keys, and concatenation, copy *)
  Lemma c122_copies : forall (h : heap) (a : act) h', reached h -> step h a = (h', Ok tt) -> (exists os, a = AConcat os) \/ (exists o key, a = AGet o key /\ forall i j, key <> KSlice i j) ->
    forall o, o < length (ensembles h) -> ~ same_memory h' o (length (ensembles h)).
  Proof.
    intros h a h' Hr E Ha o Lo (c1 & c2 & (n1 & d1 & k1 & O1 & Hi1) & (n2 & d2 & k2 & O2 & Hi2) & Eb). pose proof (reached_wf h Hr) as W. pose proof W as [W1 W2].
    assert (Key : forall (h1 : heap) c n, grows h h1 -> dicts h1 = dicts h ++ [c] -> ensembles h1 = ensembles h -> (forall a, In a (arrays c) -> fresh_in h h1 a) -> h' = new_ens h1 n (Some (length (dicts h))) -> False).
    { intros h1 c n G D N A ->. cbn [new_ens ensembles] in O1, O2. rewrite N in O1, O2. rewrite nth_error_app1 in O1 by exact Lo. rewrite nth_error_app2, Nat.sub_diag in O2 by lia. cbn in O2. injection O2 as <- <-.
      pose proof (W1 _ _ _ O1) as L1. change (In (k1, CArr c1) (dict_at h1 d1)) in Hi1. rewrite (grows_dict h h1 G d1 L1) in Hi1. change (In (k2, CArr c2) (dict_at h1 (length (dicts h)))) in Hi2.
      replace (dict_at h1 (length (dicts h))) with c in Hi2 by (unfold dict_at; rewrite D, app_nth2, Nat.sub_diag by lia; reflexivity).
      pose proof (proj1 (W2 d1 c1 (proj2 (in_arrays _ _) (ex_intro _ k1 Hi1)))) as R. destruct (A c2 (proj2 (in_arrays _ _) (ex_intro _ k2 Hi2))) as [Lb _]. unfold in_range in R. lia. }
    assert (None' : forall n, h' = new_ens h n None -> False).
    { intros n ->. cbn [new_ens ensembles] in O2. rewrite nth_error_app2, Nat.sub_diag in O2 by lia. discriminate O2. }
    destruct Ha as [(os & ->)|(o0 & key & -> & Hk)]; cbn [step] in E.
    - destruct (pick (ensembles h) os) as [l|]; [|discriminate E]. destruct l as [|x l]; [injection E as <-; rewrite (proj2 (nth_error_None _ _) (le_n _)) in O2; discriminate O2|].
      destruct (joined h (map snd (x :: l))) as [[h1 q]|] eqn:J; [|discriminate E]. unfold create in E. destruct (check_ancil h1 q _); [|discriminate E]. injection E as <-.
      destruct (joined_spec h _ h1 q J) as [[-> ->]|(c & -> & G & D & N & A & _)]; [exact (None' _ eq_refl)|exact (Key h1 c _ G D N A eq_refl)].
    - unfold with_ens in E. destruct (nth_error (ensembles h) o0) as [[n d]|]; [|discriminate E]. destruct (key_positions n key) as [ps|]; [|discriminate E]. destruct d as [d|].
      + destruct (slice_columns h key (dict_at h d)) as [[h1 c]|] eqn:S; [|discriminate E]. destruct (slice_columns_spec key n ps (dict_at h d) h h1 c S (W2 d)) as (G & D & N & A & _).
        unfold create in E. destruct (check_ancil _ _ _); [|discriminate E]. injection E as <-. apply (Key (new_dict h1 c) c (length ps)); [apply grows_new_dict; exact G|cbn; rewrite D; reflexivity|exact N| |reflexivity].
        intros a0 Ha0. destruct (A a0 Ha0) as (R & I & [Lb|[(i & j & Ek) _]]); [|exfalso; exact (Hk i j Ek)]. split; [exact Lb|]. split; assumption.
      + unfold create in E. cbn [check_ancil] in E. injection E as <-. exact (None' _ eq_refl).
  Qed.
  (** C122: a copy made by way of the tables holds the dictionary of the original, so columns added to either appear in both *)
  Lemma c122_tables : forall (h : heap) o n d h', nth_error (ensembles h) o = Some (n, Some d) -> step h (ATables o) = (h', Ok tt) -> same_dict h' o (length (ensembles h)).
  Proof.
    intros h o n d h' O E. cbn [step] in E. unfold with_ens in E. rewrite O in E. unfold create in E. destruct (check_ancil h (Some d) n); [|discriminate E]. injection E as <-.
    exists n, n, d. cbn. rewrite nth_error_app1 by (apply nth_error_Some; congruence). rewrite nth_error_app2, Nat.sub_diag by lia. split; [exact O|reflexivity].
  Qed.
  Lemma c122_both : forall (h : heap) o o' (a : act), same_dict h o o' -> (exists d, a = AAdd o d) \/ (exists k j v, a = AWrite o k j v) ->
    shown (fst (step h a)) o' = shown (fst (step h a)) o.
  Proof.
    intros h o o' a (n & n' & d & O & O') Ha. assert (E : ensembles (fst (step h a)) = ensembles h).
    { destruct Ha as [(x & ->)|(k & j & v & ->)]; cbn [step]; unfold with_ens; rewrite O.
      - destruct (known h x); [|reflexivity]. destruct (check_shapes _ n); reflexivity.
      - destruct (dget _ _ k) as [[c|]|]; try reflexivity. destruct (nth_error (a_pos c) j); reflexivity. }
    unfold shown. rewrite E, O, O'. reflexivity.
  Qed.
End HeapSharing.

(** ** the unrestricted claim is false *)
Definition run (l : list (act nat)) : heap nat := fold_left (fun h a => fst (step h a)) l empty.
Fixpoint results (h : heap nat) (l : list (act nat)) : list (res unit) := match l with [] => [] | a :: t => snd (step h a) :: results (fst (step h a)) t end.
Definition all_ok (l : list (act nat)) : Prop := List.Forall (fun r => r = Ok tt) (results empty l).
Lemma run_reached : forall l, reached (run l).
Proof.
  intros l. unfold run. assert (H : forall (h : heap nat), reached h -> reached (fold_left (fun h a => fst (step h a)) l h)).
  { induction l as [|a l IH]; intros h Hh; [exact Hh|]. cbn [fold_left]. apply IH. apply reached_step. exact Hh. }
  apply H, reached_start.
Qed.
(** a dictionary given to two ensembles; a slice; a copy by way of the tables *)
Lemma c121_shared_refuted : exists l a o, all_ok (l ++ [a]) /\ o < length (ensembles (run l)) /\ ~ acts_on a o /\ shown (fst (step (run l) a)) o <> shown (run l) o.
Proof.
  exists [ADict [("w", [1; 2])]; ANew 2 (Some 0); ANew 2 (Some 0); ADict [("z", [5; 6])]], (AAdd 0 1), 1.
  split; [repeat constructor|]. split; [vm_compute; lia|]. split; [cbn; lia|]. vm_compute. discriminate.
Qed.
Lemma c121_view_refuted : exists l a o, all_ok (l ++ [a]) /\ o < length (ensembles (run l)) /\ ~ acts_on a o /\ shown (fst (step (run l) a)) o <> shown (run l) o /\
  (forall d, ~ In (ACopy d) l) /\ (forall o, ~ In (ATables o) l) /\ a = AWrite 1 "w" 0 9 /\ l = [ADict [("w", [1; 2; 3])]; ANew 3 (Some 0); AGet 0 (KSlice 0 2)].
Proof.
  exists [ADict [("w", [1; 2; 3])]; ANew 3 (Some 0); AGet 0 (KSlice 0 2)], (AWrite 1 "w" 0 9), 0.
  split; [repeat constructor|]. split; [vm_compute; lia|]. split; [cbn; lia|]. split; [vm_compute; discriminate|].
  split; [intros d [H|[H|[H|[]]]]; discriminate H|]. split; [intros d [H|[H|[H|[]]]]; discriminate H|]. split; reflexivity.
Qed.
Lemma c121_tables_refuted : exists l a o, all_ok (l ++ [a]) /\ o < length (ensembles (run l)) /\ ~ acts_on a o /\ shown (fst (step (run l) a)) o <> shown (run l) o /\
  l = [ADict [("w", [1; 2])]; ANew 2 (Some 0); ATables 0; ADict [("z", [5; 6])]].
Proof.
  exists [ADict [("w", [1; 2])]; ANew 2 (Some 0); ATables 0; ADict [("z", [5; 6])]], (AAdd 1 1), 0.
  split; [repeat constructor|]. split; [vm_compute; lia|]. split; [cbn; lia|]. split; [vm_compute; discriminate|reflexivity].
Qed.
(** two ensembles of different size with the same empty dictionary: a column can get the wrong length *)
Lemma c121_lengths_refuted : exists l o n d k a, all_ok l /\ nth_error (ensembles (run l)) o = Some (n, Some d) /\ In (k, CArr a) (dict_at (run l) d) /\ length (read (run l) a) <> n.
Proof.
  exists [ADict []; ANew 2 (Some 0); ANew 3 (Some 0); ADict [("w", [1; 2])]; AAdd 0 1], 1, 3, 0, "w", (mkarr 0 [0; 1]).
  split; [repeat constructor|]. split; [reflexivity|]. split; [left; reflexivity|]. vm_compute. discriminate.
Qed.
(** what holds: careful users, ensembles not related by slices *)
Lemma c121_independent : forall V F L (h : heap V) a o, clean F L h -> o < length (ensembles h) -> ~ acts_on a o -> (forall o', acts_on a o' -> ~ linked L o' o) ->
  shown (fst (step h a)) o = shown h o.
Proof.
  intros V F L h a o H Lo Hn Hl. destruct (c122_careful F L h a o H Lo Hn) as [E|(o' & k & j & v & -> & _ & K)]; [exact E|]. exfalso. exact (Hl o' eq_refl K).
Qed.
(** a careful history with columns added, a slice, a list, an appended and a concatenated ensemble *)
Definition careful_acts : list (act nat) :=
  [ADict [("w", [1; 2; 3])]; ANew 3 (Some 0); ADict [("z", [7; 8; 9])]; AAdd 0 1; AGet 0 (KSlice 0 2); AGet 0 (KList [2%Z; 0%Z]);
   AConcat [1; 2]; AAppend 2 0; AWrite 1 "w" 0 5].
Fixpoint tracked (F : list nat) (L : list (nat * nat)) (h : heap nat) (l : list (act nat)) : list nat * list (nat * nat) * heap nat :=
  match l with [] => (F, L, h) | a :: t => tracked (left_over h F a) (sliced h L a (snd (step h a))) (fst (step h a)) t end.
Definition careful_b (F : list nat) (a : act nat) (r : res unit) : bool :=
  match gives a with Some d => existsb (Nat.eqb d) F | None => true end &&
  match a with ACopy _ | ATables _ => false | AUpdate _ _ _ => match r with Ok _ => true | Err _ => false end | _ => true end.
Fixpoint all_careful (F : list nat) (L : list (nat * nat)) (h : heap nat) (l : list (act nat)) : bool :=
  match l with [] => true | a :: t => careful_b F a (snd (step h a)) && all_careful (left_over h F a) (sliced h L a (snd (step h a))) (fst (step h a)) t end.
Lemma all_careful_clean : forall l F L h, clean F L h -> all_careful F L h l = true -> let '(F', L', h') := tracked F L h l in clean F' L' h'.
Proof.
  induction l as [|a l IH]; intros F L h H E; [exact H|]. cbn [all_careful tracked] in *. apply andb_prop in E. destruct E as [E1 E2]. apply IH; [|exact E2].
  apply (clean_step F L h a (fst (step h a)) (snd (step h a)) H); [destruct (step h a); reflexivity|]. unfold careful_b in E1. apply andb_prop in E1. destruct E1 as [G S]. split.
  - intros d Hd. rewrite Hd in G. apply existsb_exists in G. destruct G as (x & Hx & Ex). apply Nat.eqb_eq in Ex. subst x. exact Hx.
  - destruct a; try exact Logic.I; try discriminate S. destruct (snd (step h (AUpdate o n d))) as [[]|]; [reflexivity|discriminate S].
Qed.
Lemma c122_example : exists F L (h : heap nat), clean F L h /\ L = [(0, 1)] /\ all_ok careful_acts /\ h = run careful_acts /\
  shown h 0 = Some [("w", SArr [Some 5; Some 2; Some 3]); ("z", SArr [Some 7; Some 8; Some 9])] /\
  shown h 1 = Some [("w", SArr [Some 5; Some 2]); ("z", SArr [Some 7; Some 8])] /\
  shown h 2 = Some [("w", SArr [Some 3; Some 1; Some 1; Some 2; Some 3]); ("z", SArr [Some 9; Some 7; Some 7; Some 8; Some 9])] /\
  shown h 3 = Some [("w", SArr [Some 1; Some 2; Some 3; Some 1]); ("z", SArr [Some 7; Some 8; Some 9; Some 7])].
Proof.
  pose proof (all_careful_clean careful_acts [] [] empty clean_start eq_refl) as H. destruct (tracked [] [] empty careful_acts) as [[F L] h] eqn:E. exists F, L, h. split; [exact H|].
  vm_compute in E. injection E as <- <- <-. split; [reflexivity|]. split; [repeat constructor|]. repeat split.
Qed.
