(** The registry of classes and the resolution of methods. *)
From Coq Require Import String List Arith Bool Lia.
From Verif Require Import Py Values Registry.
Import ListNotations.
Local Open Scope string_scope.
Local Open Scope list_scope.

(** ** Dictionaries *)
Section Dicts.
  Context {K V : Type} (keqb : K -> K -> bool) (Hk : forall a b, keqb a b = true <-> a = b).
  Lemma keqb_refl k : keqb k k = true. Proof using Hk. apply Hk. reflexivity. Qed.
  Lemma keqb_neq a b : a <> b -> keqb a b = false.
  Proof using Hk. intros H. destruct (keqb a b) eqn:E; [|reflexivity]. apply Hk in E. congruence. Qed.
  Lemma dget_dset_same (d : dict K V) k v : dget keqb (dset keqb d k v) k = Some v.
  Proof using Hk.
    induction d as [|[k' v'] d IH]; simpl; [rewrite keqb_refl; reflexivity|].
    destruct (keqb k k') eqn:E; simpl; rewrite E; auto.
  Qed.
  Lemma dget_dset_other (d : dict K V) k k' v : k' <> k -> dget keqb (dset keqb d k v) k' = dget keqb d k'.
  Proof using Hk.
    intros Hn. induction d as [|[k0 v0] d IH]; simpl; [rewrite keqb_neq by auto; reflexivity|].
    destruct (keqb k k0) eqn:E; simpl.
    - apply Hk in E. subst k0. rewrite keqb_neq by auto. reflexivity.
    - rewrite IH. reflexivity.
  Qed.
  Lemma dset_new (d : dict K V) k v : dget keqb d k = None -> dset keqb d k v = d ++ [(k, v)].
  Proof using.
    induction d as [|[k' v'] d IH]; simpl; [reflexivity|]. destruct (keqb k k'); [discriminate|]. intros H. rewrite IH by auto. reflexivity.
  Qed.
  Lemma dget_none_in (d : dict K V) k : dget keqb d k = None -> ~ In k (keys d).
  Proof using Hk.
    induction d as [|[k' v'] d IH]; simpl; [tauto|]. destruct (keqb k k') eqn:E; [discriminate|]. intros H [H1|H1].
    - subst k'. rewrite keqb_refl in E. discriminate.
    - exact (IH H H1).
  Qed.
End Dicts.
Lemma okey_eqb_iff a b : okey_eqb a b = true <-> a = b.
Proof.
  destruct a, b; simpl; split; try discriminate; auto.
  - intros H. apply String.eqb_eq in H. congruence.
  - intros H. injection H as ->. apply String.eqb_refl.
Qed.
Lemma which_eqb_iff a b : which_eqb a b = true <-> a = b.
Proof. destruct a, b; simpl; split; congruence. Qed.

Lemma nodup_snoc {A} (l : list A) x : NoDup l -> ~ In x l -> NoDup (l ++ [x]).
Proof.
  induction l as [|a l IH]; simpl; intros Hn Hx; [constructor; [tauto|constructor]|]. inversion_clear Hn. constructor; [|apply IH; tauto].
  intros Hi. apply in_app_or in Hi. destruct Hi as [Hi|[->|[]]]; tauto.
Qed.
Section Theorems.
  Context {V : Type}.
  Variable H : hierarchy V.
  (** A class comes first in its own method resolution order. *)
  Definition mro_ok : Prop := forall c, exists t, h_mro H c = c :: t.
  Definition registered (w : world V) (c : nat) : Prop := exists n, dget String.eqb (w_registry w) n = Some c.

  (** ** Registrations *)
  (** [f] is the function of the first registration in [rs] for table [q] under method [m]. *)
  Definition is_first (rs : list (registration V)) (q : which) (m : option string) (f : V) : Prop :=
    exists pre r post, rs = pre ++ r :: post /\ r_which r = q /\ r_method r = m /\ r_func r = f /\
      forall r', In r' pre -> ~ (r_which r' = q /\ r_method r' = m).
  Definition absent (rs : list (registration V)) (q : which) (m : option string) : Prop :=
    forall r, In r rs -> ~ (r_which r = q /\ r_method r = m).
  (** What a lookup must give after the registrations [rs] *)
  Definition resolution (rs : list (registration V)) (q : which) (m : option string) (o : option V) : Prop :=
    match o with
    | Some f => is_first rs q m f \/ (absent rs q m /\ is_first rs q None f)
    | None => absent rs q m /\ absent rs q None
    end.

  Definition hit (q : which) (m : option string) (r : registration V) : bool := which_eqb (r_which r) q && okey_eqb (r_method r) m.
  Lemma hit_iff q m r : hit q m r = true <-> r_which r = q /\ r_method r = m.
  Proof using. unfold hit. rewrite andb_true_iff, which_eqb_iff, okey_eqb_iff. tauto. Qed.
  Definition firstf (rs : list (registration V)) q m : option V := option_map r_func (find (hit q m) rs).
  Lemma firstf_app rs rs' q m : firstf (rs ++ rs') q m = match firstf rs q m with Some f => Some f | None => firstf rs' q m end.
  Proof using. unfold firstf. induction rs as [|r rs IH]; simpl; [reflexivity|]. destruct (hit q m r); [reflexivity|exact IH]. Qed.
  Lemma firstf_some rs q m f : firstf rs q m = Some f -> is_first rs q m f.
  Proof using.
    unfold firstf. induction rs as [|r rs IH]; simpl; [discriminate|]. destruct (hit q m r) eqn:E.
    - simpl. intros [= <-]. apply hit_iff in E. exists [], r, rs. simpl. repeat split; try tauto.
    - intros Hf. destruct (IH Hf) as (pre & r0 & post & -> & H1 & H2 & H3 & H4). exists (r :: pre), r0, post.
      repeat split; auto. intros r' [<-|Hr]; [|auto]. intros Hx. apply hit_iff in Hx. congruence.
  Qed.
  Lemma firstf_none rs q m : firstf rs q m = None -> absent rs q m.
  Proof using.
    unfold firstf. intros Hf r Hr Hx. apply hit_iff in Hx.
    destruct (find (hit q m) rs) eqn:E; [discriminate|]. rewrite (find_none _ _ E r Hr) in Hx. discriminate.
  Qed.

  (** ** A table after registrations *)
  Definition in_table (t : mtables V) (rs : list (registration V)) : Prop := forall q m, dget okey_eqb (t q) m = firstf rs q m.
  Lemma table_register (t : mtables V) rs r : in_table t rs ->
    in_table (fun q => if which_eqb q (r_which r) then fst (set_val_or_default (t q) (r_method r) (r_func r)) else t q) (rs ++ [r]).
  Proof using.
    intros Ht q m. rewrite firstf_app. unfold firstf at 2. cbn [find hit]. unfold hit.
    destruct (which_eqb q (r_which r)) eqn:E.
    - apply which_eqb_iff in E. subst q. assert (E2 : which_eqb (r_which r) (r_which r) = true) by (apply which_eqb_iff; reflexivity).
      rewrite E2. cbn [andb]. unfold set_val_or_default. rewrite (Ht (r_which r) (r_method r)).
      destruct (okey_eqb (r_method r) m) eqn:Em.
      + apply okey_eqb_iff in Em. subst m. destruct (firstf rs (r_which r) (r_method r)) eqn:Ef; cbn [fst].
        * rewrite Ht. exact Ef.
        * rewrite dget_dset_same by apply okey_eqb_iff. reflexivity.
      + assert (Hm : m <> r_method r) by (intros ->; assert (okey_eqb (r_method r) (r_method r) = true) by (apply okey_eqb_iff; reflexivity); congruence).
        destruct (firstf rs (r_which r) (r_method r)) eqn:Ef; cbn [fst].
        * rewrite Ht. destruct (firstf rs (r_which r) m); reflexivity.
        * rewrite dget_dset_other by (auto; apply okey_eqb_iff). rewrite Ht. destruct (firstf rs (r_which r) m); reflexivity.
    - assert (E2 : which_eqb (r_which r) q = false).
      { destruct (which_eqb (r_which r) q) eqn:E'; [|reflexivity]. apply which_eqb_iff in E'. subst q. assert (which_eqb (r_which r) (r_which r) = true) by (apply which_eqb_iff; reflexivity). congruence. }
      rewrite E2. cbn [andb option_map]. rewrite Ht. destruct (firstf rs q m); reflexivity.
  Qed.
  Lemma table_resolution (t : mtables V) rs q m : in_table t rs -> resolution rs q m (get_val_or_default (t q) m).
  Proof using.
    intros Ht. unfold get_val_or_default. rewrite !Ht. destruct (firstf rs q m) eqn:E1.
    - left. apply firstf_some; auto.
    - destruct (firstf rs q None) eqn:E2; simpl.
      + right. split; [apply firstf_none|apply firstf_some]; auto.
      + split; apply firstf_none; auto.
  Qed.

  (** ** Worlds *)
  Hypothesis HM : mro_ok.
  Lemma owner_own w c : w_own w c <> None -> owner H w c = c.
  Proof using HM. intros Ho. unfold owner. destruct (HM c) as (t & ->). simpl. destruct (w_own w c); [reflexivity|congruence]. Qed.
  Lemma own_set (w : world V) b c t : w_own (set_own w b t) c = if Nat.eqb c b then Some t else w_own w c.
  Proof using. reflexivity. Qed.
  Lemma own_register w c b r : w_own w b <> None -> w_own (register H w c r) b <> None.
  Proof using. intros Hb. unfold register. rewrite own_set. destruct (Nat.eqb b _); [discriminate|exact Hb]. Qed.
  Lemma own_fold l : forall w c b, w_own w b <> None -> w_own (fold_left (fun w r => register H w c r) l w) b <> None.
  Proof using. induction l; simpl; intros w c b Hb; [exact Hb|]. apply IHl, own_register, Hb. Qed.
  Lemma reg_fold l : forall w c, w_registry (fold_left (fun w r => register H w c r) l w) = w_registry w /\ w_attrs (fold_left (fun w r => register H w c r) l w) = w_attrs w.
  Proof using. induction l; simpl; intros w c; [split; reflexivity|]. destruct (IHl (register H w c a) c) as [-> ->]. split; reflexivity. Qed.
  Lemma own_dicts (w : world V) c : w_own (add_method_dicts w c) c <> None.
  Proof using. unfold add_method_dicts. rewrite own_set, Nat.eqb_refl. discriminate. Qed.
  (** registering on a class that owns its tables touches only these *)
  Lemma register_own w c r b : w_own w c <> None -> b <> c -> w_own (register H w c r) b = w_own w b.
  Proof using HM. intros Hc Hb. unfold register. rewrite owner_own by auto. rewrite own_set. rewrite (proj2 (Nat.eqb_neq b c)) by auto. reflexivity. Qed.
  Lemma fold_own l : forall w c b, w_own w c <> None -> b <> c -> w_own (fold_left (fun w r => register H w c r) l w) b = w_own w b.
  Proof using HM.
    induction l; simpl; intros w c b Hc Hb; [reflexivity|]. rewrite IHl by (auto; apply own_register; auto). apply register_own; auto.
  Qed.
  Lemma mappings_own w c b : b <> c -> w_own (add_mappings H (add_method_dicts w c) c) b = w_own w b.
  Proof using HM.
    intros Hb. unfold add_mappings. rewrite fold_own by (auto; apply own_dicts). unfold add_method_dicts. rewrite own_set. rewrite (proj2 (Nat.eqb_neq b c)) by auto. reflexivity.
  Qed.
  Definition own_table (w : world V) (c : nat) (rs : list (registration V)) : Prop := exists t, w_own w c = Some t /\ in_table t rs.
  Lemma register_table w c r rs : own_table w c rs -> own_table (register H w c r) c (rs ++ [r]).
  Proof using HM.
    intros (t & Et & Ht). unfold register. rewrite owner_own by congruence. eexists. rewrite own_set, Nat.eqb_refl. split; [reflexivity|].
    unfold tables_at. rewrite Et. apply table_register. exact Ht.
  Qed.
  Lemma fold_table l : forall w c rs, own_table w c rs -> own_table (fold_left (fun w r => register H w c r) l w) c (rs ++ l).
  Proof using HM.
    induction l as [|r l IH]; simpl; intros w c rs Ht; [rewrite app_nil_r; exact Ht|].
    replace (rs ++ r :: l) with ((rs ++ [r]) ++ l) by (rewrite <- app_assoc; reflexivity). apply IH, register_table, Ht.
  Qed.
  Lemma mappings_table w c : own_table (add_mappings H (add_method_dicts w c) c) c (h_mappings H c).
  Proof using HM.
    unfold add_mappings. apply (fold_table (h_mappings H c) (add_method_dicts w c) c []). exists empty_tables. unfold add_method_dicts. rewrite own_set, Nat.eqb_refl.
    split; [reflexivity|]. intros q m. reflexivity.
  Qed.
  Lemma own_resolution w c rs q m : own_table w c rs -> resolution rs q m (method_of H w q c m).
  Proof using HM.
    intros (t & Et & Ht). unfold method_of, tables_of. rewrite owner_own by congruence. unfold tables_at. rewrite Et. apply table_resolution. exact Ht.
  Qed.

  (** ** C32 *)
  Definition methods_same (w w' : world V) (c : nat) : Prop := forall q m, method_of H w' q c m = method_of H w q c m.
  Lemma same_methods w w' c : w_own w c <> None -> w_own w' c = w_own w c -> methods_same w w' c.
  Proof using HM.
    intros Ho E q m. unfold method_of, tables_of. rewrite (owner_own w) by auto. rewrite (owner_own w') by congruence. unfold tables_at. rewrite E. reflexivity.
  Qed.
  Lemma add_class_cases w c :
    match h_name H c with
    | None => add_class H w c = (Err AttributeError, w)
    | Some n =>
        (dget String.eqb (w_registry w) n <> None -> add_class H w c = (Err KeyError, w)) /\
        (dget String.eqb (w_registry w) n = None ->
         let w1 := add_mappings H (add_method_dicts w c) c in
         match h_fails H c with
         | Some x => add_class H w c = (Err x, w1)
         | None => add_class H w c = (Ok tt, mkworld (w_own w1) (w_registry w ++ [(n, c)])
               (dset String.eqb (dset String.eqb (w_attrs w) (n ++ "_gen")%string (ClassAttr c)) n (CreateOf c)))
         end)
    end.
  Proof using.
    unfold add_class. destruct (h_name H c) as [n|]; [|reflexivity]. unfold dmem. split.
    - destruct (dget String.eqb (w_registry w) n); [reflexivity|congruence].
    - intros E. rewrite E. cbv zeta. destruct (h_fails H c); [reflexivity|].
      unfold add_mappings. destruct (reg_fold (h_mappings H c) (add_method_dicts w c) c) as [-> ->]. cbn [add_method_dicts set_own w_registry w_attrs].
      rewrite dset_new by exact E. reflexivity.
  Qed.
  Lemma c32_add : forall w c,
    (h_name H c = None -> add_class H w c = (Err AttributeError, w)) /\
    (forall n, h_name H c = Some n -> dget String.eqb (w_registry w) n <> None -> add_class H w c = (Err KeyError, w)) /\
    (forall n, h_name H c = Some n -> dget String.eqb (w_registry w) n = None ->
       exists w', add_class H w c = (match h_fails H c with Some x => Err x | None => Ok tt end, w') /\
         (forall b, w_own w b <> None -> b <> c -> methods_same w w' b) /\
         (forall q m, resolution (h_mappings H c) q m (method_of H w' q c m)) /\
         match h_fails H c with
         | Some x => w_registry w' = w_registry w /\ w_attrs w' = w_attrs w
         | None =>
             w_registry w' = w_registry w ++ [(n, c)] /\ dget String.eqb (w_registry w') n = Some c /\
             (forall n', n' <> n -> dget String.eqb (w_registry w') n' = dget String.eqb (w_registry w) n') /\
             dget String.eqb (w_attrs w') n = Some (CreateOf c) /\ dget String.eqb (w_attrs w') (n ++ "_gen")%string = Some (ClassAttr c) /\
             (forall a, a <> n -> a <> (n ++ "_gen")%string -> dget String.eqb (w_attrs w') a = dget String.eqb (w_attrs w) a)
         end).
  Proof using HM.
    intros w c. pose proof (add_class_cases w c) as Hc. split; [intros E; rewrite E in Hc; exact Hc|].
    split; [intros n E; rewrite E in Hc; apply Hc|]. intros n E Hn. rewrite E in Hc. destruct Hc as [_ Hc]. specialize (Hc Hn). cbv zeta in Hc.
    assert (Hs : forall n (a b : attribute), (n ++ "_gen")%string <> n).
    { intros s _ _ Hx. assert (L : String.length (s ++ "_gen") = String.length s) by congruence. clear -L.
      induction s; simpl in L; [discriminate|]. injection L as L. auto. }
    destruct (h_fails H c) as [x|].
    - eexists. split; [exact Hc|]. split; [|split].
      + intros b Hb Hbc. apply same_methods; [exact Hb|]. apply mappings_own; auto.
      + intros q m. apply own_resolution, mappings_table.
      + unfold add_mappings. destruct (reg_fold (h_mappings H c) (add_method_dicts w c) c) as [-> ->]. split; reflexivity.
    - eexists. split; [exact Hc|]. split; [|split; [|split; [|split; [|split; [|split; [|split]]]]]].
      + intros b Hb Hbc. apply same_methods; [exact Hb|]. cbn [w_own]. apply mappings_own; auto.
      + intros q m. apply own_resolution. destruct (mappings_table w c) as (t & Et & Ht). exists t. split; [exact Et|exact Ht].
      + reflexivity.
      + cbn [w_registry]. rewrite <- (dset_new String.eqb) by exact Hn. apply dget_dset_same. apply String.eqb_eq.
      + intros n' Hn'. cbn [w_registry]. rewrite <- (dset_new String.eqb) by exact Hn. apply dget_dset_other; [apply String.eqb_eq|exact Hn'].
      + apply dget_dset_same. apply String.eqb_eq.
      + cbn [w_attrs]. rewrite dget_dset_other; [|apply String.eqb_eq|apply Hs; constructor; exact n]. apply dget_dset_same. apply String.eqb_eq.
      + intros a H1 H2. cbn [w_attrs]. rewrite !dget_dset_other by (auto; apply String.eqb_eq). reflexivity.
  Qed.
  (** ** Histories *)
  Record sane (w : world V) : Prop := {
    s_names : forall n c, In (n, c) (w_registry w) -> h_name H c = Some n /\ w_own w c <> None;
    s_once : NoDup (keys (w_registry w)) }.
  Lemma sane_start : sane (start V).
  Proof using. split; [intros n c []|constructor]. Qed.
  Lemma sane_act w a : sane w -> sane (act H w a).
  Proof using HM.
    intros [S1 S2]. destruct a as [c|c r]; cbn [act].
    - pose proof (add_class_cases w c) as Hc. destruct (h_name H c) as [n|] eqn:En; [|rewrite Hc; split; auto].
      destruct Hc as [Hc1 Hc2]. destruct (dget String.eqb (w_registry w) n) eqn:Ed; [rewrite Hc1 by discriminate; split; auto|].
      specialize (Hc2 eq_refl). cbv zeta in Hc2.
      assert (Ho : forall b, w_own w b <> None -> w_own (add_mappings H (add_method_dicts w c) c) b <> None).
      { intros b Hb. unfold add_mappings. apply own_fold. unfold add_method_dicts. rewrite own_set. destruct (Nat.eqb b c); [discriminate|exact Hb]. }
      assert (Hown : w_own (add_mappings H (add_method_dicts w c) c) c <> None) by (apply own_fold, own_dicts).
      destruct (h_fails H c); rewrite Hc2; cbn [snd].
      + unfold add_mappings in *. destruct (reg_fold (h_mappings H c) (add_method_dicts w c) c) as [Er _]. split; rewrite Er; [|exact S2].
        intros n' c' Hi. destruct (S1 n' c' Hi) as [H1 H2]. split; [exact H1|apply Ho, H2].
      + split; cbn [w_registry w_own].
        * intros n' c' Hi. apply in_app_or in Hi. destruct Hi as [Hi|[Hi|[]]].
          -- destruct (S1 n' c' Hi) as [H1 H2]. split; [exact H1|apply Ho, H2].
          -- injection Hi as <- <-. split; [exact En|exact Hown].
        * unfold keys. rewrite map_app. apply nodup_snoc; [exact S2|]. apply (dget_none_in String.eqb String.eqb_eq). exact Ed.
    - split; [|exact S2]. intros n' c' Hi. destruct (S1 n' c' Hi) as [H1 H2]. split; [exact H1|apply own_register, H2].
  Qed.
  Lemma acts_app w l1 l2 : acts H w (l1 ++ l2) = acts H (acts H w l1) l2.
  Proof using. unfold acts. apply fold_left_app. Qed.
  Lemma sane_acts l : forall w, sane w -> sane (acts H w l).
  Proof using HM. induction l as [|a l IH]; intros w Hw; [exact Hw|]. apply IH, sane_act, Hw. Qed.
  Lemma dget_in (d : dict string nat) n c : dget String.eqb d n = Some c -> In (n, c) d.
  Proof using.
    induction d as [|[k v] d IH]; simpl; [discriminate|]. destruct (String.eqb_spec n k) as [<-|]; [intros [= <-]; left; reflexivity|]. intros E. right. auto.
  Qed.
  Lemma in_dget (d : dict string nat) n c : NoDup (keys d) -> In (n, c) d -> dget String.eqb d n = Some c.
  Proof using.
    induction d as [|[k v] d IH]; simpl; [tauto|]. intros Hn [E|E].
    - injection E as -> ->. rewrite String.eqb_refl. reflexivity.
    - inversion_clear Hn. destruct (String.eqb_spec n k) as [->|]; [|auto]. exfalso. apply H0. apply (in_map fst) in E. exact E.
  Qed.
  Lemma act_registry w a : exists t, w_registry (act H w a) = w_registry w ++ t.
  Proof using.
    destruct a as [c|c r]; [|exists []; rewrite app_nil_r; reflexivity]. cbn [act]. pose proof (add_class_cases w c) as Hc.
    destruct (h_name H c) as [n|]; [|rewrite Hc; exists []; rewrite app_nil_r; reflexivity]. destruct Hc as [Hc1 Hc2].
    destruct (dget String.eqb (w_registry w) n); [rewrite Hc1 by discriminate; exists []; rewrite app_nil_r; reflexivity|]. specialize (Hc2 eq_refl). cbv zeta in Hc2.
    destruct (h_fails H c); rewrite Hc2; cbn [snd w_registry]; [|eexists; reflexivity].
    unfold add_mappings. destruct (reg_fold (h_mappings H c) (add_method_dicts w c) c) as [-> _]. exists []. rewrite app_nil_r. reflexivity.
  Qed.
  Lemma acts_registry l : forall w, exists t, w_registry (acts H w l) = w_registry w ++ t.
  Proof using.
    induction l as [|a l IH]; intros w; [exists []; rewrite app_nil_r; reflexivity|].
    destruct (act_registry w a) as (t & E). destruct (IH (act H w a)) as (t' & E'). exists (t ++ t'). rewrite app_assoc, <- E. exact E'.
  Qed.
  Lemma dget_app (d t : dict string nat) n c : dget String.eqb d n = Some c -> dget String.eqb (d ++ t) n = Some c.
  Proof using. induction d as [|[k v] d IH]; simpl; [discriminate|]. destruct (String.eqb n k); auto. Qed.
  Lemma c32_history : forall l l',
    let w := acts H (start V) l in let w' := acts H (start V) (l ++ l') in
    NoDup (keys (w_registry w)) /\
    (forall n c, In (n, c) (w_registry w) <-> dget String.eqb (w_registry w) n = Some c) /\
    (forall n c, dget String.eqb (w_registry w) n = Some c -> h_name H c = Some n /\ dget String.eqb (w_registry w') n = Some c) /\
    exists t, w_registry w' = w_registry w ++ t.
  Proof using HM.
    intros l l' w w'. destruct (sane_acts l (start V) sane_start) as [S1 S2]. fold w in S1, S2. split; [exact S2|]. split; [|split].
    - intros n c. split; [apply in_dget, S2|apply dget_in].
    - intros n c E. split; [apply S1, dget_in, E|]. unfold w'. rewrite acts_app. destruct (acts_registry l' w) as (t & Et). fold w. rewrite Et. apply dget_app, E.
    - unfold w'. rewrite acts_app. apply acts_registry.
  Qed.

  (** ** C33 *)
  (** the registrations made directly on class [c] *)
  Definition made_on (c : nat) (l : list (action V)) : list (registration V) :=
    flat_map (fun a => match a with Register c' r => if Nat.eqb c' c then [r] else [] | AddClass _ => [] end) l.
  (** registrations are only made on classes that are in the registry at that time *)
  Fixpoint orderly (w : world V) (l : list (action V)) : Prop :=
    match l with
    | [] => True
    | a :: t => match a with Register c _ => registered w c | AddClass _ => True end /\ orderly (act H w a) t
    end.
  Lemma table_step w a c rs : sane w -> registered w c -> (match a with Register c' _ => registered w c' | AddClass _ => True end) ->
    own_table w c rs -> own_table (act H w a) c (rs ++ made_on c [a]).
  Proof using HM.
    intros [S1 S2] (n & Hn) Ha Ht. destruct a as [c'|c' r]; cbn [act made_on flat_map].
    - rewrite app_nil_r. pose proof (add_class_cases w c') as Hc. destruct (h_name H c') as [n'|] eqn:En; [|rewrite Hc; exact Ht].
      destruct Hc as [Hc1 Hc2]. destruct (dget String.eqb (w_registry w) n') eqn:Ed; [rewrite Hc1 by discriminate; exact Ht|].
      specialize (Hc2 eq_refl). cbv zeta in Hc2.
      assert (Hne : c <> c'). { intros <-. destruct (S1 n c (dget_in _ _ _ Hn)) as [H1 _]. congruence. }
      destruct Ht as (t & Et & Ht). exists t. split; [|exact Ht]. rewrite <- Et, <- (mappings_own w c' c Hne). destruct (h_fails H c'); rewrite Hc2; reflexivity.
    - rewrite app_nil_r. destruct Ha as (n' & Hn'). destruct (S1 n' c' (dget_in _ _ _ Hn')) as [_ Ho]. destruct (Nat.eqb_spec c' c) as [->|Hne].
      + apply register_table. exact Ht.
      + rewrite app_nil_r. destruct Ht as (t & Et & Ht). exists t. split; [|exact Ht]. rewrite register_own by auto. exact Et.
  Qed.
  Lemma table_history l : forall w c rs, sane w -> registered w c -> orderly w l -> own_table w c rs -> own_table (acts H w l) c (rs ++ made_on c l).
  Proof using HM.
    induction l as [|a l IH]; intros w c rs Hw Hc Ho Ht; [rewrite app_nil_r; exact Ht|]. destruct Ho as [Ha Ho].
    replace (rs ++ made_on c (a :: l)) with ((rs ++ made_on c [a]) ++ made_on c l).
    - apply IH; [apply sane_act; auto| |exact Ho|apply table_step; auto].
      destruct Hc as (n & Hn). exists n. destruct (act_registry w a) as (t & ->). apply dget_app, Hn.
    - rewrite <- app_assoc. f_equal. unfold made_on. cbn [flat_map]. rewrite app_nil_r. reflexivity.
  Qed.
  Lemma c33_resolution : forall l c w l', w = snd (add_class H (acts H (start V) l) c) ->
    fst (add_class H (acts H (start V) l) c) = Ok tt -> orderly w l' ->
    forall q m, resolution (h_mappings H c ++ made_on c l') q m (method_of H (acts H w l') q c m).
  Proof using HM.
    intros l c w l' Ew Eok Ho q m. set (w0 := acts H (start V) l) in *. pose proof (sane_acts l (start V) sane_start) as S0. fold w0 in S0.
    apply own_resolution. pose proof (add_class_cases w0 c) as Hc. destruct (h_name H c) as [n|] eqn:En; [|rewrite Hc in Eok; discriminate].
    destruct Hc as [Hc1 Hc2]. destruct (dget String.eqb (w_registry w0) n) eqn:Ed; [rewrite Hc1 in Eok by discriminate; discriminate|].
    specialize (Hc2 eq_refl). cbv zeta in Hc2. destruct (h_fails H c) eqn:Ef; [rewrite Hc2 in Eok; discriminate|].
    apply table_history.
    - rewrite Ew. exact (sane_act w0 (AddClass c) S0).
    - rewrite Ew, Hc2. exists n. cbn [snd w_registry]. rewrite <- (dset_new String.eqb) by exact Ed. apply dget_dset_same. apply String.eqb_eq.
    - exact Ho.
    - rewrite Ew, Hc2. cbn [snd]. destruct (mappings_table w0 c) as (t & Et & Ht). exists t. split; [exact Et|exact Ht].
  Qed.
  (** a lookup has one answer *)
  Lemma resolution_unique rs q m o o' : resolution rs q m o -> resolution rs q m o' -> o = o'.
  Proof using.
    assert (U : forall m f f', is_first rs q m f -> is_first rs q m f' -> f = f').
    { intros m0 f f' (p & r & s & -> & A1 & A2 & <- & A4) (p' & r' & s' & E & B1 & B2 & <- & B4). revert p' E B4. induction p as [|a p IH]; intros [|a' p'] E B4; simpl in E.
      - congruence.
      - injection E as <- E. exfalso. apply (B4 r (or_introl eq_refl)). auto.
      - injection E as -> E. exfalso. apply (A4 r' (or_introl eq_refl)). auto.
      - injection E as <- E. apply (IH (fun x Hx => A4 x (or_intror Hx)) p' E (fun x Hx => B4 x (or_intror Hx))). }
    assert (W : forall m f, is_first rs q m f -> absent rs q m -> False).
    { intros m0 f (p & r & s & -> & A1 & A2 & _) Ha. apply (Ha r); [apply in_or_app; right; left; reflexivity|auto]. }
    intros Ho Ho'. destruct o as [f|], o' as [f'|]; simpl in Ho, Ho'; [|exfalso|exfalso|reflexivity].
    - f_equal. destruct Ho as [A|[A1 A2]], Ho' as [B|[B1 B2]]; eauto; exfalso; eauto.
    - destruct Ho' as [B1 B2]. destruct Ho as [A|[A1 A2]]; eauto.
    - destruct Ho as [B1 B2]. destruct Ho' as [A|[A1 A2]]; eauto.
  Qed.
End Theorems.
Lemma c82_attributes : forall V (H : hierarchy V), mro_ok H -> forall w c n w',
  h_name H c = Some n -> add_class H w c = (Ok tt, w') ->
  dget String.eqb (w_attrs w') n = Some (CreateOf c) /\ dget String.eqb (w_attrs w') (n ++ "_gen")%string = Some (ClassAttr c) /\
  forall a, a <> n -> a <> (n ++ "_gen")%string -> dget String.eqb (w_attrs w') a = dget String.eqb (w_attrs w) a.
Proof.
  intros V H HM w c n w' Hn E. destruct (c32_add H HM w c) as (_ & C2 & C3). destruct (dget String.eqb (w_registry w) n) eqn:Ed.
  - rewrite (C2 n Hn) in E by congruence. discriminate.
  - destruct (C3 n Hn Ed) as (w1 & E1 & _ & _ & Ha). rewrite E in E1. injection E1 as Ef <-. destruct (h_fails H c); [discriminate|]. destruct Ha as (_ & _ & _ & H1 & H2 & H3). auto.
Qed.
