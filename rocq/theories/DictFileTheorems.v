(** Files with several ensembles are read back. *)
From Coq Require Import String List Arith ZArith Bool Sorted Permutation Lia Reals Lra.
From Verif Require Import Num NumProofs Py NdArray NumpyLib ScipyWrap Spec Values Ensemble Classes Hdf5 DictFile
  Kinds EnsembleProofs KindInputs ReachProofs EnsembleTheorems Hdf5Proofs Hdf5Theorems IterProofs AllocTheorems.
Import ListNotations.
Local Open Scope string_scope.
Local Open Scope list_scope.

(** ** Specification *)
Definition all_ensembles (es : list (string * ens R)) : dict string (dentry R) := map (fun ne => (fst ne, Ens (snd ne))) es.
Definition in_order (names : list string) : Prop := Sorted (fun a b => String.leb a b = true) names.
(** obtained by valid calls, with some set [M] of methods that answer row by row *)
Definition stored_as (X : scipy) (e e' : ens R) : Prop := forall M, made X M e -> made X M e' /\ same_ensemble M e e'.

(** ** Proofs *)
Lemma dict_tables_ok (es : list (string * ens R)) : dict_tables (all_ensembles es) = Ok (map (fun ne => (fst ne, store (build_tables (snd ne)))) es).
Proof. induction es as [|[k e] es IH]; [reflexivity|]. cbn [all_ensembles map dict_tables fst snd] in *. unfold all_ensembles in IH. rewrite IH. reflexivity. Qed.
Lemma by_name_map {V W} (f : V -> W) (d : dict string V) : by_name (map (fun kv => (fst kv, f (snd kv))) d) = map (fun kv => (fst kv, f (snd kv))) (by_name d).
Proof.
  unfold by_name. induction d as [|[k v] d IH]; [reflexivity|]. cbn [map fold_right fst snd]. rewrite IH. generalize (fold_right insert_name [] d) as l. clear. intros l.
  induction l as [|[k' v'] l IH]; [reflexivity|]. cbn [map insert_name fst snd]. destruct (String.leb k k'); [reflexivity|]. cbn [map fst snd]. rewrite IH. reflexivity.
Qed.
Lemma insert_sorted {V} (kv : string * V) l : in_order (map fst l) -> in_order (map fst (insert_name kv l)).
Proof.
  unfold in_order. induction l as [|x l IH]; intros H; [cbn; repeat constructor|]. cbn [insert_name]. destruct (String.leb (fst kv) (fst x)) eqn:E.
  - cbn [map]. constructor; [exact H|]. constructor. exact E.
  - cbn [map]. inversion H as [|? ? H1 H2]; subst. constructor; [apply IH; exact H1|].
    assert (E' : String.leb (fst x) (fst kv) = true) by (destruct (String.leb_total (fst kv) (fst x)); [congruence|assumption]).
    destruct l as [|y l]; [cbn; constructor; exact E'|]. cbn [insert_name]. destruct (String.leb (fst kv) (fst y)); cbn [map]; constructor; [exact E'|]. inversion H2; assumption.
Qed.
Lemma by_name_sorted {V} (d : dict string V) : in_order (map fst (by_name d)).
Proof. unfold by_name. induction d as [|kv d IH]; [constructor|]. cbn [fold_right]. apply insert_sorted. exact IH. Qed.
Lemma mapM_names {V W} (f : V -> res W) (l : dict string V) : (forall k v, In (k, v) l -> exists w, f v = Ok w) ->
  exists l', mapM (fun kv => let* w := f (snd kv) in Ok (fst kv, w)) l = Ok l' /\ map fst l' = map fst l /\ forall k w, In (k, w) l' -> exists v, In (k, v) l /\ f v = Ok w.
Proof.
  induction l as [|[k v] l IH]; intros H.
  - exists []. split; [reflexivity|]. split; [reflexivity|]. intros k w [].
  - destruct (H k v (or_introl eq_refl)) as (w & E). destruct IH as (l' & E' & Hk & Hl); [intros; eapply H; right; eassumption|].
    exists ((k, w) :: l'). cbn [mapM fst snd]. rewrite E. cbn [bind]. rewrite E'. cbn [bind]. split; [reflexivity|]. split; [cbn [map fst]; rewrite Hk; reflexivity|].
    intros k' w' [Hi|Hi]; [injection Hi as <- <-; exists v; split; [left; reflexivity|exact E]|]. destruct (Hl k' w' Hi) as (v' & A & B). exists v'. split; [right; exact A|exact B].
Qed.
Lemma in_keys {V} (d : dict string V) k : In k (map fst d) -> exists v, In (k, v) d.
Proof. intros H. apply in_map_iff in H. destruct H as ([k' v] & <- & H). exists v. exact H. Qed.
Lemma c119_roundtrip : forall X (es : list (string * ens R)), fill_outside X -> NoDup (map fst es) -> (forall name, In name (map fst es) -> plain_name name = true) ->
  (forall name e, In (name, e) es -> (exists M, made X M e) /\ proper (e_ancil e)) ->
  exists f d, write_dict (all_ensembles es) = Ok f /\ read_dict (qp X) f = Ok d /\
    Permutation (map fst d) (map fst es) /\ in_order (map fst d) /\
    forall name e, In (name, e) es -> exists e', vget d name = Some e' /\ stored_as X e e'.
Proof.
  intros X es HX Hn Hp He. unfold write_dict. rewrite dict_tables_ok. cbn [bind].
  assert (Hk : forallb plain_name (keys (all_ensembles es)) = true).
  { apply forallb_forall. intros k Hk. apply Hp. unfold keys, all_ensembles in Hk. rewrite map_map in Hk. exact Hk. }
  rewrite Hk. eexists. rewrite (by_name_map (fun e => store (build_tables e))).
  set (l := by_name es). assert (Pl : Permutation l es) by apply by_name_perm.
  destruct (mapM_names (fun e => read_file (qp X) (store (build_tables e))) l) as (d & E & Ek & Ed).
  { intros k e Hi. apply (Permutation_in _ Pl) in Hi. destruct (He k e Hi) as ((M & Hm) & Ha). destruct (c92_roundtrip X M e HX Hm Ha) as (_ & _ & e' & Ee & _). exists e'. exact Ee. }
  exists d. split; [reflexivity|]. split; [unfold read_dict; rewrite mapM_map; exact E|]. rewrite Ek. split; [apply Permutation_map; exact Pl|]. split; [apply by_name_sorted|].
  intros name e Hi.
  assert (Nd : NoDup (keys d)) by (unfold keys; rewrite Ek; apply (Permutation_NoDup (Permutation_map fst (Permutation_sym Pl))); exact Hn).
  assert (Hin : In name (map fst d)) by (rewrite Ek; apply (Permutation_in _ (Permutation_map fst (Permutation_sym Pl))); apply (in_map fst) in Hi; exact Hi).
  destruct (in_keys d name Hin) as (e' & He'). exists e'. split; [apply vget_in; assumption|].
  destruct (Ed name e' He') as (e1 & H1 & H2). apply (Permutation_in _ Pl) in H1.
  assert (e1 = e) as ->. { pose proof (proj2 (vget_in es name e1 Hn) H1) as A. pose proof (proj2 (vget_in es name e Hn) Hi) as B. congruence. }
  intros M Hm. destruct (c92_roundtrip X M e HX Hm (proj2 (He name e Hi))) as (_ & _ & e2 & E2 & R2 & S2). rewrite H2 in E2. injection E2 as <-. auto.
Qed.
Lemma c119_others : forall (d : dict string (dentry R)) name, In (name, Other) d -> write_dict d = Err ValueError.
Proof.
  intros d name H. unfold write_dict. assert (E : dict_tables d = Err ValueError); [|rewrite E; reflexivity].
  induction d as [|[k v] d IH]; [destruct H|]. cbn [dict_tables]. destruct v as [e|]; [|reflexivity]. destruct H as [H|H]; [discriminate|]. rewrite (IH H). reflexivity.
Qed.

(** ** Example: histograms and a spline, written in the order b, a *)
Lemma c119_example : exists e1 e2 f d, made scipy0 (input_methods hist0) e1 /\ made scipy0 (input_methods spline1) e2 /\ NoDup (map fst [("b", e1); ("a", e2)]) /\
  write_dict (all_ensembles [("b", e1); ("a", e2)]) = Ok f /\ read_dict (qp scipy0) f = Ok d /\ map fst d = ["a"; "b"] /\ e_npdf e1 = 3%nat /\
  (exists e', vget d "b" = Some e' /\ stored_as scipy0 e1 e') /\ (exists e', vget d "a" = Some e' /\ stored_as scipy0 e2 e').
Proof.
  destruct (made_new scipy0 hist0 table0 scipy0_fill hist0_ok (proj1 table0_ok)) as (e1 & _ & _ & Hm1 & Hn1 & Hs1 & _).
  destruct (made_new scipy0 spline1 None scipy0_fill spline1_ok I) as (e2 & _ & _ & Hm2 & _ & Hs2 & _).
  assert (Nd : NoDup (map fst [("b", e1); ("a", e2)])) by (cbn; constructor; [intros [H|[]]; discriminate|]; constructor; [intros []|constructor]).
  destruct (c119_roundtrip scipy0 [("b", e1); ("a", e2)] scipy0_fill Nd) as (f & d & W & Rd & Pm & So & G).
  - intros name [<-|[<-|[]]]; reflexivity.
  - intros name e [H|[H|[]]]; injection H as <- <-; (split; [eexists; eassumption|]).
    + destruct Hs1 as (-> & Hg). apply columns_nodup. apply Hg.
    + destruct Hs2 as (-> & _). exact I.
  - exists e1, e2, f, d. split; [exact Hm1|]. split; [exact Hm2|]. split; [exact Nd|]. split; [exact W|]. split; [exact Rd|]. split; [|split; [rewrite Hn1; reflexivity|split; apply G; cbn; auto]].
    cbn [map fst] in Pm. apply Permutation_sym in Pm. apply Permutation_length_2_inv in Pm. destruct Pm as [E|E]; rewrite E in *; [|reflexivity]. exfalso. inversion So as [|? ? _ H]; subst. inversion H as [|? ? H']; subst. discriminate H'.
Qed.
