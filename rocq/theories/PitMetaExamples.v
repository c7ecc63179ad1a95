(** Examples for the summary statistics of the probability integral transform. *)
From Coq Require Import QArith String List Arith ZArith Bool Lia Reals Lra Sorted Permutation.
From Verif Require Import Num NumProofs Py NdArray NumpyLib Utils ScipyWrap Spec Values Ensemble Classes QuantPdf
  SortProofs EvalProofs EvalTheorems InterpProofs NdProofs HistTheorems QuantTheorems MixmodTheorems Kinds KindProofs EnsembleProofs KindInputs ReachProofs EnsembleTheorems RowProofs
  IntegrateTheorems ConvertTheorems BrierProofs MetricsExamples MatrixTheorems MetricsProofs MetricsTheorems Fit FitProofs FitTheorems FitExamples PointMetrics PointProofs PointTheorems
  SparseConvertTheorems Pit PitTheorems PitExamples PitVariance PitMeta PitMetaProofs PitMetaTheorems.
Import ListNotations.
Local Open Scope string_scope.
Local Open Scope list_scope.
Local Open Scope R_scope.

(** Three values of four in the range *)
Lemma c138_value_example : kept 0 1 [1/4; 2; 1/8; 3/8] = [1/4; 1/8; 3/8].
Proof. unfold kept. cbn [filter]. repeat match goal with |- context [Rle_dec ?a ?b] => destruct (Rle_dec a b); try lra end. reflexivity. Qed.
(** Three values that are the grid *)
Lemma c138_smallest_example : kept 0 1 [1; 0; 1/2] = [1; 0; 1/2] /\ Permutation [1; 0; 1/2] (spaced 0 1 3).
Proof.
  split; [apply kept_all; intros v [<-|[<-|[<-|[]]]]; lra|]. replace (spaced 0 1 3) with [0; 1/2; 1].
  - apply perm_trans with [0; 1; 1/2]; [apply perm_swap|]. apply perm_skip, perm_swap.
  - unfold spaced. cbn [seq map]. simpl INR. repeat (f_equal; try field).
Qed.
(** Only one value in the range *)
Lemma c138_errors_example : kept 0 1 [2; 1/2; 3] = [1/2] /\ kept 0 1 [0; -1] = [0] /\ kept 0 1 [2] = [].
Proof. unfold kept. cbn [filter]. repeat match goal with |- context [Rle_dec ?a ?b] => destruct (Rle_dec a b); try lra end. repeat split. Qed.
(** By computation, with the identity for the square root: the values 1/4, 1/8, 3/8 against the grid 0, 1/2, 1 *)
Lemma c138_computed : quick_anderson_ksamp (fun x => x) [1 # 4; 1 # 8; 3 # 8]%Q [0; 1 # 2; 1]%Q = Ok (1600 # 29029)%Q.
Proof. vm_compute. reflexivity. Qed.
(** A test of the trusted formulas: the four laboratories of Scholz and Stephens (1987), with ties; the published statistic is 4.480.
    With the identity for the square root the answer is the statistic divided by the root of the variance. *)
Lemma c138_published : exists a v,
  anderson_ksamp (fun x => x)
    [[387#10; 415#10; 438#10; 445#10; 455#10; 460#10; 477#10; 580#10]; [392#10; 393#10; 397#10; 414#10; 418#10; 429#10; 433#10; 458#10];
     [340#10; 350#10; 390#10; 400#10; 430#10; 430#10; 440#10; 450#10]; [340#10; 348#10; 348#10; 354#10; 372#10; 378#10; 412#10; 428#10]]%Q = Ok a /\
  ksamp_sigmasq [8; 8; 8; 8]%nat 32 = Ok v /\ (Qle_bool ((44795 # 10000) * (44795 # 10000)) (a * a * v) && Qle_bool (a * a * v) ((44805 # 10000) * (44805 # 10000)))%Q%bool = true.
Proof. eexists. eexists. split; [vm_compute; reflexivity|]. split; [vm_compute; reflexivity|]. vm_compute. reflexivity. Qed.

(** Three histograms, and the same in another order *)
Lemma lin_three p i v : p * 2 = INR i -> (i < 3)%nat -> v = nth i [1/8; 1/4; 3/8] 0 -> lin_quantile [1/4; 1/8; 3/8] p v.
Proof.
  intros Hp Hi ->. exists [1/8; 1/4; 3/8], i, 0. split; [apply perm_swap|]. split; [repeat constructor; lra|]. split; [exact Hi|]. split; [lra|]. split; [simpl (INR (length _)); lra|]. lra.
Qed.
Lemma c138_rows_example : exists X e e' F F' s p M G, fill_outside X /\ has_cdf X e 3 F /\ has_cdf X e' 3 F' /\ Permutation [1; 2; 0]%nat (seq 0 3) /\
  (forall i, (i < 3)%nat -> nth i [1/2; 1/2; 1/2] 0 = nth (nth i [1; 2; 0]%nat 0%nat) [1/2; 1/2; 1/2] 0 /\ forall x, F' i x = F (nth i [1; 2; 0]%nat 0%nat) x) /\
  pit_new (create_of (qp X) "quant") e [1/2; 1/2; 1/2] [0; 1/2; 1] = Ok (s, p) /\ made X M p /\ e_npdf p = 1%nat /\ evaluates (ens_cdf p) 1 G /\
  s = [1/4; 1/8; 3/8].
Proof.
  set (l := [1/2; 1/4; 3/4]). set (l' := [1/4; 3/4; 1/2]).
  assert (Hl : input_ok (halves l)) by (unfold l; halves_in). destruct (new_cdf scipy1 (halves l) scipy1_fill Hl) as (e & Hm & Hn & Hq).
  assert (Hl' : input_ok (halves l')) by (unfold l'; halves_in). destruct (new_cdf scipy1 (halves l') scipy1_fill Hl') as (e' & Hm' & Hn' & Hq').
  rewrite halves_npdf in Hq, Hq'. cbn [length] in Hq, Hq'.
  assert (Es : map (fun r => cdf_of scipy1 (input_kind (halves l)) (nth r (input_rows (halves l)) []) (nth r [1/2; 1/2; 1/2] 0)) (seq 0 3) = [1/4; 1/8; 3/8]).
  { cbn [seq map nth]. rewrite !halves_cdf by (simpl; try lia; lra). simpl. destruct (Rle_dec (1/2) 1); [|lra]. repeat (f_equal; try lra). }
  destruct (c102_ensemble scipy1 e 3 _ [1/2; 1/2; 1/2] [0; 1/2; 1] scipy1_fill Hq ltac:(lia) eq_refl (proj1 c102_example) (proj1 (proj2 c102_example))) as (qs & ls & Ht & Hp).
  cbv beta in Ht, Hp. rewrite Es in Ht, Hp. assert (Eg : pit_grid [1/2; 1/2; 1/2] [0; 1/2; 1] = [0; 1/2; 1]) by reflexivity. rewrite Eg in Ht.
  destruct Ht as (_ & Hinc & _ & _ & _ & Hall).
  assert (H3 : (3 <= length ls)%nat).
  { apply (NoDup_incl_length (l := [1/8; 1/4; 3/8])); [repeat constructor; cbn; lra|]. intros v [<-|[<-|[<-|[]]]].
    - apply (Hall 0); [left; reflexivity|apply (lin_three _ 0); [simpl; lra|lia|reflexivity]|lra].
    - apply (Hall (1/2)); [right; left; reflexivity|apply (lin_three _ 1); [simpl; lra|lia|reflexivity]|lra].
    - apply (Hall 1); [right; right; left; reflexivity|apply (lin_three _ 2); [simpl; lra|lia|reflexivity]|lra]. }
  destruct (Hp ltac:(lia) (or_introl H3)) as (p & lo & hi & Ep & Hmp & H1 & _).
  destruct (made_rep scipy1 _ p scipy1_fill Hmp) as (k & D & HD & _).
  pose proof (proj1 (rep_computes scipy1 k D p MCdf _ HD (cdf_in k) (cdf_fin scipy1 k))) as HG.
  exists scipy1, e, e'. do 2 eexists. exists [1/4; 1/8; 3/8], p. do 2 eexists. split; [apply scipy1_fill|]. split; [exact Hq|]. split; [exact Hq'|].
  split; [apply perm_trans with [1; 0; 2]%nat; [apply perm_skip, perm_swap|apply perm_swap]|]. split; [|split; [exact Ep|]; split; [exact Hmp|]; split; [exact H1|]; split; [rewrite <- H1; exact HG|reflexivity]].
  intros [|[|[|i]]] Hi; try lia; (split; [reflexivity|]); intros x; reflexivity.
Qed.
