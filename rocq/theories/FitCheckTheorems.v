(** The checks of the goodness-of-fit metrics (C135). *)
From Coq Require Import QArith String List Arith ZArith Bool Lia Reals Lra.
From Verif Require Import Num NumProofs Py NdArray NumpyLib ScipyWrap Spec Values Ensemble Classes Kinds EnsembleProofs KindInputs ReachProofs EnsembleTheorems RowProofs
  SortProofs InterpProofs MatrixTheorems RowShapeTheorems Metrics MetricsTheorems BrierProofs MetricsExamples Fit FitProofs FitTheorems FitExamples FitChecks.
Import ListNotations.
Local Close Scope Q_scope.
Local Open Scope string_scope.
Local Open Scope list_scope.
Local Open Scope R_scope.

Lemma not_nested_all X M e s : fill_outside X -> made X M e -> has_ancil e s -> anc_plain s -> forall j i fuel, (j + i = e_npdf e)%nat -> (j < fuel)%nat ->
  not_nested_from (qp X) e i fuel = Some (Ok tt).
Proof.
  intros HX Hm Hs Hp. induction j as [|j IH]; intros i fuel Hn Hf; (destruct fuel as [|fuel]; [lia|]); cbn [not_nested_from].
  - rewrite (c21_integer X M) by (auto; lia). reflexivity.
  - destruct (c21_slice X M e (KInt (Z.of_nat i)) [i] s HX Hm) as (p & E & _ & Hl & _); auto; [|discriminate|].
    + exists i. split; [reflexivity|]. split; [lia|]. left. reflexivity.
    + rewrite E, Hl. cbn [length Nat.eqb]. apply IH; lia.
Qed.
(** the warning about the numbers of PDFs *)
Definition warnings_of (n m : nat) : list warning := if ((n =? m) || (m =? 1))%nat%bool then [] else [WNumber].

Lemma c135_value : forall X Mp p sp Mq q sq name samples fuel, fill_outside X ->
  made X Mp p -> has_ancil p sp -> anc_plain sp -> made X Mq q -> has_ancil q sq -> anc_plain sq -> (e_npdf p < fuel)%nat -> (e_npdf q < fuel)%nat ->
  goodness_of_fit ln (qp X) p q name (Ok samples) fuel = Some (warnings_of (e_npdf p) (e_npdf q), calculate_goodness_of_fit ln samples q name).
Proof.
  intros X Mp p sp Mq q sq name samples fuel HX Hp Sp Ap Hq Sq Aq Fp Fq. unfold goodness_of_fit.
  rewrite (not_nested_all X Mp p sp) with (j := e_npdf p) by (auto; lia). rewrite (not_nested_all X Mq q sq) with (j := e_npdf q) by (auto; lia).
  unfold correct_number, warnings_of, calculate_goodness_of_fit. destruct (e_npdf p =? e_npdf q)%nat; [|destruct (e_npdf q =? 1)%nat];
    cbn; destruct (fit_metrics ln name); reflexivity.
Qed.
Lemma c135_mismatch : forall X Mq q S w name, fill_outside X -> made X Mq q -> In MCdf Mq -> fit_name name ->
  (2 <= w)%nat -> (forall s, In s S -> length s = w) -> length S <> e_npdf q -> (2 <= length S)%nat -> (2 <= e_npdf q)%nat ->
  calculate_goodness_of_fit ln S q name = Err ValueError.
Proof.
  intros X Mq q S w name HX Hq Hi Hname Hw Hl Hne HS Hn. destruct (stat_fixed name Hname) as (stat & E & _). unfold calculate_goodness_of_fit. rewrite E.
  rewrite (squeezed_mat S w) by auto. cbn [bind]. change (ens_cdf q) with (evaluate MCdf q).
  rewrite (c134_rows X Mq) by (auto; unfold fits; rewrite map_length; lia). reflexivity.
Qed.
(** one sample of each PDF: numpy's squeeze makes them the samples of a single distribution *)
Lemma c135_one_sample : forall X q m F S name, fill_outside X -> has_cdf X q m F -> (forall r, (r < m)%nat -> cdf_like (F r)) -> fit_name name ->
  (2 <= length S)%nat -> (forall s, In s S -> length s = 1%nat) ->
  exists vs, calculate_goodness_of_fit ln S q name = Ok vs /\ length vs = m /\ forall r, (r < m)%nat -> fit_value name (F r) (concat S) (nth r vs NaN).
Proof.
  intros X q m F S name HX Hq HF Hname HS Hl.
  assert (E : sorted_squeezed S = sorted_squeezed [concat S]).
  { assert (Hc : length (concat S) = length S). { clear -Hl. induction S as [|s S IH]; [reflexivity|]. cbn [concat length]. rewrite app_length, IH by (intros; apply Hl; simpl; auto). rewrite (Hl s) by (simpl; auto). lia. }
    assert (Hf : forallb (fun row => (length row =? 1)%nat) S = true). { apply forallb_forall. intros s Hs. rewrite (Hl s Hs). reflexivity. }
    cbn [sorted_squeezed]. destruct (concat S) as [|a [|b t]] eqn:Ec; cbn [length] in Hc; try lia.
    destruct S as [|r [|r' S']]; cbn [length] in HS; try lia. unfold sorted_squeezed. rewrite Hf, Ec. reflexivity. }
  assert (G : calculate_goodness_of_fit ln S q name = calculate_goodness_of_fit ln [concat S] q name) by (unfold calculate_goodness_of_fit; rewrite E; reflexivity).
  rewrite G. apply (fit_single X); auto. clear -HS Hl. destruct S as [|a [|b S]]; cbn [length] in HS; try lia. cbn [concat]. rewrite !app_length, (Hl a), (Hl b) by (simpl; auto). lia.
Qed.
Lemma c135_outlier : forall X M e s F lo hi fuel, fill_outside X -> made X M e -> has_ancil e s -> anc_plain s -> evaluates (ens_cdf e) (e_npdf e) F -> (e_npdf e < fuel)%nat ->
  outlier_rate_logged (qp X) e lo hi fuel = Some ([], Ok (map (fun r => Fin (F r lo + (1 - F r hi))) (seq 0 (e_npdf e)))).
Proof.
  intros X M e s F lo hi fuel HX Hm Hs Ha HF Hfu. unfold outlier_rate_logged. rewrite (not_nested_all X M e s) with (j := e_npdf e) by (auto; lia).
  rewrite (outlier_eq X M e s F lo hi fuel) by auto. reflexivity.
Qed.

(** A normal distribution whose parameters are plain numbers: the checks never end. *)
Lemma scalar_endless X loc scale e : ens_new (create_of (qp X) "norm") [("loc", VNum loc); ("scale", VNum scale)] None = Ok e ->
  forall fuel i, not_nested_from (qp X) e i fuel = None.
Proof.
  intros E fuel. unfold ens_new, create_of in E. cbn in E. injection E as <-. induction fuel as [|fuel IH]; intros i; [reflexivity|]. cbn [not_nested_from].
  match goal with |- context [getitem ?a ?b ?c] => assert (G : exists p, getitem a b c = Ok p /\ e_npdf p = 1%nat) by (eexists; split; reflexivity) end.
  destruct G as (p & -> & ->). cbn. apply IH.
Qed.
Lemma scalar_made X loc scale : exists e, ens_new (create_of (qp X) "norm") [("loc", VNum loc); ("scale", VNum scale)] None = Ok e /\ e_npdf e = 1%nat.
Proof. eexists. split; reflexivity. Qed.
Lemma not_nested_some X M e s : fill_outside X -> made X M e -> has_ancil e s -> anc_plain s -> forall fuel i, (i <= e_npdf e)%nat ->
  not_nested_from (qp X) e i fuel = None \/ not_nested_from (qp X) e i fuel = Some (Ok tt).
Proof.
  intros HX Hm Hs Hp. induction fuel as [|fuel IH]; intros i Hi; [left; reflexivity|].
  destruct (Nat.lt_ge_cases (e_npdf e - i) (S fuel)) as [H|H].
  - right. apply (not_nested_all X M e s HX Hm Hs Hp (e_npdf e - i)); lia.
  - cbn [not_nested_from]. destruct (c21_slice X M e (KInt (Z.of_nat i)) [i] s HX Hm) as (p & E & _ & Hl & _); auto; [|discriminate|].
    + exists i. split; [reflexivity|]. split; [lia|]. left. reflexivity.
    + rewrite E, Hl. cbn [length Nat.eqb]. apply IH. lia.
Qed.
Lemma c135_endless : forall X loc scale, exists q, ens_new (create_of (qp X) "norm") [("loc", VNum loc); ("scale", VNum scale)] None = Ok q /\ e_npdf q = 1%nat /\
  (forall Mp p sp name samples fuel, fill_outside X -> made X Mp p -> has_ancil p sp -> anc_plain sp -> goodness_of_fit ln (qp X) p q name samples fuel = None) /\
  (forall r name samples fuel, goodness_of_fit ln (qp X) q r name samples fuel = None) /\
  (forall lo hi fuel, outlier_rate_logged (qp X) q lo hi fuel = None).
Proof.
  intros X loc scale. destruct (scalar_made X loc scale) as (q & E & E1). exists q. split; [exact E|]. split; [exact E1|]. pose proof (scalar_endless X loc scale q E) as Hq.
  split; [|split].
  - intros Mp p sp name samples fuel HX Hp Sp Ap. unfold goodness_of_fit. rewrite Hq. cbn [logged after]. unfold correct_number. rewrite E1.
    destruct (e_npdf p =? 1)%nat; cbn [logged after Nat.eqb];
      (destruct (not_nested_some X Mp p sp HX Hp Sp Ap fuel 0) as [->| ->]; [lia| |]; reflexivity).
  - intros r name samples fuel. unfold goodness_of_fit. rewrite Hq. cbn [logged after]. unfold correct_number.
    destruct (e_npdf q =? e_npdf r)%nat, (e_npdf r =? 1)%nat; reflexivity.
  - intros lo hi fuel. unfold outlier_rate_logged. rewrite Hq. reflexivity.
Qed.

(** ** Examples: two histograms as estimates, three as references *)
Lemma c135_example : exists X Mp p Mq q, fill_outside X /\ made X Mp p /\ has_ancil p None /\ made X Mq q /\ has_ancil q None /\ In MCdf Mq /\
  e_npdf p = 2%nat /\ e_npdf q = 3%nat /\ warnings_of 2 3 = [WNumber] /\ warnings_of 3 1 = [] /\ fit_name "ks" /\
  ~ fits [[1/2; 1]; [1; 3/2]] (e_npdf q) /\ evaluate MCdf q (PMat [[1/2; 1]; [1; 3/2]]) = Err ValueError /\
  goodness_of_fit ln (qp X) p q "ks" (Ok [[1/2; 1]; [1; 3/2]]) 4 = Some ([WNumber], Err ValueError).
Proof.
  destruct (new_density scipy0 (halves [3/4; 1/4]) scipy0_fill) as (p & _ & Mp & Sp & Hp & _); [apply halves_ok; [discriminate|each]|cbn; tauto|].
  destruct (new_density scipy0 (halves [1/4; 3/4; 0]) scipy0_fill) as (q & _ & Mq & Sq & Hq & _); [apply halves_ok; [discriminate|each]|cbn; tauto|].
  destruct Hp as (_ & Np & _). destruct Hq as (_ & Nq & _). change (input_npdf (halves [3/4; 1/4])) with 2%nat in Np. change (input_npdf (halves [1/4; 3/4; 0])) with 3%nat in Nq.
  eexists scipy0, _, p, _, q. split; [apply scipy0_fill|]. split; [exact Mp|]. split; [exact Sp|]. split; [exact Mq|]. split; [exact Sq|]. split; [cbn; tauto|].
  split; [exact Np|]. split; [exact Nq|]. split; [reflexivity|]. split; [reflexivity|]. split; [unfold fit_name; cbn; tauto|].
  assert (NF : ~ fits [[1/2; 1]; [1; 3/2]] (e_npdf q)) by (unfold fits; rewrite Nq; cbn; lia).
  split; [exact NF|]. split; [apply (c134_rows scipy0 _ q MCdf _ scipy0_fill Mq); [cbn; tauto|exact NF]|].
  rewrite (c135_value scipy0 _ p None _ q None "ks" _ 4 scipy0_fill Mp Sp I Mq Sq I) by lia. rewrite Np, Nq. cbn [warnings_of Nat.eqb orb]. f_equal. f_equal.
  apply (c135_mismatch scipy0 _ q _ 2 "ks" scipy0_fill Mq); [cbn; tauto|unfold fit_name; cbn; tauto|lia| |rewrite Nq; cbn; lia|cbn; lia|lia].
  intros s [<-|[<-|[]]]; reflexivity.
Qed.
(** one uniform density on [0,2]; two PDFs with the samples 3/2 and 1/2 give one statistic, that of the two samples together *)
Lemma c135_one_example : exists X q F S, fill_outside X /\ has_cdf X q 1 F /\ cdf_like (F 0%nat) /\ length S = 2%nat /\ (forall s, In s S -> length s = 1%nat) /\
  calculate_goodness_of_fit ln S q "ks" = Ok [Fin (1/4)].
Proof.
  destruct c99_example as (X & q & F & HX & Hq & HF & E & _). exists X, q, F, [[3/2]; [1/2]]. split; [exact HX|]. split; [exact Hq|]. split; [exact HF|].
  split; [reflexivity|]. split; [intros s [<-|[<-|[]]]; reflexivity|]. rewrite <- E. reflexivity.
Qed.
