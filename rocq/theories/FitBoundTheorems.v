(** The three goodness-of-fit metrics of the same samples: bounds and relations (C148). *)
From Coq Require Import String List Arith ZArith Bool Lia Reals Lra Sorted Permutation.
From Verif Require Import Num NumProofs Py NdArray NumpyLib Utils ScipyWrap Spec Values Ensemble Classes QuantPdf
  SortProofs EvalProofs EvalTheorems InterpProofs MixmodTheorems Kinds KindProofs EnsembleTheorems RowProofs IntegrateTheorems MatrixTheorems MetricsProofs
  MetricsExamples Fit FitProofs FitTheorems FitBounds FitExamples.
Import ListNotations.
Local Open Scope string_scope.
Local Open Scope list_scope.
Local Open Scope R_scope.

(** What the values of "ks", "cvm" and "ad" for [n] samples satisfy together *)
Definition agree (n : nat) (ks cvm ad : xnum R) : Prop :=
  exists D W, ks = Fin D /\ cvm = Fin W /\ 1 / (12 * INR n) <= W <= INR n / 3 /\ W <= INR n * (D * D) /\
    (ad = PInf \/ exists A, ad = Fin A /\ 4 * W <= A).
Lemma values_agree F s ks cvm ad : s <> [] -> cdf_like F -> fit_value "ks" F s ks -> fit_value "cvm" F s cvm -> fit_value "ad" F s ad -> agree (length s) ks cvm ad.
Proof.
  intros Hs [Hmon H01] [(_ & D & -> & HD)|[(C & _)|(C & _)]]; try discriminate C.
  intros [(C & _)|[(_ & W & -> & HW)|(C & _)]]; try discriminate C. intros [(C & _)|[(C & _)|(_ & HA)]]; try discriminate C.
  exists D, W. split; [reflexivity|]. split; [reflexivity|]. split; [split; [eapply cvm_bound; exact HW|eapply cvm_most; eauto]|]. split; [eapply cvm_ks; eauto|].
  destruct HA as [(A & -> & HA & HO)|(-> & _)]; [right|left; reflexivity]. exists A. split; [reflexivity|]. eapply ad_cvm; eauto.
Qed.
Lemma long_nonempty {A} (s : list A) : (2 <= length s)%nat -> s <> [].
Proof. destruct s; [cbn; lia|discriminate]. Qed.
Lemma pooled_length (S : list (list R)) : (forall row, In row S -> length row = 1%nat) -> length (concat S) = length S.
Proof. induction S as [|a S IH]; intros H; [reflexivity|]. cbn. rewrite app_length, (H a (or_introl eq_refl)), IH by (intros; apply H; right; auto). reflexivity. Qed.
Lemma c148_paired : forall X q m F S w, fill_outside X -> has_cdf X q m F -> (forall r, (r < m)%nat -> cdf_like (F r)) ->
  (2 <= m)%nat -> (2 <= w)%nat -> length S = m -> (forall s, In s S -> length s = w) ->
  distinct (concat S) <> w \/ (forall s, In s S -> NoDup s) ->
  exists ks cvm ad, calculate_goodness_of_fit ln S q "ks" = Ok ks /\ calculate_goodness_of_fit ln S q "cvm" = Ok cvm /\
    calculate_goodness_of_fit ln S q "ad" = Ok ad /\ length ks = m /\ length cvm = m /\ length ad = m /\
    forall r, (r < m)%nat -> agree w (nth r ks NaN) (nth r cvm NaN) (nth r ad NaN).
Proof.
  intros X q m F S w HX Hq HF Hm Hw HL Hl Hd.
  destruct (fit_paired X q m F S w "ks" HX Hq HF ltac:(right; right; reflexivity) Hm Hw HL Hl Hd) as (v0 & E0 & L0 & V0).
  destruct (fit_paired X q m F S w "cvm" HX Hq HF ltac:(right; left; reflexivity) Hm Hw HL Hl Hd) as (v1 & E1 & L1 & V1).
  destruct (fit_paired X q m F S w "ad" HX Hq HF ltac:(left; reflexivity) Hm Hw HL Hl Hd) as (v2 & E2 & L2 & V2).
  exists v0, v1, v2. repeat (split; [assumption|]). intros r Hr. assert (Hs : In (nth r S []) S) by (apply nth_In; lia). rewrite <- (Hl _ Hs).
  apply (values_agree (F r) (nth r S [])); auto. apply long_nonempty. rewrite (Hl _ Hs). exact Hw.
Qed.
Lemma c148_single : forall X q m F s, fill_outside X -> has_cdf X q m F -> (forall r, (r < m)%nat -> cdf_like (F r)) -> (2 <= length s)%nat ->
  exists ks cvm ad, calculate_goodness_of_fit ln [s] q "ks" = Ok ks /\ calculate_goodness_of_fit ln [s] q "cvm" = Ok cvm /\
    calculate_goodness_of_fit ln [s] q "ad" = Ok ad /\ length ks = m /\ length cvm = m /\ length ad = m /\
    forall r, (r < m)%nat -> agree (length s) (nth r ks NaN) (nth r cvm NaN) (nth r ad NaN).
Proof.
  intros X q m F s HX Hq HF Hs.
  destruct (fit_single X q m F s "ks" HX Hq HF ltac:(right; right; reflexivity) Hs) as (v0 & E0 & L0 & V0).
  destruct (fit_single X q m F s "cvm" HX Hq HF ltac:(right; left; reflexivity) Hs) as (v1 & E1 & L1 & V1).
  destruct (fit_single X q m F s "ad" HX Hq HF ltac:(left; reflexivity) Hs) as (v2 & E2 & L2 & V2).
  exists v0, v1, v2. repeat (split; [assumption|]). intros r Hr.
  apply (values_agree (F r) s); auto. apply long_nonempty. exact Hs.
Qed.
Lemma c148_one_reference : forall X q F S w, fill_outside X -> has_cdf X q 1 F -> cdf_like (F 0%nat) ->
  (2 <= length S)%nat -> (2 <= w)%nat -> (forall s, In s S -> length s = w) ->
  exists ks cvm ad, calculate_goodness_of_fit ln S q "ks" = Ok ks /\ calculate_goodness_of_fit ln S q "cvm" = Ok cvm /\
    calculate_goodness_of_fit ln S q "ad" = Ok ad /\ length ks = (length S) /\ length cvm = (length S) /\ length ad = (length S) /\
    forall r, (r < (length S))%nat -> agree w (nth r ks NaN) (nth r cvm NaN) (nth r ad NaN).
Proof.
  intros X q F S w HX Hq HF Hm Hw Hl.
  destruct (fit_one_reference X q F S w "ks" HX Hq HF ltac:(right; right; reflexivity) Hm Hw Hl) as (v0 & E0 & L0 & V0).
  destruct (fit_one_reference X q F S w "cvm" HX Hq HF ltac:(right; left; reflexivity) Hm Hw Hl) as (v1 & E1 & L1 & V1).
  destruct (fit_one_reference X q F S w "ad" HX Hq HF ltac:(left; reflexivity) Hm Hw Hl) as (v2 & E2 & L2 & V2).
  exists v0, v1, v2. repeat (split; [assumption|]). intros r Hr. assert (Hs : In (nth r S []) S) by (apply nth_In; lia). rewrite <- (Hl _ Hs).
  apply (values_agree (F 0%nat) (nth r S [])); auto. apply long_nonempty. rewrite (Hl _ Hs). exact Hw.
Qed.
Lemma c148_pooled : forall X q m F S, fill_outside X -> has_cdf X q m F -> (forall r, (r < m)%nat -> cdf_like (F r)) ->
  (2 <= length S)%nat -> (forall row, In row S -> length row = 1%nat) ->
  exists ks cvm ad, calculate_goodness_of_fit ln S q "ks" = Ok ks /\ calculate_goodness_of_fit ln S q "cvm" = Ok cvm /\
    calculate_goodness_of_fit ln S q "ad" = Ok ad /\ length ks = m /\ length cvm = m /\ length ad = m /\
    forall r, (r < m)%nat -> agree (length S) (nth r ks NaN) (nth r cvm NaN) (nth r ad NaN).
Proof.
  intros X q m F S HX Hq HF Hm Hl.
  destruct (fit_pooled X q m F S "ks" HX Hq HF ltac:(right; right; reflexivity) Hm Hl) as (v0 & E0 & L0 & V0).
  destruct (fit_pooled X q m F S "cvm" HX Hq HF ltac:(right; left; reflexivity) Hm Hl) as (v1 & E1 & L1 & V1).
  destruct (fit_pooled X q m F S "ad" HX Hq HF ltac:(left; reflexivity) Hm Hl) as (v2 & E2 & L2 & V2).
  exists v0, v1, v2. repeat (split; [assumption|]). intros r Hr. rewrite <- (pooled_length S Hl).
  apply (values_agree (F r) (concat S)); auto. apply long_nonempty. rewrite (pooled_length S Hl). exact Hm.
Qed.
(** The largest CvM value, and the least AD value *)
Lemma c148_most : forall F s W, s <> [] -> cdf_like F -> fit_value "cvm" F s (Fin W) ->
  W <= INR (length s) / 3 /\ (W = INR (length s) / 3 <-> (forall x, In x s -> F x = 0) \/ (forall x, In x s -> F x = 1)).
Proof.
  intros F s W Hs [Hmon H01] [(C & _)|[(_ & W' & E & HW)|(C & _)]]; try discriminate C. injection E as <-. apply cvm_most; auto.
Qed.
Lemma c148_least : forall F s A, s <> [] -> fit_value "ad" F s (Fin A) -> 1 / (3 * INR (length s)) <= A.
Proof.
  intros F s A Hs H. destruct (c99_ad F s A Hs H) as [L _]. apply Rle_trans with (ad_least (length s)); [apply ad_least_bound; destruct s; [congruence|cbn; lia]|exact L].
Qed.
(** The uniform density on [0,2], with samples at the lower quarter and beyond the support *)
Lemma c148_example : exists X q F, fill_outside X /\ has_cdf X q 1 F /\ (forall r, (r < 1)%nat -> cdf_like (F r)) /\ (2 <= length [3; 1/2])%nat /\
  F 0%nat (1/2) = 1/4 /\ F 0%nat 2 = 1.
Proof.
  destruct (halves_reference [1/2]) as (q & _ & Hq & HF); [discriminate|each|]. cbn [length] in Hq, HF. exists scipy1, q. eexists. split; [apply scipy1_fill|].
  split; [exact Hq|]. split; [exact HF|]. split; [cbn; lia|]. split.
  - rewrite halves_cdf by (simpl; try lia; lra). destruct (Rle_dec (1/2) 1); [|lra]. simpl. lra.
  - rewrite halves_cdf by (simpl; try lia; lra). destruct (Rle_dec 2 1); [lra|]. simpl. lra.
Qed.
