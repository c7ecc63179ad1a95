(** Ensembles and samples that meet the hypotheses of C123 and C124. *)
From Coq Require Import String List Arith ZArith Bool Lia Reals Lra.
From Coquelicot Require Import Coquelicot.
From Verif Require Import Num NumProofs Py NdArray NumpyLib Utils ScipyWrap Spec Values Ensemble Classes
  HistPdf InterpPdf QuantPdf MixmodPdf Registry Convert SampleConvert EvalProofs InterpProofs HistProofs HistTheorems InterpPdfProofs
  MixmodTheorems Kinds KindProofs KindInputs EnsembleTheorems IntegrateTheorems ConvertTheorems SampleConvertTheorems.
Import ListNotations.
Local Open Scope string_scope.
Local Open Scope list_scope.
Local Open Scope R_scope.

(** ** Leaving out keywords *)
Lemma c123_default_size : forall X rvs mf xy e bins,
  factory_convert (QH X (extract_hist_samples rvs) mf xy) (QW X (extract_hist_samples rvs) mf xy) e "hist" (by_samples [("bins", VArr (nd1 bins))]) =
  factory_convert (QH X (extract_hist_samples rvs) mf xy) (QW X (extract_hist_samples rvs) mf xy) e "hist" (by_samples [("bins", VArr (nd1 bins)); ("size", VNum 1000)]).
Proof. intros. rewrite !conv_samples by (simpl; intuition discriminate). reflexivity. Qed.
Lemma c124_defaults : forall X rvs fit hs xy e,
  factory_convert (QH X hs (extract_mixmod_fit_samples rvs fit sqrt) xy) (QW X hs (extract_mixmod_fit_samples rvs fit sqrt) xy) e "mixmod" [] =
  factory_convert (QH X hs (extract_mixmod_fit_samples rvs fit sqrt) xy) (QW X hs (extract_mixmod_fit_samples rvs fit sqrt) xy) e "mixmod" (asked (VNum 3) (VNum 1000) VNone).
Proof. intros. rewrite !conv_fit by reflexivity. reflexivity. Qed.

(** ** Samples of two PDFs *)
Definition drawn : list (list R) := [[1/2; 3/4; 2; 5]; [3; 0; 1; 7/2]].
Definition rvs0 (e : ens R) (size rs : value R) : res (list (list R)) := Ok drawn.
Ltac count_hits := unfold hits, nth0; cbn [rsum length nth];
  repeat match goal with |- context [falls_dec ?b ?i ?x] => let Q := fresh "Q" in destruct (falls_dec b i x) as [Q|Q]; unfold falls, nth0 in Q; cbn [nth length] in Q;
    try (exfalso; first [apply Q; split; [lra|first [left; lra|right; split; [reflexivity|lra]]] | destruct Q as [? [?|[? ?]]]; first [lra|lia]]) end; lra.
Ltac count_caught := unfold caught, nth0; cbn [rsum length nth];
  repeat match goal with |- context [between_dec ?b ?x] => let Q := fresh "Q" in destruct (between_dec b x) as [Q|Q]; unfold between, nth0 in Q; change (nlast _) with 3 in Q; cbn [nth length] in Q; try (exfalso; lra) end; lra.

(** Three bins, of widths 3/5, 2/5 and 2: in the first PDF the counts are 1, 1 and 1 (one sample lies outside), and the
    probabilities of the histogram are 1/5, 2/15 and 2/3: not the relative frequencies. *)
Lemma c123_example : exists e, made scipy0 (input_methods hist0) e /\
  (forall l, In l drawn -> 0 < caught l [0; 3/5; 1; 3]) /\ length drawn <> 3%nat /\ (forall l, In l drawn -> length l = 4%nat) /\
  hits (nth 0 drawn []) [0; 3/5; 1; 3] 0 = 1 /\ hits (nth 0 drawn []) [0; 3/5; 1; 3] 2 = 1 /\ caught (nth 0 drawn []) [0; 3/5; 1; 3] = 3 /\
  exists e' G, factory_convert (QH scipy0 (extract_hist_samples rvs0) (extract_fit (T := R)) (extract_fit (T := R))) (QW scipy0 (extract_hist_samples rvs0) (extract_fit (T := R)) (extract_fit (T := R)))
      e "hist" (by_samples [("bins", VArr (nd1 [0; 3/5; 1; 3])); ("size", VNum 4)]) = Ok e' /\ source e' 2 G /\
    prob G [0; 3/5; 1; 3] 0 2 = 2/3.
Proof.
  destruct (made_new scipy0 hist0 None scipy0_fill hist0_ok I) as (e & _ & _ & Hm & _).
  assert (Hc : forall l, In l drawn -> 0 < caught l [0; 3/5; 1; 3]) by (intros l [<-|[<-|[]]]; count_caught).
  assert (Hl : forall l, In l drawn -> length l = 4%nat) by (intros l [<-|[<-|[]]]; reflexivity).
  assert (Hs : increasing [0; 3/5; 1; 3]) by (repeat constructor; lra).
  assert (H0 : hits (nth 0 drawn []) [0; 3/5; 1; 3] 0 = 1) by (cbn [nth drawn]; count_hits).
  assert (H1 : hits (nth 0 drawn []) [0; 3/5; 1; 3] 1 = 1) by (cbn [nth drawn]; count_hits).
  assert (H2 : hits (nth 0 drawn []) [0; 3/5; 1; 3] 2 = 1) by (cbn [nth drawn]; count_hits).
  assert (H3 : caught (nth 0 drawn []) [0; 3/5; 1; 3] = 3) by (cbn [nth drawn]; count_caught).
  exists e. split; [exact Hm|]. split; [exact Hc|]. split; [discriminate|]. split; [exact Hl|]. split; [exact H0|]. split; [exact H2|]. split; [exact H3|].
  assert (Hn : le 2 (length [0; 3/5; 1; 3])) by (simpl; lia).
  assert (Hd : drawn <> []) by discriminate.
  assert (Hr : rvs0 e (VNum 4) VNone = Ok drawn) by reflexivity.
  assert (Hx : length drawn <> pred (length [0; 3/5; 1; 3]) \/ 4%nat = pred (length [0; 3/5; 1; 3])) by (left; discriminate).
  pose proof (c123_formula scipy0 rvs0 (extract_fit (T := R)) (extract_fit (T := R)) e [0; 3/5; 1; 3] drawn 4 (VNum 4) scipy0_fill Hs Hn Hd Hl Hr Hc Hx) as HH.
  destruct HH as (e' & G & E & _ & _ & Hsrc & Hp).
  exists e', G. split; [exact E|]. split; [exact Hsrc|]. specialize (Hp 0%nat 2%nat ltac:(simpl; lia) ltac:(simpl; lia)).
  cbn [length pred rsum] in Hp. rewrite H0, H1, H2 in Hp. unfold width, nth0 in Hp. cbn [nth] in Hp. lra.
Qed.
(** two PDFs and two bins: the conversion raises *)
Lemma c123_same_number_example : exists e, made scipy0 (input_methods hist0) e /\ (forall l, In l drawn -> length l = 4%nat) /\ length drawn = pred (length [0; 1; 3]) /\
  factory_convert (QH scipy0 (extract_hist_samples rvs0) (extract_fit (T := R)) (extract_fit (T := R))) (QW scipy0 (extract_hist_samples rvs0) (extract_fit (T := R)) (extract_fit (T := R)))
      e "hist" (by_samples [("bins", VArr (nd1 [0; 1; 3])); ("size", VNum 4)]) = Err ValueError.
Proof.
  destruct (made_new scipy0 hist0 None scipy0_fill hist0_ok I) as (e & _ & _ & Hm & _).
  assert (Hl : forall l, In l drawn -> length l = 4%nat) by (intros l [<-|[<-|[]]]; reflexivity).
  exists e. split; [exact Hm|]. split; [exact Hl|]. split; [reflexivity|]. apply (c123_same_number _ _ _ _ e [0; 1; 3] drawn 4); auto. discriminate.
Qed.
Definition fit0 (nc : value R) (l : list R) : res (list R * list R * list R) := Ok ([1/4; 3/4], [nth0 0 l; nth0 1 l], [4; 9]).
Lemma c124_example : exists e fits, made scipy1 (input_methods hist0) e /\ fill_outside scipy1 /\ normal_laws (s_phi scipy1) (s_Phi scipy1) /\
  rvs0 e (VNum 4) VNone = Ok drawn /\ length fits = length drawn /\
  forall r, (r < length drawn)%nat -> fit0 (VNum 2) (nth r drawn []) = Ok (nth r fits ([], [], [])) /\ fitted 2 (nth r fits ([], [], [])).
Proof.
  pose proof scipy1_fill as HX.
  destruct (made_new scipy1 hist0 None HX hist0_ok I) as (e & _ & _ & Hm & _).
  exists e, [([1/4; 3/4], [1/2; 3/4], [4; 9]); ([1/4; 3/4], [3; 0], [4; 9])]. split; [exact Hm|]. split; [exact HX|]. split; [exact logistic_laws|].
  do 2 (split; [reflexivity|]). intros r Hr. cbn [drawn length] in Hr.
  assert (Hf : forall m, length m = 2%nat -> fitted 2 ([1/4; 3/4], m, [4; 9])).
  { intros m Hm'. unfold fitted. split; [reflexivity|]. split; [exact Hm'|]. split; [reflexivity|].
    split; [intros i Hi; destruct i as [|[|i]]; unfold nth0; cbn [nth]; try lra; lia|]. split; [unfold nth0; cbn [rsum nth]; lra|].
    intros i Hi; destruct i as [|[|i]]; unfold nth0; cbn [nth]; try lra; lia. }
  destruct r as [|[|r]]; [| |lia]; (split; [reflexivity|apply Hf; reflexivity]).
Qed.
