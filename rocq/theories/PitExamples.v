(** Examples and counterexamples for the probability integral transform. *)
From Coq Require Import QArith String List Arith ZArith Bool Lia Reals Lra Sorted Permutation.
From Verif Require Import Num NumProofs Py NdArray NumpyLib Utils ScipyWrap Spec Values Ensemble Classes QuantPdf
  SortProofs EvalProofs EvalTheorems InterpProofs NdProofs HistTheorems QuantTheorems MixmodTheorems Kinds KindProofs EnsembleProofs KindInputs ReachProofs EnsembleTheorems RowProofs
  IntegrateTheorems ConvertTheorems BrierProofs MetricsExamples MatrixTheorems MetricsProofs MetricsTheorems Fit FitProofs FitTheorems FitExamples PointMetrics PointProofs PointTheorems Pit PitTheorems.
Import ListNotations.
Local Open Scope string_scope.
Local Open Scope list_scope.
Local Open Scope R_scope.

(** ** Counterexamples, by computation *)
(** Four uniform densities on [0,1]; the true values are 1/10, 1/2, 9/10, 9/10 and so are the PIT values.  The largest one occurs
    twice, its second quantile is dropped, and the constructor extrapolates to 13/10. *)
Definition four_hists : res (ens Q) :=
  ens_new hist_create [("bins", VArr (nd1 [0; 1]%Q)); ("pdfs", VArr (nd2 1 [[1]; [1]; [1]; [1]]%Q))] None.
Definition pit_locs (r : res (list Q * ens Q)) : res (list Q * vdict Q) := let* p := r in Ok (fst p, objdata (snd p)).
Lemma c44_outside_refuted : exists e : ens Q, four_hists = Ok e /\
  pit_locs (pit_new (quant_create lagrange_fill (fun _ _ _ => 0%Q) (fun _ _ _ => 0%Q)) e [1 # 10; 1 # 2; 9 # 10; 9 # 10]%Q [0; 1 # 4; 1 # 2; 3 # 4; 1]%Q) =
  Ok ([1 # 10; 1 # 2; 9 # 10; 9 # 10]%Q, [("locs", VArr (nd2 4 [[1 # 10; 1 # 2; 9 # 10; 13 # 10]%Q]))]).
Proof. eexists. split; [reflexivity|]. vm_compute. reflexivity. Qed.
(** Two quantile tables (0,0) (1/10,9/10) (1,1): their distribution function, a parabola, is 49/18 at 1/2. *)
Lemma c44_range_refuted : exists e : ens Q,
  ens_new (quant_create lagrange_fill (fun _ _ _ => 0%Q) (fun _ _ _ => 0%Q)) [("quants", VArr (nd1 [0; 9 # 10; 1]%Q)); ("locs", VArr (nd2 3 [[0; 1 # 10; 1]; [0; 1 # 10; 1]]%Q))] None = Ok e /\
  gather_pit_samples e [1 # 2; 1 # 10]%Q = Ok [49 # 18; 9 # 10]%Q.
Proof. eexists. split; [reflexivity|]. vm_compute. reflexivity. Qed.

(** ** Examples *)
Lemma c44_example : exists X e F, fill_outside X /\ normal_laws (s_phi X) (s_Phi X) /\ has_cdf X e 3 F /\ proper_class e /\
  map (fun r => F r (nth r [1/2; 1/2; 1/2] 0)) (seq 0 3) = [1/4; 1/8; 3/8].
Proof.
  set (l := [1/2; 1/4; 3/4]). assert (Hl : input_ok (halves l)) by (unfold l; halves_in). destruct (new_cdf scipy1 (halves l) scipy1_fill Hl) as (e & Hm & Hn & Hq).
  rewrite halves_npdf in Hq. exists scipy1, e. eexists. split; [apply scipy1_fill|]. split; [apply logistic_laws|]. split; [exact Hq|]. split; [unfold proper_class; rewrite Hn; split; discriminate|].
  cbn [seq map nth]. rewrite !halves_cdf by (simpl; try lia; lra). simpl. destruct (Rle_dec (1/2) 1); [|lra]. repeat (f_equal; try lra).
Qed.
Lemma c102_example : prob_grid [0; 1/2; 1] /\ (forall p, In p (pit_grid [1/2; 1/2; 1/2] [0; 1/2; 1]) -> p = 0 \/ / 2 ^ 52 < p) /\
  pit_table [1 # 4; 1 # 8; 3 # 8]%Q [0; 1 # 2; 1]%Q = Ok ([0; 1 # 2; 1], [1 # 8; 1 # 4; 3 # 8])%Q.
Proof.
  split; [split; [repeat constructor; lra|intros p [<-|[<-|[<-|[]]]]; lra]|]. split.
  - assert (/ 2 ^ 52 < 1 / 2) by lra. intros p [<-|[<-|[<-|[]]]]; [left; reflexivity|right; lra|right; lra].
  - vm_compute. reflexivity.
Qed.
(** Three true values outside the bins *)
Lemma c102_empty_example : exists X e F, fill_outside X /\ has_cdf X e 3 F /\ forall r, (r < 3)%nat -> F r (nth r [0; 0; 0] 0) = 0.
Proof.
  set (l := [1/2; 1/4; 3/4]). assert (Hl : input_ok (halves l)) by (unfold l; halves_in). destruct (new_cdf scipy1 (halves l) scipy1_fill Hl) as (e & Hm & Hn & Hq).
  rewrite halves_npdf in Hq. exists scipy1, e. eexists. split; [apply scipy1_fill|]. split; [exact Hq|]. intros r Hr.
  replace (nth r [0; 0; 0] 0) with 0 by (destruct r as [|[|[|[|]]]]; reflexivity). rewrite halves_cdf by (simpl; try lia; lra). destruct (Rle_dec 0 1); lra.
Qed.
Lemma c102_one_example : exists X e F, fill_outside X /\ has_cdf X e 1 F.
Proof. destruct (halves_reference [1/2]) as (q & _ & Hq & _); [discriminate|each|]. exists scipy1, q. eexists. split; [apply scipy1_fill|exact Hq]. Qed.
