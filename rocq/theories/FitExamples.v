(** Ensembles that meet the hypotheses of the goodness-of-fit theorems, and the counterexamples. *)
From Coq Require Import QArith String List Arith ZArith Bool Lia Reals Lra Sorted Permutation.
From Verif Require Import Num NumProofs PairwiseProofs Py NdArray NumpyLib Utils ScipyWrap Spec Values Ensemble Classes
  HistPdf SortProofs BinProofs EvalProofs EvalTheorems NdProofs InterpProofs HistProofs HistTheorems QuantTheorems MixmodTheorems
  Kinds KindProofs EnsembleProofs KindInputs ReachProofs RowProofs EnsembleTheorems IntegrateTheorems ConvertTheorems
  Hdf5 Hdf5Theorems Metrics MetricsProofs MetricsTheorems MetricsExamples MatrixTheorems QuantPdf Fit FitProofs FitTheorems.
Import ListNotations.
Local Open Scope string_scope.
Local Open Scope list_scope.
Local Open Scope R_scope.

Lemma new_cdf X i : fill_outside X -> input_ok i ->
  exists e, made X (input_methods i) e /\ g_name (e_obj e) = input_name i /\
    has_cdf X e (input_npdf i) (fun j => cdf_of X (input_kind i) (nth j (input_rows i) [])).
Proof.
  intros HX Hi. destruct (created X i HX Hi) as (e & E & Hm & HD & Hsh & Hn & _). exists e. split; [exact Hm|]. split; [exact Hn|].
  assert (En : e_npdf e = input_npdf i) by (unfold e_npdf, g_npdf; rewrite Hsh; unfold prod; simpl; lia).
  split; [exists (input_methods i); exact Hm|]. split; [exact En|]. rewrite <- En.
  apply (rep_computes X (input_kind i) (input_rows i) e MCdf _ HD); [apply cdf_in|apply cdf_fin].
Qed.
Lemma halves_cdf X l j x : (j < length l)%nat -> 0 <= x <= 2 -> cdf_of X (input_kind (halves l)) (nth j (input_rows (halves l)) []) x =
  if Rle_dec x 1 then nth j l 0 * x else nth j l 0 + (1 - nth j l 0) * (x - 1).
Proof.
  intros Hj Hx. unfold halves. cbn [input_kind input_rows]. rewrite map_map. set (G := fun a : R => [Nums (hist_norm_row (bin_widths [0; 1; 2]) [a; 1 - a])]).
  rewrite (nth_indep (map G l) [] (G 0)) by (rewrite map_length; exact Hj). rewrite (map_nth G).
  unfold cdf_of, G. cbn [val num_at cell_at nth nums]. set (a := nth j l 0).
  assert (Ec : hist_cdf_row (bin_widths [0; 1; 2]) (hist_norm_row (bin_widths [0; 1; 2]) [a; 1 - a]) = [0; a; 1]).
  { rewrite hist_norm_row_R. unfold hist_cdf_row. cbn. replace (a * (1 - 0) + ((1 - a) * (2 - 1) + 0)) with 1 by ring. repeat f_equal; field. }
  rewrite Ec. assert (Hi : increasing [0; 1; 2]) by (repeat constructor; lra). destruct (Rle_dec x 1) as [L|L].
  - rewrite (interp1d_closed [0; 1; 2] [0; a; 1] 0 1 x 0 Hi) by (cbn; try lia; unfold nth0; cbn; lra). unfold seg, nth0. cbn. field.
  - rewrite (interp1d_closed [0; 1; 2] [0; a; 1] 0 1 x 1 Hi) by (cbn; try lia; unfold nth0; cbn; lra). unfold seg, nth0. cbn. field.
Qed.

(** ** Counterexamples, by computation *)
(** Two identical histograms on the bins 0, 1, 2; the samples of PDF 0 are 1/2, 1/2 and those of PDF 1 are 3/2, 3/2:
    there are as many different values as samples per PDF, and both PDFs are evaluated at 1/2, 3/2.  All samples of
    PDF 0 are at or below 1/2 where its distribution function is 1/4, so the true distance is at least 3/4. *)
Definition two_hists : res (ens Q) :=
  ens_new hist_create [("bins", VArr (nd1 [0; 1; 2]%Q)); ("pdfs", VArr (nd2 2 [[1; 1]; [1; 1]]%Q))] None.
Lemma fit_ties_refuted : exists q : ens Q, two_hists = Ok q /\
  ens_cdf q (PScalar (1 # 2)%Q) = Ok [[Fin (1 # 4)]; [Fin (1 # 4)]]%Q /\
  calculate_goodness_of_fit (fun x => x) [[1 # 2; 1 # 2]; [3 # 2; 3 # 2]]%Q q "ks" = Ok [Fin (1 # 4); Fin (1 # 4)]%Q /\
  calculate_goodness_of_fit (fun x => x) [[1 # 2; 1 # 2]; [3 # 2; 3 # 2]]%Q q "cvm" = Ok [Fin (1 # 24); Fin (1 # 24)]%Q.
Proof. eexists. split; [reflexivity|]. vm_compute. auto. Qed.

(** ** Examples *)
Ltac halves_in := apply halves_ok; [discriminate|each].
Lemma halves_reference l : l <> [] -> List.Forall (fun a => 0 <= a <= 1) l -> exists q, made scipy1 (input_methods (halves l)) q /\
  has_cdf scipy1 q (length l) (fun j => cdf_of scipy1 (input_kind (halves l)) (nth j (input_rows (halves l)) [])) /\
  forall r, (r < length l)%nat -> cdf_like (cdf_of scipy1 (input_kind (halves l)) (nth r (input_rows (halves l)) [])).
Proof.
  intros Hne Hl. destruct (new_cdf scipy1 (halves l) scipy1_fill (halves_ok l Hne Hl)) as (q & Hm & Hn & Hq). rewrite halves_npdf in Hq.
  exists q. split; [exact Hm|]. split; [exact Hq|].
  apply (reachable_cdf_like scipy1 q (length l) _ scipy1_fill logistic_laws Hq). unfold proper_class. rewrite Hn. split; discriminate.
Qed.
(** Two different histograms, three samples of each *)
Lemma c42_example : exists X q F, fill_outside X /\ has_cdf X q 2 F /\ (forall r, (r < 2)%nat -> cdf_like (F r)) /\
  F 0%nat (1/4) <> F 1%nat (1/4) /\
  let S := [[3/2; 1/2; 1/4]; [1; 1/8; 1/2]] in length S = 2%nat /\ (forall s, In s S -> length s = 3%nat /\ NoDup s).
Proof.
  destruct (halves_reference [1/2; 1/4]) as (q & _ & Hq & HF); [discriminate|each|]. exists scipy1, q. eexists. split; [apply scipy1_fill|].
  split; [exact Hq|]. split; [exact HF|]. split.
  - rewrite !halves_cdf by (simpl; try lia; lra). simpl. destruct (Rle_dec (1/4) 1); lra.
  - cbv zeta. split; [reflexivity|]. intros s [<-|[<-|[]]]; (split; [reflexivity|]);
      repeat (constructor; [cbn [In]; intros H; repeat (destruct H as [H|H]; [lra|]); exact H|]); constructor.
Qed.
Lemma sorted_two a b : a <= b -> np_sort [b; a] = [a; b].
Proof. intros H. transitivity (np_sort [a; b]); [apply np_sort_perm_eq; apply perm_swap|]. apply np_sort_id. constructor; [repeat constructor|]. constructor; auto. Qed.
(** The uniform density on [0,2] and the samples 3/2, 1/2: the statistics take their least values 1/4 and 1/24 *)
Lemma c99_example : exists X q F, fill_outside X /\ has_cdf X q 1 F /\ cdf_like (F 0%nat) /\
  calculate_goodness_of_fit ln [[3/2; 1/2]] q "ks" = Ok [Fin (1/4)] /\ calculate_goodness_of_fit ln [[3/2; 1/2]] q "cvm" = Ok [Fin (1/24)].
Proof.
  destruct (halves_reference [1/2]) as (q & _ & Hq & HF); [discriminate|each|]. cbn [length] in Hq, HF.
  set (F := fun j => cdf_of scipy1 (input_kind (halves [1/2])) (nth j (input_rows (halves [1/2])) [])) in *.
  exists scipy1, q, F. split; [apply scipy1_fill|].
  split; [exact Hq|]. split; [apply HF; lia|].
  assert (F1 : F 0%nat (1/2) = 1/4) by (unfold F; rewrite halves_cdf by (simpl; try lia; lra); destruct (Rle_dec (1/2) 1); [|lra]; simpl; lra).
  assert (F2 : F 0%nat (3/2) = 3/4) by (unfold F; rewrite halves_cdf by (simpl; try lia; lra); destruct (Rle_dec (3/2) 1); [lra|]; simpl; lra).
  assert (E : forall name stat, fit_metrics ln name = Some stat -> calculate_goodness_of_fit ln [[3/2; 1/2]] q name = let* v := stat [1/4; 3/4] in Ok [v]).
  { intros name stat Es. unfold calculate_goodness_of_fit. rewrite Es. cbn [sorted_squeezed bind]. rewrite (cdf_sorted scipy1 q 1 _ _ scipy1_fill Hq). cbn [bind table seq map mapM].
    rewrite sorted_two by lra. cbn [map fin xval]. rewrite F1, F2. destruct (stat [1/4; 3/4]); reflexivity. }
  split; [rewrite (E "ks" ks_line eq_refl)|rewrite (E "cvm" cvm_line eq_refl)].
  - unfold ks_line, compute_dplus, compute_dminus. cbn [length seq map2 line_max fold_left bind]. rewrite !nmax_R, !of_nat_INR. numR. cbn [INR].
    do 2 f_equal. f_equal. unfold Rmax. repeat destruct (Rle_dec _ _); lra.
  - unfold cvm_line. cbn [length Nat.eqb bind seq map2]. rewrite !nsum_cons, nsum_nil, !of_nat_INR. numR. do 2 f_equal. f_equal. simpl INR. lra.
Qed.
(** One sample of each of three PDFs, compared with two references *)
Lemma c100_example : exists X q F, fill_outside X /\ has_cdf X q 2 F /\ (forall r, (r < 2)%nat -> cdf_like (F r)) /\
  let S := [[3/2]; [1/2]; [1/2]] in (2 <= length S)%nat /\ (forall s, In s S -> length s = 1%nat).
Proof.
  destruct (halves_reference [1/2; 1/4]) as (q & _ & Hq & HF); [discriminate|each|]. exists scipy1, q. eexists. split; [apply scipy1_fill|].
  split; [exact Hq|]. split; [exact HF|]. split; [cbn; lia|]. intros s [<-|[<-|[<-|[]]]]; reflexivity.
Qed.
(** Matrices: two different histograms; an unsorted matrix with repeated values *)
Lemma c98_example : exists X M e v, fill_outside X /\ made X M e /\ In MCdf M /\ at_numbers e MCdf v /\ e_npdf e = 2%nat /\
  let Y := [[3/2; 1/2; 1/4]; [1; 1/8; 1/2]] in matrix_of Y 3 /\ allowed MCdf (concat Y) /\ distinct (concat Y) <> 3%nat /\
  evaluate MCdf e (PMat Y) = Ok [[Fin (3/4); Fin (1/4); Fin (1/8)]; [Fin (1/4); Fin (1/32); Fin (1/8)]].
Proof.
  destruct (halves_reference [1/2; 1/4]) as (q & Hm & Hq & HF); [discriminate|each|]. cbn [length] in Hq, HF.
  set (F := fun j => cdf_of scipy1 (input_kind (halves [1/2; 1/4])) (nth j (input_rows (halves [1/2; 1/4])) [])) in *.
  destruct (has_cdf_numbers scipy1 q 2 F scipy1_fill Hq) as (M & HM & Hin & Hn & Hv).
  exists scipy1, M, q, (fin F). split; [apply scipy1_fill|]. split; [exact HM|]. split; [exact Hin|]. split; [exact Hv|]. split; [exact Hn|].
  cbv zeta. assert (HY : matrix_of [[3/2; 1/2; 1/4]; [1; 1/8; 1/2]] 3).
  { split; [lia|]. split; [discriminate|]. intros l [<-|[<-|[]]]; reflexivity. }
  assert (Hd : distinct (concat [[3/2; 1/2; 1/4]; [1; 1/8; 1/2]]) <> 3%nat).
  { intros E. assert (N4 : NoDup [3/2; 1/4; 1; 1/8]) by (repeat (constructor; [cbn [In]; intros H; repeat (destruct H as [H|H]; [lra|]); exact H|]); constructor).
    pose proof (NoDup_incl_length N4 (l' := nodup Req_EM_T (concat [[3/2; 1/2; 1/4]; [1; 1/8; 1/2]]))) as HI. unfold distinct in E. rewrite E in HI. cbn [length] in HI.
    assert (4 <= 3)%nat; [|lia]. apply HI. intros x Hx. apply nodup_In. cbn [concat app In] in *. tauto. }
  split; [exact HY|]. split; [apply allowed_cdf|]. split; [exact Hd|].
  rewrite (c98_per_pdf scipy1 M q MCdf (fin F) _ 3 scipy1_fill HM Hin Hv (allowed_cdf _) HY) by (rewrite ?Hn; auto). rewrite Hn. cbn [seq map nth]. unfold fin, F.
  rewrite !halves_cdf by (simpl; try lia; lra). cbn [nth]. repeat (destruct (Rle_dec _ _); try (exfalso; lra)). repeat match goal with |- Ok _ = Ok _ => f_equal | |- cons _ _ = cons _ _ => f_equal | |- Fin _ = Fin _ => f_equal end; lra.
Qed.
