(** Examples for the point-estimate metrics. *)
From Coq Require Import QArith String List Arith ZArith Bool Lia Reals Lra Sorted Permutation.
From Verif Require Import Num NumProofs Py NdArray NumpyLib ScipyWrap Spec Values SortProofs EvalProofs QuantPdf FitProofs PointMetrics PointProofs PointTheorems.
Import ListNotations.
Local Open Scope list_scope.
Local Open Scope R_scope.

(** Four objects: the residuals are 1, 1, 1/2, 5. *)
Lemma c45_example :
  usable [1; 3; 2; 5] [0; 1; 1; 0] /\ residuals [1; 3; 2; 5] [0; 1; 1; 0] = [1; 1; 1 / 2; 5] /\
  moved (-2) 1 [1; 3; 2; 5] [0; 1; 1; 0] = [-1; -1; 1; -9] /\
  (point_bias [1; 3; 2; 5] [0; 1; 1; 0] = Ok (Fin 1) /\ sigma_iqr [1; 3; 2; 5] [0; 1; 1; 0] = Ok (1125 # 1349) /\
   sigma_mad [1; 3; 2; 5] [0; 1; 1; 0] = Ok (Fin (7413 # 20000)) /\ outlier_rate [1; 3; 2; 5] [0; 1; 1; 0] = Ok (1 # 4))%Q.
Proof.
  split; [split; [reflexivity|cbn; intros r Hr; lra]|]. split; [unfold residuals, residual; cbn; repeat (f_equal; try lra)|].
  split; [unfold moved; cbn; repeat (f_equal; try lra)|]. repeat split; vm_compute; reflexivity.
Qed.
Lemma c45_order_example : usable [1; 3] [0; 1] /\ usable [3; 1] [1; 0] /\ Permutation (combine [1; 3] [0; 1]) (combine [3; 1] [1; 0]).
Proof. repeat split; try (cbn; intros r Hr; lra). cbn. apply perm_swap. Qed.
Lemma c45_lengths_example : length [1; 2; 3] <> length [1; 2] /\ length [1; 2; 3] <> 1%nat /\ length [1; 2] <> 1%nat.
Proof. cbn. lia. Qed.

(** ** Chunks *)
(** The best possible digest: the sample itself.  Two chunks, the estimates 1, 1 and then 3, all references 0. *)
Lemma c46_refuted : exists ests refs : list (list Q),
  eval_from_iterator (fun l => l) (fun d => d) (fun c => c) (@app Q) np_median ests refs <> point_bias (concat ests) (concat refs) /\
  eval_from_iterator (fun l => l) (fun d => d) (fun c => c) (@app Q) (@length Q) ests refs <> Ok (length (concat ests)).
Proof. exists [[1; 1]; [3]]%Q, [[0; 0]; [0]]%Q. vm_compute. split; discriminate. Qed.
Lemma list_digest : digest_laws (fun l => l) (fun d => d) (fun c => c) (@app R) (@Permutation R).
Proof. repeat split; intros; auto. apply Permutation_app; auto. Qed.
Lemma c46_example : digest_laws (fun l => l) (fun d => d) (fun c => c) (@app R) (@Permutation R) /\ all_usable [([1; 1], [0; 0]); ([3], [0])] /\
  all_residuals [([1; 1], [0; 0]); ([3], [0])] = [1; 1; 3].
Proof.
  split; [exact list_digest|]. split; [repeat constructor; cbn; intros r Hr; lra|]. unfold all_residuals, residuals, residual. cbn. repeat (f_equal; try lra).
Qed.
Lemma c101_example : all_usable (combine [[1; 1]] [[0; 0]]) /\ usable [3] [0] /\
  eval_from_iterator (fun l => l) (fun d => d) (fun c => c) (@app Q) np_median [[1; 1]; [3]]%Q [[0; 0]; [0]]%Q = Ok (Fin 3%Q).
Proof. split; [repeat constructor; cbn; intros r Hr; lra|]. split; [split; [reflexivity|cbn; intros r Hr; lra]|]. vm_compute. reflexivity. Qed.
Lemma c101_misfit_example : all_usable (firstn 1 (combine [[1; 1]; [1; 2; 3]] [[0; 0]; [0; 0]])) /\
  length (nth 1 [[1; 1]; [1; 2; 3]] []) <> length (nth 1 [[0; 0]; [0; 0]] []).
Proof. split; [repeat constructor; cbn; intros r Hr; lra|cbn; lia]. Qed.
