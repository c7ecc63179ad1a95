(** C147: the conditional density loss when the numbers of PDFs and of references differ.  [has_density]: MetricsProofs.v; [trapezoid]: BrierProofs.v;
    [nearest_point], [square_integral]: CdeTheorems.v. *)
From Coq Require Import String List Arith ZArith Bool Lia Reals Lra.
From Verif Require Import Num NumProofs Py NdArray NumpyLib Utils ScipyWrap Spec Values Ensemble Classes
  SortProofs InterpProofs HistTheorems QuantTheorems MixmodTheorems Kinds EnsembleProofs KindInputs ReachProofs EnsembleTheorems IntegrateTheorems
  Hdf5Theorems Metrics MetricsProofs BrierProofs KldProofs MetricsTheorems MetricsExamples CdeTheorems.
Import ListNotations.
Local Open Scope string_scope.
Local Open Scope list_scope.
Local Open Scope R_scope.

(** C147: one reference is compared with every PDF, and accumulating gives the same. *)
Theorem C147_one_truth : forall X e m f xs z, fill_outside X -> has_density X e m f -> increasing xs -> xs <> [] ->
  exists x, nearest_point xs z x /\
    let loss := rsum m (fun j => square_integral xs (f j)) / INR m - 2 * (rsum m (fun j => f j x) / INR m) in
    cde_evaluate xs e [z] = Ok (Fin loss) /\ exists t, cde_accumulate xs e [z] = Ok t /\ cde_finalize [t] = Ok (Fin loss).
Proof. exact c147_one_truth. Qed.

(** C147: one PDF is compared with every reference; [evaluate] uses the mean of the densities, accumulating and finalising their sum. *)
Theorem C147_one_pdf : forall X e f xs ref, fill_outside X -> has_density X e 1 f -> increasing xs -> xs <> [] -> ref <> [] ->
  exists pts, length pts = length ref /\ (forall i, (i < length ref)%nat -> nearest_point xs (nth i ref 0) (nth i pts 0)) /\
    let total := rsum (length ref) (fun i => f 0%nat (nth i pts 0)) in
    cde_evaluate xs e ref = Ok (Fin (square_integral xs (f 0%nat) - 2 * (total / INR (length ref)))) /\
    exists t, cde_accumulate xs e ref = Ok t /\ cde_finalize [t] = Ok (Fin (square_integral xs (f 0%nat) - 2 * total)).
Proof. exact c147_one_pdf. Qed.

(** C147: other unequal numbers raise an IndexError. *)
Theorem C147_refused : forall X e m f xs ref, fill_outside X -> has_density X e m f -> increasing xs -> xs <> [] -> length ref <> m -> length ref <> 1%nat -> m <> 1%nat ->
  cde_evaluate xs e ref = Err IndexError /\ cde_accumulate xs e ref = Err IndexError.
Proof. exact c147_refused. Qed.

(** C147: one PDF and no reference give NaN. *)
Theorem C147_none : forall X e f xs, fill_outside X -> has_density X e 1 f -> increasing xs -> xs <> [] -> cde_evaluate xs e [] = Ok NaN.
Proof. exact c147_none. Qed.

(** C147: one PDF and two references for which [evaluate] and accumulation differ by 1. *)
Theorem C147_differs : exists e f xs ref a b t, fill_outside scipy0 /\ has_density scipy0 e 1 f /\ increasing xs /\ length ref = 2%nat /\
  cde_evaluate xs e ref = Ok (Fin a) /\ cde_accumulate xs e ref = Ok t /\ cde_finalize [t] = Ok (Fin b) /\ b = a - 1.
Proof. exact c147_differs. Qed.

Example C147_example : exists e f xs (ref : list R), fill_outside scipy0 /\ has_density scipy0 e 2 f /\ increasing xs /\ xs <> [] /\ length ref <> 2%nat /\ length ref <> 1%nat.
Proof. exact c147_example. Qed.

Example C147_one_example : exists e f xs (ref : list R), fill_outside scipy0 /\ has_density scipy0 e 1 f /\ increasing xs /\ xs <> [] /\ ref <> [] /\ length ref = 2%nat.
Proof. exact c147_one_example. Qed.

Print Assumptions C147_one_truth.
Print Assumptions C147_one_pdf.
Print Assumptions C147_refused.
Print Assumptions C147_none.
Print Assumptions C147_differs.
