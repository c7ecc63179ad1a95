(** C146: weights of Gaussian mixtures in double precision.  [double], [zero64]: FloatTheorems.v; [modest]: FloatNorm.v; [chosen]: FloatSliceTheorems.v;
    [picks]: EnsembleTheorems.v; [total], [weights_for], [mix_args], [reports_weights], [mixture]: FloatMixTheorems.v. *)
From Coq Require Import String List Arith ZArith Bool Lia Reals Lra Floats.SpecFloat.
From Flocq Require Import Core.Zaux Core.Raux.
From Verif Require Import Num Py NdArray NumpyLib ScipyWrap Values Ensemble Classes MixmodPdf Spec EnsembleTheorems Float FloatProofs FloatHist FloatMachine FloatTheorems FloatExamples FloatNorm FloatSliceTheorems FloatMixTheorems.
Import ListNotations.
Local Open Scope string_scope.
Local Open Scope list_scope.
Local Open Scope R_scope.

(** C146: the stored weights are finite and non-negative, add up to 1 up to (components + 4) 2^-51, and each is the given weight divided by the exact total up to (components + 4) 2^-49 of it. *)
Theorem C146_weights : forall cc phi Phi k means stds rows anc e, cc "mixmod" = Some (mixmod_create (N := SFNum) phi Phi) -> mixture k means stds rows ->
  ens_new (create_of cc "mixmod") (mix_args k means stds rows) anc = Ok e ->
  exists stored, reports_weights e k stored /\ length stored = length rows /\ forall r, (r < length rows)%nat ->
    Rabs (total (nth r stored []) - 1) <= INR (k + 4) / 2 ^ 51 /\
    forall i, (i < k)%nat -> let share := val64 (nth i (nth r rows []) zero64) / total (nth r rows []) in let x := nth i (nth r stored []) zero64 in
      fin64 x /\ 0 <= val64 x /\ Rabs (val64 x - share) <= INR (k + 4) / 2 ^ 49 * share + / 2 ^ 1073.
Proof. exact c146_weights. Qed.

(** C146: after m selections one after the other each weight differs from the one before by at most 3 (components + m + 4) 2^-51 of it. *)
Theorem C146_drift : forall cc phi Phi k means stds rows anc e m e' ps, cc "mixmod" = Some (mixmod_create (N := SFNum) phi Phi) -> mixture k means stds rows ->
  ens_new (create_of cc "mixmod") (mix_args k means stds rows) anc = Ok e -> chosen cc m e e' ps -> INR m <= 2 ^ 40 ->
  exists given now, reports_weights e k given /\ reports_weights e' k now /\ length given = length rows /\ length now = length ps /\
    forall r, (r < length ps)%nat -> (nth r ps 0 < length rows)%nat /\ Rabs (total (nth r now []) - 1) <= INR (k + 4) / 2 ^ 51 /\
      forall i, (i < k)%nat -> let before := val64 (nth i (nth (nth r ps 0%nat) given []) zero64) in let after := val64 (nth i (nth r now []) zero64) in
        0 <= before /\ 0 <= after /\ Rabs (after - before) <= 3 * INR (k + m + 4) / 2 ^ 51 * before + / 2 ^ 1000.
Proof. exact c146_drift. Qed.

(** C146: creating such mixtures succeeds, and every selection does. *)
Theorem C146_succeeds : forall cc phi Phi k means stds rows, cc "mixmod" = Some (mixmod_create (N := SFNum) phi Phi) -> mixture k means stds rows ->
  exists e, ens_new (create_of cc "mixmod") (mix_args k means stds rows) None = Ok e /\
    forall m e' ps key qs, chosen cc m e e' ps -> INR m <= 2 ^ 40 -> picks (length ps) key qs -> exists e2, getitem cc e' key = Ok e2.
Proof. exact c146_succeeds. Qed.

(** C146: the weights 2, 7, 1 are stored with a total above 1, and change when the PDF is selected. *)
Theorem C146_changes : exists e e' given now, ens_new (create_of only_mix "mixmod") (mix_args 3 [m_one] [m_one] [m_row]) None = Ok e /\ getitem only_mix e (KInt 0) = Ok e' /\
  reports_weights e 3 [given] /\ reports_weights e' 3 [now] /\ 1 < total given /\ val64 (nth 0 given zero64) = val64 (nth 0 now zero64) + / 2 ^ 55.
Proof. exact c146_changes. Qed.

Example C146_example : mixture 3 [m_one] [m_one] [m_row] /\ total m_row = 10.
Proof. exact c146_example. Qed.

Print Assumptions C146_weights.
Print Assumptions C146_drift.
Print Assumptions C146_succeeds.
Print Assumptions C146_changes.
