(** C142: selecting PDFs of a histogram ensemble in double precision.  Every selection builds a new ensemble and so normalises the stored values again.
    [picks]: EnsembleTheorems.v; [double], [answers], [zero64]: FloatTheorems.v; [modest], [area], [normalisable]: FloatNorm.v; [wide_edges], [reports], [chosen], [hist_args]: FloatSliceTheorems.v. *)
From Coq Require Import String List Arith ZArith Bool Lia Reals Lra Floats.SpecFloat.
From Flocq Require Import Core.Zaux Core.Raux.
From Verif Require Import Num Py NdArray NumpyLib ScipyWrap Values Ensemble Classes HistPdf Spec Kinds EnsembleProofs EnsembleTheorems Float FloatProofs FloatHist FloatMachine FloatTheorems FloatExamples FloatNorm FloatSlice FloatSliceTheorems.
Import ListNotations.
Local Open Scope string_scope.
Local Open Scope list_scope.
Local Open Scope R_scope.

(** C142: after m selections every stored value differs from the value before by at most 3 (edges + m + 2) 2^-51 of it, and the area is 1 up to (edges + 3) 2^-51. *)
Theorem C142_drift : forall cc edges rows anc e m e' ps, cc "hist" = Some (hist_create (N := SFNum)) -> wide_edges edges -> (forall row, In row rows -> normalisable edges row) ->
  ens_new (create_of cc "hist") (hist_args edges rows) anc = Ok e -> chosen cc m e e' ps -> INR m <= 2 ^ 40 ->
  exists given now, reports e (pred (length edges)) given /\ reports e' (pred (length edges)) now /\ length given = length rows /\ length now = length ps /\
    forall r, (r < length ps)%nat -> (nth r ps 0 < length rows)%nat /\ Rabs (area edges (nth r now []) - 1) <= INR (length edges + 3) / 2 ^ 51 /\
      forall i, (S i < length edges)%nat -> let before := val64 (nth i (nth (nth r ps 0%nat) given []) zero64) in let after := val64 (nth i (nth r now []) zero64) in
        0 <= before /\ Rabs (after - before) <= 3 * INR (length edges + m + 2) / 2 ^ 51 * before + / 2 ^ 1000.
Proof. exact c142_drift. Qed.

(** C142: every selection succeeds, after any number of selections. *)
Theorem C142_succeeds : forall cc edges rows e m e' ps key qs, cc "hist" = Some (hist_create (N := SFNum)) -> wide_edges edges -> (forall row, In row rows -> normalisable edges row) ->
  ens_new (create_of cc "hist") (hist_args edges rows) None = Ok e -> chosen cc m e e' ps -> picks (length ps) key qs -> exists e2, getitem cc e' key = Ok e2.
Proof. exact c142_succeeds. Qed.

(** C142: the values do change: the histogram 1, 3 on the edges 0, 1, 4 and its selection differ at 1/2. *)
Theorem C142_changes : exists e e' x v v', ens_new (create_of only_hist "hist") (hist_args s_edges [s_row]) None = Ok e /\ getitem only_hist e (KInt 0) = Ok e' /\
  val64 x = / 2 /\ answers (ens_pdf e (PScalar x)) 1 v /\ answers (ens_pdf e' (PScalar x)) 1 v' /\ val64 (v 0%nat) = val64 (v' 0%nat) + / 2 ^ 56.
Proof. exact c142_changes. Qed.

Example C142_example : only_hist "hist" = Some (hist_create (N := SFNum)) /\ wide_edges s_edges /\ normalisable s_edges s_row /\ normalisable s_edges s_row' /\
  exists e e', ens_new (create_of only_hist "hist") (hist_args s_edges [s_row; s_row']) None = Ok e /\ chosen only_hist 2 e e' [1%nat].
Proof. exact c142_example. Qed.

Print Assumptions C142_drift.
Print Assumptions C142_succeeds.
Print Assumptions C142_changes.
