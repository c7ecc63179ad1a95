(** Profiles: C52, C105. *)
From Coq Require Import QArith List Arith ZArith Bool Sorted Lia Reals Lra.
From Verif Require Import Num NumProofs Py NdArray NumpyLib Utils ScipyWrap Spec Profile
  SortProofs EvalProofs NdProofs InterpProofs BinProofs HistProofs PitTheorems ProfileTheorems.
Import ListNotations.
Local Open Scope list_scope.
Local Open Scope R_scope.

(** C52, partial: bins whose widths are equal or clearly unequal, no x on an edge: entry i is the mean and the spread of exactly the y
    whose x is in bin i, the mean lies between the smallest and the largest, an empty bin is NaN.  Missing: x on an edge (C105 says which bin counts
    it) and bins whose widths are equal only within the tolerance of numpy (C52_tiny_refuted). *)
Theorem C52_profile_partial : forall xs ys bins std, increasing bins -> (2 <= length bins)%nat -> sound_bins bins -> length xs = length ys -> (forall x, In x xs -> ~ In x bins) ->
  exists vals errs, profile sqrt xs ys bins std = Ok (vals, errs) /\ length vals = pred (length bins) /\ length errs = pred (length bins) /\
  forall i, (i < pred (length bins))%nat -> exists l, picked (inside_bin bins i) xs ys l /\ profile_entry l std (nth i vals NaN) (nth i errs NaN) /\
    forall a b m, (forall y, In y l -> a <= y <= b) -> nth i vals NaN = Fin m -> a <= m <= b.
Proof. exact c52_profile. Qed.

(** C52 is false for bins 0, 1e-9, 3e-9: the value at 2.5e-9 is in the second bin and is not counted, the bin is reported empty. *)
Theorem C52_tiny_refuted : exists xs ys bins i x, increasing bins /\ (2 <= length bins)%nat /\ length xs = length ys /\ (i < pred (length bins))%nat /\ In x xs /\ inside_bin bins i x /\
  exists vals errs, profile sqrt xs ys bins true = Ok (vals, errs) /\ nth i vals NaN = NaN.
Proof. exact c52_tiny_refuted. Qed.

(** C105: for all increasing bins, entry i is the mean and the spread of exactly the y whose x is counted in bin i. *)
Theorem C105_table : forall xs ys bins std, increasing bins -> (2 <= length bins)%nat -> length xs = length ys ->
  exists vals errs, profile sqrt xs ys bins std = Ok (vals, errs) /\ length vals = pred (length bins) /\ length errs = pred (length bins) /\
  forall i, (i < pred (length bins))%nat -> exists l, picked (counted bins i) xs ys l /\ profile_entry l std (nth i vals NaN) (nth i errs NaN).
Proof. exact c105_table. Qed.

(** C105: no value is counted in two bins. *)
Theorem C105_once : forall bins i j x, increasing bins -> (2 <= length bins)%nat -> (i < pred (length bins))%nat -> (j < pred (length bins))%nat -> counted bins i x -> counted bins j x -> i = j.
Proof. exact c105_once. Qed.

(** C105: the mean of a bin lies between any bounds of the values counted in it. *)
Theorem C105_between : forall xs ys bins std vals errs i a b, increasing bins -> (2 <= length bins)%nat -> length xs = length ys -> (i < pred (length bins))%nat ->
  profile sqrt xs ys bins std = Ok (vals, errs) -> (forall x y, In (x, y) (combine xs ys) -> counted bins i x -> a <= y <= b) ->
  nth i vals NaN = NaN \/ exists m, nth i vals NaN = Fin m /\ a <= m <= b.
Proof. exact c105_between. Qed.

(** C105: fewer than two edges are rejected. *)
Theorem C105_short : forall xs ys bins std, (length bins < 2)%nat -> profile sqrt xs ys bins std = Err IndexError.
Proof. exact c105_short. Qed.

(** C105: x and y of different lengths are rejected as soon as one x is counted. *)
Theorem C105_lengths : forall xs ys bins std x i, increasing bins -> (2 <= length bins)%nat -> length xs <> length ys -> In x xs -> (i < pred (length bins))%nat -> counted bins i x ->
  profile sqrt xs ys bins std = Err IndexError.
Proof. exact c105_lengths. Qed.

(** (two unequal bins, four points, one of them outside) *)
Example C105_example : increasing [0; 1; 3] /\ sound_bins [0; 1; 3] /\ (forall x, In x [1 / 2; 2; 5 / 2; 7] -> ~ In x [0; 1; 3]) /\
  exists vals errs, profile sqrt [1 / 2; 2; 5 / 2; 7] [4; 1; 3; 9] [0; 1; 3] true = Ok (vals, errs) /\ nth 1 vals NaN = Fin 2 /\ nth 1 errs NaN = Fin 1.
Proof. exact c105_example. Qed.

Print Assumptions C52_profile_partial.
Print Assumptions C52_tiny_refuted.
Print Assumptions C105_table.
Print Assumptions C105_once.
Print Assumptions C105_between.
Print Assumptions C105_short.
Print Assumptions C105_lengths.
