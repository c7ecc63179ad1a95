(** Small vocabulary for the statements of the final theorems: indexed sums and
    the meaning of "the ensemble evaluates to F". *)
From Coq Require Import List Arith ZArith Reals.
From Verif Require Import Num Py ScipyWrap.
Import ListNotations.
Local Open Scope R_scope.

(** f 0 + ... + f (n-1) *)
Fixpoint rsum (n : nat) (f : nat -> R) : R :=
  match n with O => 0 | S k => rsum k f + f k end.

(** A public evaluation method [ens_f] (such as [ens.pdf]) of an ensemble of [npdf]
    PDFs computes [F r x] for PDF [r] at every real number [x]. *)
Definition evaluates (ens_f : points R -> res (list (list (xnum R)))) (npdf : nat)
           (F : nat -> R -> R) : Prop :=
  forall x, ens_f (PScalar x) = Ok (map (fun r => [Fin (F r x)]) (seq 0 npdf)).
(** The same for points in an open interval (probabilities in (0,1) for ppf). *)
Definition evaluates_on (lo hi : R) (ens_f : points R -> res (list (list (xnum R)))) (npdf : nat)
           (F : nat -> R -> R) : Prop :=
  forall x, lo < x < hi -> ens_f (PScalar x) = Ok (map (fun r => [Fin (F r x)]) (seq 0 npdf)).

(** The table with one line per PDF and one column per point. *)
Definition table (npdf : nat) (F : nat -> R -> xnum R) (xs : list R) : res (list (list (xnum R))) :=
  Ok (map (fun r => map (F r) xs) (seq 0 npdf)).
Definition fin (F : nat -> R -> R) (r : nat) (x : R) : xnum R := Fin (F r x).
(** scipy's convention for probabilities outside the open interval (0,1) *)
Definition with_ends (Q : nat -> R -> R) (r : nat) (p : R) : xnum R :=
  if Rlt_dec 0 p then
    if Rlt_dec p 1 then Fin (Q r p) else if Req_EM_T p 1 then PInf else NaN
  else if Req_EM_T p 0 then NInf else NaN.
