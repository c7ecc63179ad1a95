(** C157: grid points that lie on the line between their neighbours.  [ins k v l] ([v] put in front of position [k]), [on_line], [between]: KnotTheorems.v;
    [interp_input]: GridTheorems.v; [irr_input]: IrrTheorems.v; [input_dict]: KindInputs.v; [on_points]: EnsembleTheorems.v. *)
From Coq Require Import String List Arith ZArith Bool Lia Reals Lra.
From Verif Require Import Num NumProofs Py NdArray NumpyLib Utils ScipyWrap Spec Values Ensemble Classes BinProofs GridTheorems IrrTheorems
  Kinds KindProofs EnsembleProofs KindInputs ReachProofs EnsembleTheorems ConvertTheorems KnotTheorems.
Import ListNotations.
Local Open Scope string_scope.
Local Open Scope list_scope.
Local Open Scope R_scope.

(** C157: an additional point on the line changes no density of qp.interp, and no cdf outside the interval it splits (above it, if it is the first). *)
Theorem C157_interp : forall X xs rows k z, fill_outside X -> interp_input xs rows -> between xs k z ->
  exists e e', ens_new (create_of (qp X) "interp") (input_dict (IInterp xs rows)) None = Ok e /\
    ens_new (create_of (qp X) "interp") (input_dict (IInterp (ins k z xs) (map (fun row => ins k (on_line xs row k z) row) rows))) None = Ok e' /\
    (forall p, on_points p -> ens_pdf e' p = ens_pdf e p) /\
    (forall x, nth0 k xs <= x \/ (2 <= k)%nat /\ x <= nth0 (pred k) xs -> ens_cdf e' (PScalar x) = ens_cdf e (PScalar x)).
Proof. exact c157_interp. Qed.

(** C157: a point in the first interval does change the cdf at the lower end. *)
Theorem C157_first : exists X xs rows z e e' y y', fill_outside X /\ interp_input xs rows /\ between xs 1 z /\
  ens_new (create_of (qp X) "interp") (input_dict (IInterp xs rows)) None = Ok e /\
  ens_new (create_of (qp X) "interp") (input_dict (IInterp (ins 1 z xs) (map (fun row => ins 1 (on_line xs row 1 z) row) rows))) None = Ok e' /\
  ens_cdf e (PScalar (nth0 0 xs)) = Ok [[Fin y]] /\ ens_cdf e' (PScalar (nth0 0 xs)) = Ok [[Fin y']] /\ y <> y'.
Proof. exact c157_first. Qed.

(** C157: for qp.interp_irregular an additional point on the line changes the density. *)
Theorem C157_irregular : exists X xs row z e e' x y y', fill_outside X /\ irr_input (length xs) [xs] [row] /\ between xs 1 z /\
  ens_new (create_of (qp X) "interp_irregular") (input_dict (IIrr (length xs) [xs] [row])) None = Ok e /\
  ens_new (create_of (qp X) "interp_irregular") (input_dict (IIrr (S (length xs)) [ins 1 z xs] [ins 1 (on_line xs row 1 z) row])) None = Ok e' /\
  ens_pdf e (PScalar x) = Ok [[Fin y]] /\ ens_pdf e' (PScalar x) = Ok [[Fin y']] /\ y <> y'.
Proof. exact c157_irregular. Qed.

Example C157_example : exists xs rows k z, interp_input xs rows /\ between xs k z /\ (2 <= k)%nat /\ length rows = 2%nat /\ on_line xs (nth 0 rows []) k z <> on_line xs (nth 1 rows []) k z.
Proof. exact c157_example. Qed.

Print Assumptions C157_interp.
Print Assumptions C157_first.
Print Assumptions C157_irregular.
