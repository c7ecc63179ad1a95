(** Model of the risk based point estimates: qp/metrics/array_metrics.py 106-143, qp/metrics/metrics.py 178-217 and
    qp/metrics/concrete_metric_classes.py 114-124. *)
From Coq Require Import String List Arith ZArith Bool.
From Verif Require Import Num Py NdArray NumpyLib ScipyWrap Values Ensemble.
Import ListNotations.

Section Rbpe.
  Context {T : Type} {N : Num T}.
  Local Open Scope num_scope.
  Variable create_of : string -> option (vdict T -> res (gobj T)).
  (** scipy.integrate.quad (the value), scipy.optimize.minimize_scalar (the place of the minimum) without arguments and with
      [bounds] and method "bounded".  An exception of the function passes through. *)
  Variable quad : (T -> res T) -> T -> T -> res T.
  Variable minimize : (T -> res T) -> res T.
  Variable minimize_within : (T -> res T) -> T -> T -> res T.

  (** array_metrics.py 127-128 [calculate_loss] *)
  Definition calculate_loss (x : T) : T :=
    let y := x / (nofZ 15 / nofZ 100) in n1 - n1 / (n1 + y * y).
  (** 133-137 [find_z_risk].  SIMPLIFICATION: the integrand at exactly z = -1 (division by zero) is not modelled. *)
  Definition find_z_risk (pdf_function : T -> res T) (lower upper zp : T) : res T :=
    quad (fun z => let* p := pdf_function z in
                   let d := n1 + z in
                   if d =? n0 then Err NotModelled else Ok (p * calculate_loss ((zp - z) / d))) lower upper.
  (** scipy: [minimize_scalar(f, bounds, method="bounded")] refuses bounds that are not finite and a lower bound above the
      upper one.  TRUSTED: scipy. *)
  Definition minimize_bounded (f : T -> res T) (lo hi : xnum T) : res T :=
    match lo, hi with
    | Fin a, Fin b => if a <=? b then minimize_within f a b else Err ValueError
    | _, _ => Err ValueError
    end.
  (** 106-143 [quick_rbpe] *)
  Definition quick_rbpe (pdf_function : T -> res T) (lower upper : T) (limits : xnum T * xnum T) : res T :=
    match fst limits with
    | PInf => minimize (find_z_risk pdf_function lower upper)                                   (* 139-140 *)
    | lo => minimize_bounded (find_z_risk pdf_function lower upper) lo (snd limits)             (* 141-143 *)
    end.

  (** [t[0][0]] of an array of numbers.  SIMPLIFICATION: a value that is not finite is not modelled here. *)
  Definition first_value (t : list (list (xnum T))) : res T :=
    match t with (Fin x :: _) :: _ => Ok x | (_ :: _) :: _ => Err NotModelled | _ => Err IndexError end.
  (** metrics.py 200-201 [evaluate_pdf_at_z] *)
  Definition evaluate_pdf_at_z (dist : ens T) (z : T) : res T := let* t := ens_pdf dist (PScalar z) in first_value t.
  (** 203-215: the body of the loop for PDF [n] *)
  Definition rbpe_of (p : ens T) (limits : xnum T * xnum T) (n : nat) : res T :=
    let* d := getitem create_of p (KInt (Z.of_nat n)) in                                        (* 204, 210, 211 *)
    if negb (e_npdf d =? 1)%nat then Err ValueError else                                        (* 205-208 *)
    let* tl := ens_ppf d (PScalar (n1 / nofZ 100)) in let* lower := first_value tl in
    let* tu := ens_ppf d (PScalar (nofZ 99 / nofZ 100)) in let* upper := first_value tu in      (* 211 *)
    quick_rbpe (evaluate_pdf_at_z d) lower upper limits.                                        (* 213-215 *)
  (** 178-217 [calculate_rbpe] *)
  Definition calculate_rbpe (p : ens T) (limits : xnum T * xnum T) : res (list T) := mapM (rbpe_of p limits) (seq 0 (e_npdf p)).
End Rbpe.
