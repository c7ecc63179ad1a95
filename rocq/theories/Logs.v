(** Model of Ensemble.logpdf, logcdf and logsf (ensemble.py 376-388, 404-416, 446-459).  Each calls the method of the frozen distribution.
    TRUSTED: scipy/stats/_distn_infrastructure.py (rv_continuous.logpdf, logcdf, logsf, _logpdf, _logcdf, _logsf); no class of qp overrides
    [_logpdf], [_logcdf] or [_logsf].  scipy.stats.norm overrides [_logpdf]. *)
From Coq Require Import String List Arith ZArith Bool.
From Verif Require Import Num Py NdArray NumpyLib ScipyWrap Values Ensemble Classes.
Import ListNotations.
Local Open Scope string_scope.

Section Logs.
  Context {T : Type} {N : Num T}.
  Variable nlog : T -> T.
  Local Open Scope num_scope.

  (** np.log of one number: -inf at 0 and nan below *)
  Definition np_log (v : T) : xnum T := if n0 <? v then Fin (nlog v) else if v =? n0 then NInf else NaN.
  (** [place(output, cond, values)] where the condition holds everywhere *)
  Fixpoint place_all (pts : list T) (vals : list (xnum T)) : list (xnum T) :=
    match pts, vals with
    | [], _ => []
    | _ :: ps, v :: vs => v :: place_all ps vs
    | _ :: ps, [] => NaN :: place_all ps []                      (* not reached: lengths agree *)
    end.
  (** rv_continuous.logpdf / logcdf / logsf at finite points, around the function [method] of the class: every point is inside the
      support (-inf, inf) *)
  Definition rv_log (npdf : nat) (method : nd T -> nd nat -> res (list T)) (post : T -> T) (x : points T) : res (list (list (xnum T))) :=
    let* (xs, rows) := broadcast_points npdf x in
    let xf := concat xs in
    let width := match xs with [] => 0 | l :: _ => length l end in
    let* vals := if (length xf =? 0)%nat then Ok [] else method (nd1 xf) (nd1 (flat_rows xs rows)) in
    Ok (chunks (length xs) width (place_all xf (map (fun v => np_log (post v)) vals))).
  (** [_logpdf(x) = log(self._pdf(x))], [_logcdf(x) = log(self._cdf(x))], [_logsf(x) = log(self._sf(x))] with [_sf(x) = 1.0 - self._cdf(x)] *)
  Definition rv_logpdf npdf pdf x := rv_log npdf pdf (fun v => v) x.
  Definition rv_logcdf npdf cdf x := rv_log npdf cdf (fun v => v) x.
  Definition rv_logsf npdf cdf x := rv_log npdf cdf (fun v => n1 - v) x.

  (** scipy.stats.norm: [_norm_logpdf(x) = -x**2 / 2.0 - _norm_pdf_logC], and logpdf subtracts log(scale).
      [logC] is the constant log(sqrt(2 pi)). *)
  Definition norm_logpdf (logC : T) (p : string -> T) (x : T) : xnum T :=
    let z := (x - p "loc") / p "scale" in
    if n0 <? p "scale" then Fin (n0 - z * z / nofZ 2 - logC - nlog (p "scale")) else NaN.
  (** Ensemble.logpdf of a normal ensemble *)
  Definition norm_ens_logpdf (logC : T) (e : ens T) : points T -> res (tbl T) :=
    wrap_eval (norm_logpdf logC) (g_data (e_obj e)) (e_npdf e).
End Logs.
