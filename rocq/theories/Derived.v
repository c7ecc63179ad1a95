(** Model of the methods of Ensemble that scipy derives from cdf and ppf: sf, isf, median, interval (ensemble.py 432-475, 505-507,
    537-539).  Each calls the method of the frozen distribution.
    TRUSTED: scipy/stats/_distn_infrastructure.py (rv_continuous.sf, isf; rv_generic.median, interval), no class of qp overrides
    [_sf] or [_isf]. *)
From Coq Require Import List Arith ZArith Bool.
From Verif Require Import Num Py NdArray NumpyLib ScipyWrap HistPdf InterpPdf.
Import ListNotations.

Section Derived.
  Context {T : Type} {N : Num T}.
  Local Open Scope num_scope.

  (** rv_continuous.sf at finite points; [_sf(x) = 1.0 - self._cdf(x)] *)
  Definition rv_sf (npdf : nat) (cdf : nd T -> nd nat -> res (list T)) (x : points T) : res (list (list (xnum T))) :=
    rv_eval npdf (fun _ => true) (fun _ => NaN) (fun x row => let* c := cdf x row in Ok (map (fun v => n1 - v) c)) x.
  (** rv_continuous.isf: inside (0,1) [_isf(q) = self._ppf(1.0 - q)]; q = 1 is the lower end of the (infinite) support, q = 0 the upper
      one; anything else is NaN *)
  Definition rv_isf (npdf : nat) (ppf : nd T -> nd nat -> res (list T)) (q : points T) : res (list (list (xnum T))) :=
    rv_eval npdf (fun p => (n0 <? p) && (p <? n1)) (fun p => if p =? n1 then NInf else if p =? n0 then PInf else NaN)
            (fun x row => ppf (mknd (shp x) (map (fun p => n1 - p) (dat x))) row) q.
  (** rv_generic.median *)
  Definition rv_median (npdf : nat) (ppf : nd T -> nd nat -> res (list T)) : res (list (list (xnum T))) := rv_ppf npdf ppf (PScalar nhalf).
  (** rv_generic.interval for a number *)
  Definition rv_interval (npdf : nat) (ppf : nd T -> nd nat -> res (list T)) (alpha : T) : res (list (list (xnum T)) * list (list (xnum T))) :=
    if (n1 <? alpha) || (alpha <? n0) then Err ValueError
    else
      let* a := rv_ppf npdf ppf (PScalar ((n1 - alpha) / nofZ 2)) in
      let* b := rv_ppf npdf ppf (PScalar ((n1 + alpha) / nofZ 2)) in
      Ok (a, b).
  (** ensemble.py 505-507 [median] and 537-539 [interval] for the classes hist, interp and interp_irregular *)
  Definition hist_ens_median (h : hist T) := rv_median (h_npdf h) (hist_ppf h).
  Definition hist_ens_interval (h : hist T) := rv_interval (h_npdf h) (hist_ppf h).
  Definition interp_ens_median (i : interp T) := rv_median (i_npdf i) (interp_ppf i).
  Definition interp_ens_interval (i : interp T) := rv_interval (i_npdf i) (interp_ppf i).
  Definition irr_ens_median (o : irregular T) := rv_median (r_npdf o) (irr_ppf o).
  Definition irr_ens_interval (o : irregular T) := rv_interval (r_npdf o) (irr_ppf o).
End Derived.
