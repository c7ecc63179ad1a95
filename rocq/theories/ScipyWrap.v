(** The part of scipy.stats.rv_continuous that sits between [Ensemble.pdf/cdf/
    ppf/...] and the [_pdf/_cdf/_ppf] methods of qp's classes.
    TRUSTED: scipy/stats/_distn_infrastructure.py (rv_continuous.pdf, cdf, sf,
    ppf, argsreduce), restricted to the frozen distributions built by
    rv_frozen_rows (qp/pdf_gen.py 227-236): loc = 0, scale = 1, support
    (-inf, inf), the shape argument is [row] = arange(npdf) with shape (npdf, 1). *)
From Coq Require Import List Arith ZArith Bool.
From Verif Require Import Num Py NdArray NumpyLib.
Import ListNotations.

(** Extended results: [np.nan], [-np.inf], [np.inf] or a finite value. *)
Inductive xnum (T : Type) := Fin (t : T) | NaN | NInf | PInf.
Arguments Fin {T} t.
Arguments NaN {T}.
Arguments NInf {T}.
Arguments PInf {T}.

(** What a user passes as evaluation points: a number, a 1-d grid, or a matrix. *)
Inductive points (T : Type) := PScalar (t : T) | PGrid (l : list T) | PMat (m : list (list T)).
Arguments PScalar {T} t.
Arguments PGrid {T} l.
Arguments PMat {T} m.

Section Wrap.
  Context {T : Type} {N : Num T}.
  Local Open Scope num_scope.

  (** numpy broadcasting of the points against [row] of shape (npdf, 1):
      the matrix of points and the row index of every output line. *)
  Definition broadcast_points (npdf : nat) (x : points T)
    : res (list (list T) * list nat) :=
    match x with
    | PScalar t => Ok (repeat [t] npdf, seq 0 npdf)
    | PGrid l => Ok (repeat l npdf, seq 0 npdf)
    | PMat m =>
        if (length m =? npdf)%nat then Ok (m, seq 0 npdf)
        else if (length m =? 1)%nat then Ok (repeat (hd [] m) npdf, seq 0 npdf)
        else if (npdf =? 1)%nat then Ok (m, repeat 0 (length m))
        else Err ValueError
    end.

  (** Flattened row index: every row index repeated once per point. *)
  Definition flat_rows (xs : list (list T)) (rows : list nat) : list nat :=
    concat (map2 (fun l r => map (fun _ => r) l) xs rows).

  (** [argsreduce(cond, x, row)] followed by the call of the method and by
      [place(output, cond, result)].  [cond] is a test on the point; [other]
      is the value stored where [cond] is false.  When [cond] holds everywhere
      both arguments arrive broadcast and raveled; otherwise a size-1 [row]
      arrives with its own shape (1, 1). *)
  Fixpoint place (cond : T -> bool) (other : T -> xnum T) (pts vals : list T) : list (xnum T) :=
    match pts with
    | [] => []
    | p :: ps =>
        if cond p
        then match vals with
             | v :: vs => Fin v :: place cond other ps vs
             | [] => NaN :: place cond other ps []      (* not reached: lengths agree *)
             end
        else other p :: place cond other ps vals
    end.

  Definition rv_eval (npdf : nat) (cond : T -> bool) (other : T -> xnum T)
      (method : nd T -> nd nat -> res (list T)) (x : points T) : res (list (list (xnum T))) :=
    let* (xs, rows) := broadcast_points npdf x in
    let xf := concat xs in
    let rf := flat_rows xs rows in
    let width := match xs with [] => 0 | l :: _ => length l end in
    let* vals :=
      if forallb cond xf then (if (length xf =? 0)%nat then Ok [] else method (nd1 xf) (nd1 rf))
      else if existsb cond xf then
        let xe := filter cond xf in
        let re := map snd (filter (fun p => cond (fst p)) (combine xf rf)) in
        method (nd1 xe) (if (npdf =? 1)%nat then mknd [1; 1] [0] else nd1 re)
      else Ok [] in
    Ok (chunks (length xs) width (place cond other xf vals)).

  (** rv_continuous.pdf / cdf at finite points: every point is inside the
      support (-inf, inf). *)
  Definition rv_pdf npdf method x := rv_eval npdf (fun _ => true) (fun _ => NaN) method x.
  Definition rv_cdf npdf method x := rv_eval npdf (fun _ => true) (fun _ => NaN) method x.
  (** rv_continuous.ppf: inside (0,1) call the method; q = 0 and q = 1 return the
      ends of the (infinite) support; anything else is NaN. *)
  Definition rv_ppf npdf method q :=
    rv_eval npdf (fun p => (n0 <? p) && (p <? n1))
            (fun p => if p =? n0 then NInf else if p =? n1 then PInf else NaN) method q.
End Wrap.
