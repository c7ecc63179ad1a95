(** Model of the public moments of the classes that define [_munp] (hist, interp, packed_interp):
    ensemble.py 505-523, pdf_gen.py 366-383, over scipy/stats/_distn_infrastructure.py. *)
From Coq Require Import List Arith ZArith Bool.
From Verif Require Import Num Py NdArray NumpyLib Utils ScipyWrap HistPdf InterpPdf Packing PackedPdf.
Import ListNotations.

Section Moments.
  Context {T : Type} {N : Num T}.
  Local Open Scope num_scope.

  (** scipy [rv_generic.moment] with loc = 0 and scale = 1: order 0 is 1 without a call of [_munp] ([_moment_from_stats]); the
      default [_stats] knows nothing, so every other order is [_munp] of that order.
      SIMPLIFICATION: orders are naturals (scipy raises ValueError for others). *)
  Definition rv_moment (npdf : nat) (munp : nat -> list T) (n : nat) : list T :=
    match n with O => repeat n1 npdf | _ => munp n end.
  (** scipy [rv_generic.stats], moments "m" and "v" *)
  Definition rv_mean (munp : nat -> list T) : list T := munp 1%nat.
  Definition rv_var (munp : nat -> list T) : list T := map2 (fun m2 m => m2 - m * m) (munp 2%nat) (munp 1%nat).

  (** ensemble.py 509-523 [mean], [var], [moment], hist_pdf.py 132-145 *)
  Definition hist_ens_moment (h : hist T) (n : nat) : list T := rv_moment (h_npdf h) (hist_moment h) n.
  Definition hist_ens_mean (h : hist T) : list T := rv_mean (hist_moment h).
  Definition hist_ens_var (h : hist T) : list T := rv_var (hist_moment h).
  (** interp_pdf.py 146-158 *)
  Definition interp_ens_moment (i : interp T) (n : nat) : list T := rv_moment (i_npdf i) (interp_moment i) n.
  Definition interp_ens_mean (i : interp T) : list T := rv_mean (interp_moment i).
  Definition interp_ens_var (i : interp T) : list T := rv_var (interp_moment i).
  (** packed_interp_pdf.py 205-219 *)
  Definition packed_ens_moment (k : packed T) (n : nat) : list T := rv_moment (k_npdf k) (packed_moment k) n.
  Definition packed_ens_mean (k : packed T) : list T := rv_mean (packed_moment k).
  Definition packed_ens_var (k : packed T) : list T := rv_var (packed_moment k).
End Moments.
