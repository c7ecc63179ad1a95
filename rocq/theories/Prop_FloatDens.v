(** C144: the density of interpolated ensembles in double precision.  [double], [answers], [zero64]: FloatTheorems.v; [first_edge], [last_edge]: FloatCdfTheorems.v;
    [all_cells], [good_grid], [good_values]: FloatInterpTheorems.v; [roomy], [dens_at], [dens_in]: FloatDensTheorems.v. *)
From Coq Require Import List Arith ZArith Bool Lia Reals Lra Floats.SpecFloat.
From Flocq Require Import Core.Zaux Core.Raux.
From Verif Require Import Num Py NdArray NumpyLib ScipyWrap InterpPdf Spec Float FloatProofs FloatHist FloatMachine FloatTheorems FloatExamples FloatNorm FloatCdf FloatCdfTheorems FloatInterp FloatInterpTheorems FloatDens FloatDensTheorems.
Import ListNotations.
Local Open Scope R_scope.

(** C144: never an infinity or NaN; exactly 0 outside the grid; on the grid the exact density of the given table up to (grid points + 14) 2^-51 of the larger density at the two ends of the cell, plus 2^-590. *)
Theorem C144_pdf : forall xs rows chk i x, good_grid xs -> roomy xs -> rows <> [] -> (forall row, In row rows -> good_values xs row) ->
  interp_ctor (N := SFNum) xs (nd2 (length xs) rows) chk = Ok i -> double x ->
  exists v, answers (interp_ens_pdf (N := SFNum) i (PScalar x)) (length rows) v /\
    forall r, (r < length rows)%nat ->
      fin64 (v r) /\
      (val64 x < first_edge xs \/ last_edge xs < val64 x -> v r = zero64) /\
      (val64 x = first_edge xs -> Rabs (val64 (v r) - dens_at xs (nth r rows []) 0) <= INR (length xs + 14) / 2 ^ 51 * dens_at xs (nth r rows []) 0 + / 2 ^ 590) /\
      (forall k, (S k < length xs)%nat -> val64 (nth k xs zero64) < val64 x <= val64 (nth (S k) xs zero64) ->
        Rabs (val64 (v r) - dens_in xs (nth r rows []) k (val64 x)) <=
          INR (length xs + 14) / 2 ^ 51 * Rmax (dens_at xs (nth r rows []) k) (dens_at xs (nth r rows []) (S k)) + / 2 ^ 590).
Proof. exact c144_pdf. Qed.

(** C144: where the stored values do not fall, the answer is not negative. *)
Theorem C144_rising : forall xs rows chk i x v k r, good_grid xs -> roomy xs -> rows <> [] -> (forall row, In row rows -> good_values xs row) ->
  interp_ctor (N := SFNum) xs (nd2 (length xs) rows) chk = Ok i -> double x ->
  answers (interp_ens_pdf (N := SFNum) i (PScalar x)) (length rows) v -> (r < length rows)%nat -> (S k < length xs)%nat ->
  val64 (nth k xs zero64) < val64 x <= val64 (nth (S k) xs zero64) ->
  val64 (nth k (nth r (i_yvals i) []) zero64) <= val64 (nth (S k) (nth r (i_yvals i) []) zero64) -> 0 <= val64 (v r).
Proof. exact c144_rising. Qed.

(** C144: an ensemble with one PDF returns the stored value at every grid point. *)
Theorem C144_single : forall xs row chk i x k, good_grid xs -> roomy xs -> good_values xs row ->
  interp_ctor (N := SFNum) xs (nd2 (length xs) [row]) chk = Ok i -> double x -> (k < length xs)%nat -> val64 x = val64 (nth k xs zero64) ->
  interp_ens_pdf (N := SFNum) i (PScalar x) = Ok [[Fin (nth k (nth 0 (i_yvals i) []) zero64)]].
Proof. exact c144_single. Qed.

(** C144: two triangles 0, 3, 0 on the grid 0, 0.2, 0.3 have the density -2^-50 at 0.3; one of them alone has the density 0 there. *)
Theorem C144_negative : exists i j x v w,
  interp_ctor (N := SFNum) t_grid (nd2 3 [t_row; t_row]) true = Ok i /\ interp_ctor (N := SFNum) t_grid (nd2 3 [t_row]) true = Ok j /\
  answers (interp_ens_pdf (N := SFNum) i (PScalar x)) 2 v /\ answers (interp_ens_pdf (N := SFNum) j (PScalar x)) 1 w /\
  val64 x = last_edge t_grid /\ val64 (v 0%nat) = - / 2 ^ 50 /\ val64 (w 0%nat) = 0.
Proof. exact c144_negative. Qed.

Example C144_example : good_grid t_grid /\ roomy t_grid /\ good_values t_grid t_row /\ first_edge t_grid = 0 /\ dens_at t_grid t_row 1 = 2 / last_edge t_grid /\ dens_in t_grid t_row 0 (val64 (nth 1 t_grid zero64) / 2) = / last_edge t_grid.
Proof. exact c144_example. Qed.

Print Assumptions C144_pdf.
Print Assumptions C144_rising.
Print Assumptions C144_single.
Print Assumptions C144_negative.
