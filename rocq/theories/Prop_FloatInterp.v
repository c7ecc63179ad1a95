(** C141: interpolated densities and their cumulative distribution in double precision.  [double], [answers], [zero64]: FloatTheorems.v;
    [good_edges], [first_edge], [last_edge], [one64]: FloatCdfTheorems.v; [cell], [all_cells], [cells_to], [share_in], [good_grid], [good_values]: FloatInterpTheorems.v.
    [share_in xs ys k x] is the exact share of the area of the given table up to x, where x lies between grid points k and k+1.  As in the exact model the share at the
    first grid point is half the first value times the first width, and inside a cell the share is a straight line. *)
From Coq Require Import List Arith ZArith Bool Lia Reals Lra Floats.SpecFloat.
From Flocq Require Import Core.Zaux Core.Raux.
From Verif Require Import Num Py NdArray NumpyLib ScipyWrap InterpPdf Spec Float FloatProofs FloatHist FloatMachine FloatTheorems FloatExamples FloatNorm FloatCdf FloatCdfTheorems FloatInterp FloatInterpTheorems.
Import ListNotations.
Local Open Scope R_scope.

(** C141: the constructor accepts every such table, checked or not. *)
Theorem C141_builds : forall xs rows chk, good_grid xs -> (forall row, In row rows -> good_values xs row) -> exists i, interp_ctor (N := SFNum) xs (nd2 (length xs) rows) chk = Ok i.
Proof. exact c141_builds. Qed.

(** C141: every stored row is finite, non-negative and has area 1 up to (grid points + 2) 2^-51, whatever check_input. *)
Theorem C141_area : forall xs rows chk i, good_grid xs -> (forall row, In row rows -> good_values xs row) ->
  interp_ctor (N := SFNum) xs (nd2 (length xs) rows) chk = Ok i ->
  length (i_yvals i) = length rows /\ forall row, In row (i_yvals i) -> length row = length xs /\ (forall y, In y row -> fin64 y /\ 0 <= val64 y) /\ Rabs (all_cells xs row - 1) <= INR (length xs + 2) / 2 ^ 51.
Proof. exact c141_area. Qed.

(** C141: exactly 0 to the left of the grid, exactly 1 to the right; in between the share of the area of the given table, up to (2 grid points + 12) 2^-51; never negative, never above 1 + 2^-49, never an infinity or NaN. *)
Theorem C141_cdf : forall xs rows chk i x, good_grid xs -> rows <> [] -> (forall row, In row rows -> good_values xs row) ->
  interp_ctor (N := SFNum) xs (nd2 (length xs) rows) chk = Ok i -> double x ->
  exists v, answers (interp_ens_cdf (N := SFNum) i (PScalar x)) (length rows) v /\
    forall r, (r < length rows)%nat ->
      fin64 (v r) /\ 0 <= val64 (v r) <= 1 + / 2 ^ 49 /\
      (val64 x < first_edge xs -> v r = zero64) /\
      (last_edge xs < val64 x -> v r = one64) /\
      (forall k, (S k < length xs)%nat -> val64 (nth k xs zero64) <= val64 x <= val64 (nth (S k) xs zero64) ->
        Rabs (val64 (v r) - share_in xs (nth r rows []) k (val64 x)) <= INR (2 * length xs + 12) / 2 ^ 51).
Proof. exact c141_cdf. Qed.

(** C141: inside one cell the values never decrease. *)
Theorem C141_in_cell : forall xs rows chk i x x' v v' k r, good_grid xs -> rows <> [] -> (forall row, In row rows -> good_values xs row) ->
  interp_ctor (N := SFNum) xs (nd2 (length xs) rows) chk = Ok i -> double x -> double x' ->
  answers (interp_ens_cdf (N := SFNum) i (PScalar x)) (length rows) v -> answers (interp_ens_cdf (N := SFNum) i (PScalar x')) (length rows) v' ->
  (S k < length xs)%nat -> val64 (nth k xs zero64) < val64 x -> val64 x <= val64 x' -> val64 x' < val64 (nth (S k) xs zero64) -> (r < length rows)%nat ->
  val64 (v r) <= val64 (v' r).
Proof. exact c141_in_cell. Qed.

(** C141: across cells they decrease by no more than 2^-48, whatever the number of grid points. *)
Theorem C141_order : forall xs rows chk i x x' v v' r, good_grid xs -> rows <> [] -> (forall row, In row rows -> good_values xs row) ->
  interp_ctor (N := SFNum) xs (nd2 (length xs) rows) chk = Ok i -> double x -> double x' ->
  answers (interp_ens_cdf (N := SFNum) i (PScalar x)) (length rows) v -> answers (interp_ens_cdf (N := SFNum) i (PScalar x')) (length rows) v' -> (r < length rows)%nat -> val64 x <= val64 x' ->
  val64 (v r) <= val64 (v' r) + / 2 ^ 48.
Proof. exact c141_order. Qed.

(** C141: two PDFs 0, 7, 3 on the grid 0, 1, 7 have a cdf above 1 at the last grid point, which decreases afterwards; one such PDF alone has the value 1 there. *)
Theorem C141_above_one : exists i j x x' v v' w,
  interp_ctor (N := SFNum) g_grid (nd2 3 [g_row; g_row]) true = Ok i /\ interp_ctor (N := SFNum) g_grid (nd2 3 [g_row]) true = Ok j /\
  answers (interp_ens_cdf (N := SFNum) i (PScalar x)) 2 v /\ answers (interp_ens_cdf (N := SFNum) i (PScalar x')) 2 v' /\ answers (interp_ens_cdf (N := SFNum) j (PScalar x)) 1 w /\
  val64 x = last_edge g_grid /\ val64 x < val64 x' /\ 1 < val64 (v 0%nat) /\ val64 (v' 0%nat) < val64 (v 0%nat) /\ val64 (w 0%nat) = 1.
Proof. exact c141_above_one. Qed.

Example C141_example : good_grid g_grid /\ good_values g_grid g_row /\ first_edge g_grid = 0 /\ last_edge g_grid = 7 /\ all_cells g_grid g_row = 67 / 2 /\ share_in g_grid g_row 1 4 = 37 / 67.
Proof. exact c141_example. Qed.

Print Assumptions C141_builds.
Print Assumptions C141_area.
Print Assumptions C141_cdf.
Print Assumptions C141_in_cell.
Print Assumptions C141_order.
Print Assumptions C141_above_one.
