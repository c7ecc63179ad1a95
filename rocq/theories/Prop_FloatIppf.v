(** C145: quantiles of interpolated ensembles in double precision.  [double], [answers], [zero64]: FloatTheorems.v; [first_edge], [last_edge]: FloatCdfTheorems.v;
    [all_cells], [cells_to], [share_in], [good_grid], [good_values]: FloatInterpTheorems.v; [reach]: FloatPpfTheorems.v; [no_tiny_part]: FloatIppfTheorems.v. *)
From Coq Require Import List Arith ZArith Bool Lia Reals Lra Floats.SpecFloat.
From Flocq Require Import Core.Zaux Core.Raux.
From Verif Require Import Num Py NdArray NumpyLib ScipyWrap InterpPdf Spec Float FloatProofs FloatHist FloatMachine FloatTheorems FloatExamples FloatNorm FloatCdf FloatCdfTheorems FloatInterp FloatInterpTheorems FloatPpf FloatPpfTheorems FloatIppfTheorems.
Import ListNotations.
Local Open Scope R_scope.

(** C145: never an infinity or NaN, never below the first grid point, above the last one by at most 2^-49 of the reach of the grid; up to 2^-49 of that reach the answer is a point of some cell at which the exact cdf takes the level q (or its value at the first grid point, if that is larger) up to (3 grid points + 22) 2^-51. *)
Theorem C145_ppf : forall xs rows chk i q, good_grid xs -> rows <> [] -> (forall row, In row rows -> good_values xs row /\ no_tiny_part xs row) ->
  interp_ctor (N := SFNum) xs (nd2 (length xs) rows) chk = Ok i -> double q -> 0 < val64 q < 1 ->
  exists v, answers (interp_ens_ppf (N := SFNum) i (PScalar q)) (length rows) v /\
    forall r, (r < length rows)%nat ->
      fin64 (v r) /\ first_edge xs <= val64 (v r) <= last_edge xs + reach xs / 2 ^ 49 /\
      exists k x, (S k < length xs)%nat /\ val64 (nth k xs zero64) <= x <= val64 (nth (S k) xs zero64) /\ Rabs (val64 (v r) - x) <= reach xs / 2 ^ 49 /\
        Rabs (share_in xs (nth r rows []) k x - Rmax (val64 q) (cells_to xs (nth r rows []) 0 / all_cells xs (nth r rows []))) <= INR (3 * length xs + 22) / 2 ^ 51.
Proof. exact c145_ppf. Qed.

(** C145: a larger level gives no smaller answer, up to 2^-49 of the reach of the grid. *)
Theorem C145_order : forall xs rows chk i q q' v v' r, good_grid xs -> rows <> [] -> (forall row, In row rows -> good_values xs row /\ no_tiny_part xs row) ->
  interp_ctor (N := SFNum) xs (nd2 (length xs) rows) chk = Ok i -> double q -> double q' -> 0 < val64 q -> val64 q <= val64 q' -> val64 q' < 1 ->
  answers (interp_ens_ppf (N := SFNum) i (PScalar q)) (length rows) v -> answers (interp_ens_ppf (N := SFNum) i (PScalar q')) (length rows) v' -> (r < length rows)%nat ->
  val64 (v r) <= val64 (v' r) + reach xs / 2 ^ 49.
Proof. exact c145_order. Qed.

(** C145: the answer of a PDF is the same bits when the ensemble holds only that PDF. *)
Theorem C145_alone : forall xs rows chk i j q v w r, good_grid xs -> (forall row, In row rows -> good_values xs row /\ no_tiny_part xs row) -> (r < length rows)%nat ->
  interp_ctor (N := SFNum) xs (nd2 (length xs) rows) chk = Ok i -> interp_ctor (N := SFNum) xs (nd2 (length xs) [nth r rows []]) chk = Ok j -> double q -> 0 < val64 q < 1 ->
  answers (interp_ens_ppf (N := SFNum) i (PScalar q)) (length rows) v -> answers (interp_ens_ppf (N := SFNum) j (PScalar q)) 1 w -> v r = w 0%nat.
Proof. exact c145_alone. Qed.

(** C145: grid -3, -2, 9 and values 5, 1, 0: ppf(1 - 2^-53) lies above 9. *)
Theorem C145_beyond : exists i q v, interp_ctor (N := SFNum) b_grid (nd2 3 [b_row]) true = Ok i /\ double q /\ 0 < val64 q < 1 /\
  answers (interp_ens_ppf (N := SFNum) i (PScalar q)) 1 v /\ last_edge b_grid < val64 (v 0%nat).
Proof. exact c145_beyond. Qed.

(** C145: without the lower bound on the areas the answer can be infinite. *)
Theorem C145_infinite : exists i q v, interp_ctor (N := SFNum) t_grid (nd2 3 [t_row]) true = Ok i /\ good_grid t_grid /\ good_values t_grid t_row /\ double q /\ 0 < val64 q < 1 /\
  answers (interp_ens_ppf (N := SFNum) i (PScalar q)) 1 v /\ v 0%nat = S754_infinity false.
Proof. exact c145_infinite. Qed.

Example C145_example : good_grid b_grid /\ good_values b_grid b_row /\ no_tiny_part b_grid b_row /\ first_edge b_grid = -3 /\ last_edge b_grid = 9 /\ reach b_grid = 9 /\
  cells_to b_grid b_row 0 / all_cells b_grid b_row = 5 / 17 /\ share_in b_grid b_row 1 9 = 1.
Proof. exact c145_example. Qed.

Print Assumptions C145_ppf.
Print Assumptions C145_order.
Print Assumptions C145_alone.
Print Assumptions C145_beyond.
Print Assumptions C145_infinite.
