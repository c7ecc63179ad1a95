(** C128: conversions to sparse.  [sparse_convert]: SparseConvert.v; [made]: ensembles reached by valid calls (Kinds.v); [highest], [spaced],
    [n_widths], [pursued], [line_sum], [density_of_sum]: SparseConvertTheorems.v; what the pursuit writes: C74, C75. *)
From Coq Require Import String List Arith ZArith Bool Lia Reals Lra.
From Coquelicot Require Import Coquelicot.
From Verif Require Import Num Py NdArray ScipyWrap Spec Values Ensemble Classes Convert SampleConvert
  SortProofs InterpProofs MixmodTheorems Kinds KindInputs ReachProofs EnsembleTheorems IntegrateTheorems ConvertTheorems Sparse SparseTheorems SparseConvert SparseConvertTheorems SparseConvertExamples.
Import ListNotations.
Local Open Scope string_scope.
Local Open Scope list_scope.
Local Open Scope R_scope.

(** C128: from any class but interp: KeyError, also when the keywords xvals and yvals are given. *)
Theorem C128_sources : forall X voigt sqrt chol dependent M e kw, fill_outside X -> made X M e -> g_name (e_obj e) <> "interp" ->
  sparse_convert voigt sqrt chol dependent e kw = Err KeyError.
Proof. exact c128_sources. Qed.

(** C128: the number of basis functions fits in the 16 bits of the code exactly up to 363 points. *)
Theorem C128_bases : forall n, (Z.of_nat (3 * n * n_widths n) <= 65536)%Z <-> (n <= 363)%nat.
Proof. exact c128_bases. Qed.

(** C128: from interp: when the conversion fails. *)
Theorem C128_fails : forall X, fill_outside X -> forall voigt sqrt chol dependent, 
  forall M e xs nvals f, made X M e -> g_name (e_obj e) = "interp" -> vget (metadata e) "xvals" = Some (VArr (mknd [1; length xs]%nat xs)) ->
    evaluates (ens_pdf e) (e_npdf e) f ->
    ((forall r x, (r < e_npdf e)%nat -> In x xs -> f r x <= 0) -> sparse_convert voigt sqrt chol dependent e (with_nvals nvals) = Err ValueError) /\
    (forall top, highest xs (e_npdf e) f top ->
      ((points_asked nvals < 2)%nat -> sparse_convert voigt sqrt chol dependent e (with_nvals nvals) = Err IndexError) /\
      ((2 <= points_asked nvals)%nat -> top = nth0 0 xs \/ (points_asked nvals < 4)%nat -> sparse_convert voigt sqrt chol dependent e (with_nvals nvals) = Err ValueError)).
Proof. exact c128_fails. Qed.

(** C128: from interp: the result.  Its density is non-negative with integral one between the first grid point and the last one with a positive value, 0 outside, and at the points a multiple of the sum of basis functions coded by the integers of its line, linear in between. *)
Theorem C128_convert : forall X, fill_outside X -> forall voigt sqrt chol dependent, 
  forall M e xs nvals f top, made X M e -> g_name (e_obj e) = "interp" -> vget (metadata e) "xvals" = Some (VArr (mknd [1; length xs]%nat xs)) ->
    evaluates (ens_pdf e) (e_npdf e) f -> highest xs (e_npdf e) f top -> nth0 0 xs < top -> (4 <= points_asked nvals <= 363)%nat ->
    all_shown voigt (nth0 0 xs) top (points_asked nvals) ->
    let a := nth0 0 xs in let n := points_asked nvals in
    match pursued voigt sqrt chol dependent a top n (at_grid f (spaced a top n) (e_npdf e)) with
    | Err x => sparse_convert voigt sqrt chol dependent e (with_nvals nvals) = Err x
    | Ok lines =>
        length lines = e_npdf e /\
        ((forall r, (r < e_npdf e)%nat -> (forall j, (j < n)%nat -> 0 <= line_sum voigt sqrt a top n (pad 20 (nth r lines [])) j) /\
                                         exists j, (j < n)%nat /\ 0 < line_sum voigt sqrt a top n (pad 20 (nth r lines [])) j) ->
         exists e' g, sparse_convert voigt sqrt chol dependent e (with_nvals nvals) = Ok e' /\ e_npdf e' = e_npdf e /\ g_name (e_obj e') = "sparse" /\
           evaluates (ens_pdf e') (e_npdf e') g /\
           forall r, (r < e_npdf e)%nat -> density_of_sum a top n (line_sum voigt sqrt a top n (pad 20 (nth r lines []))) (g r))
    end.
Proof. exact c128_convert. Qed.

(** C128: when the grid of the source goes on beyond that point, some PDF of the source is positive there. *)
Theorem C128_tail : forall X, fill_outside X -> 
  forall M e xs f top, made X M e -> g_name (e_obj e) = "interp" -> vget (metadata e) "xvals" = Some (VArr (mknd [1; length xs]%nat xs)) ->
    evaluates (ens_pdf e) (e_npdf e) f -> highest xs (e_npdf e) f top -> top < nlast xs ->
    exists r d, (r < e_npdf e)%nat /\ 0 < d /\ forall x, top <= x < top + d -> 0 < f r x.
Proof. exact c128_tail. Qed.

(** (one PDF on 0, 1, 2, 4, four points, flat basis functions) *)
Example C128_example : exists X voigt sqrt chol dependent M e xs nvals f top lines, fill_outside X /\
  made X M e /\ g_name (e_obj e) = "interp" /\ vget (metadata e) "xvals" = Some (VArr (mknd [1; length xs]%nat xs)) /\
  evaluates (ens_pdf e) (e_npdf e) f /\ highest xs (e_npdf e) f top /\ nth0 0 xs < top /\ top < nlast xs /\ (4 <= points_asked nvals <= 363)%nat /\
  all_shown voigt (nth0 0 xs) top (points_asked nvals) /\
  pursued voigt sqrt chol dependent (nth0 0 xs) top (points_asked nvals) (at_grid f (spaced (nth0 0 xs) top (points_asked nvals)) (e_npdf e)) = Ok lines /\
  forall r, (r < e_npdf e)%nat -> (forall j, (j < points_asked nvals)%nat -> 0 <= line_sum voigt sqrt (nth0 0 xs) top (points_asked nvals) (pad 20 (nth r lines [])) j) /\
    exists j, (j < points_asked nvals)%nat /\ 0 < line_sum voigt sqrt (nth0 0 xs) top (points_asked nvals) (pad 20 (nth r lines [])) j.
Proof. exact c128_example. Qed.

Print Assumptions C128_sources.
Print Assumptions C128_bases.
Print Assumptions C128_fails.
Print Assumptions C128_convert.
Print Assumptions C128_tail.
