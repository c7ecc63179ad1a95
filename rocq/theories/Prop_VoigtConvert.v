(** C150: the extraction functions for Voigt and sparse parameters.  [zeros], [trapezium], [rescaled], [means_of], [stds_of], [weights_of], [gammas_of],
    [with_nz], [points_asked]: VoigtConvertTheorems.v; [highest], [pursued], [spaced], [at_grid]: SparseConvertTheorems.v.  The Voigt profile, the square root, the
    triangular solver and the test for linear dependence are arbitrary functions. *)
From Coq Require Import String List Arith ZArith Bool Lia Reals Lra.
From Verif Require Import Num NumProofs Py NdArray NumpyLib Utils ScipyWrap Spec Values Ensemble Classes Convert
  EvalProofs NdProofs InterpProofs Kinds KindProofs KindInputs ReachProofs EnsembleTheorems Packing Registry ConvertTheorems SplineXyTheorems Sparse
  SparseConvert SparseConvertTheorems VoigtConvert VoigtConvertTheorems.
Import ListNotations.
Local Open Scope string_scope.
Local Open Scope list_scope.
Local Open Scope R_scope.

(** C150: Gaussian mixtures keep their parameters; the Lorentzian widths are 0. *)
Theorem C150_mixture : forall X M e, fill_outside X -> made X M e -> g_name (e_obj e) = "mixmod" ->
  exists m s w, vget (objdata e) "means" = Some (VArr m) /\ vget (objdata e) "stds" = Some (VArr s) /\ vget (objdata e) "weights" = Some (VArr w) /\
    extract_voigt_mixmod e [] = Ok [("means", VArr m); ("stds", VArr s); ("weights", VArr w); ("gammas", zeros (VArr m))].
Proof. exact c150_mixture. Qed.

(** C150: other classes have no such parameters. *)
Theorem C150_not_mixture : forall X M e kw, fill_outside X -> made X M e -> g_name (e_obj e) <> "mixmod" -> extract_voigt_mixmod e kw = Err KeyError.
Proof. exact c150_not_mixture. Qed.

(** C150: gridded data: the parameters of the basis functions found for the rescaled densities. *)
Theorem C150_grid : forall X, fill_outside X -> forall (voigt : R -> R -> R -> R) (sqrt : R -> R) (chol : list (list R) -> list R -> list R) (dependent : list (list R) -> list R -> bool),
  forall M e xs nz f top, made X M e -> g_name (e_obj e) = "interp" -> vget (metadata e) "xvals" = Some (VArr (mknd [1; length xs]%nat xs)) ->
    evaluates (ens_pdf e) (e_npdf e) f -> highest xs (e_npdf e) f top -> nth0 0 xs < top -> (4 <= points_asked nz <= 363)%nat ->
    let a := nth0 0 xs in let n := points_asked nz in let pts := spaced a top n in
    (forall r, (r < e_npdf e)%nat -> trapezium (f r) pts <> 0) ->
    match pursued voigt sqrt chol dependent a top n (at_grid (rescaled f pts) pts (e_npdf e)) with
    | Err x => extract_voigt_xy voigt sqrt chol dependent e (with_nz nz) = Err x
    | Ok lines =>
        exists codes, length codes = e_npdf e /\ map (pad 20) lines = map (map (fun zb => combine_int (fst zb) (Z.of_nat (snd zb)))) codes /\
          (forall c, In c codes -> length c = 20%nat /\ forall z b, In (z, b) c -> (b < 3 * n * n_widths n)%nat) /\
          extract_voigt_xy voigt sqrt chol dependent e (with_nz nz) =
            Ok [("means", VArr (nd2 20 (map (means_of a top n) codes))); ("stds", VArr (nd2 20 (map (stds_of a top n) codes)));
                ("weights", VArr (nd2 20 (map weights_of codes))); ("gammas", VArr (nd2 20 (map (gammas_of a top n) codes)))]
    end.
Proof. exact c150_grid. Qed.

(** C150: classes without a common grid and values. *)
Theorem C150_sources : forall (voigt : R -> R -> R -> R) (sqrt : R -> R) (chol : list (list R) -> list R -> list R) (dependent : list (list R) -> list R -> bool),
  forall X M e kw, fill_outside X -> made X M e -> g_name (e_obj e) <> "interp" ->
    extract_xy_sparse voigt sqrt chol dependent e kw = Err KeyError /\ extract_voigt_xy voigt sqrt chol dependent e kw = Err KeyError.
Proof. exact c150_sources. Qed.

(** C150: [extract_xy_sparse] raises whatever it is given. *)
Theorem C150_never : forall (voigt : R -> R -> R -> R) (sqrt : R -> R) (chol : list (list R) -> list R -> list R) (dependent : list (list R) -> list R -> bool),
  forall e kw, exists x, extract_xy_sparse voigt sqrt chol dependent e kw = Err x.
Proof. exact c150_never. Qed.

(** C150: where the sparse class can be made it raises a KeyError. *)
Theorem C150_key : forall (voigt : R -> R -> R -> R) (sqrt : R -> R) (chol : list (list R) -> list R -> list R) (dependent : list (list R) -> list R -> bool),
  forall X M e kw d, fill_outside X -> made X M e -> vget kw "yvals" = None ->
    extract_sparse_from_xy voigt sqrt chol dependent e kw = Ok d -> extract_xy_sparse voigt sqrt chol dependent e kw = Err KeyError.
Proof. exact c150_key. Qed.

(** C150: no conversion depends on it. *)
Theorem C150_unused : forall X hs mf xy xy' e name kw,
  factory_convert (QH X hs mf xy) (QW X hs mf xy) e name kw = factory_convert (QH X hs mf xy') (QW X hs mf xy') e name kw.
Proof. exact c150_unused. Qed.

Example C150_mixture_example : exists X M e, fill_outside X /\ made X M e /\ g_name (e_obj e) = "mixmod".
Proof. exact c150_mixture_example. Qed.

Example C150_grid_example : exists X voigt sqrt chol dependent M e xs nz f top lines, fill_outside X /\
  made X M e /\ g_name (e_obj e) = "interp" /\ vget (metadata e) "xvals" = Some (VArr (mknd [1; length xs]%nat xs)) /\
  evaluates (ens_pdf e) (e_npdf e) f /\ highest xs (e_npdf e) f top /\ nth0 0 xs < top /\ (4 <= points_asked nz <= 363)%nat /\
  (forall r, (r < e_npdf e)%nat -> trapezium (f r) (spaced (nth0 0 xs) top (points_asked nz)) <> 0) /\
  pursued voigt sqrt chol dependent (nth0 0 xs) top (points_asked nz) (at_grid (rescaled f (spaced (nth0 0 xs) top (points_asked nz))) (spaced (nth0 0 xs) top (points_asked nz)) (e_npdf e)) = Ok lines /\
  length lines = 1%nat.
Proof. exact c150_grid_example. Qed.

Example C150_key_example : exists X voigt sqrt chol dependent M e kw d, fill_outside X /\ made X M e /\ vget kw "yvals" = None /\
  extract_sparse_from_xy voigt sqrt chol dependent e kw = Ok d.
Proof. exact c150_key_example. Qed.

Print Assumptions C150_mixture.
Print Assumptions C150_not_mixture.
Print Assumptions C150_grid.
Print Assumptions C150_sources.
Print Assumptions C150_never.
Print Assumptions C150_key.
Print Assumptions C150_unused.
