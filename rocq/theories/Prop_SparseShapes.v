(** C139: the reconstruction of sparse PDFs from their shape parameters.  [mixture]: the weighted sum of cut, normalised Voigt profiles that the pairs
    (coefficient, basis number) name; [clip], [area_under]: SparseShapesTheorems.v.  [through_shapes]: [indices2shapes] and then [shapes2pdf];
    [through_basis]: [create_basis] and then [pdf_from_sparse]. *)
From Coq Require Import List Arith ZArith QArith Bool Lia Reals Lra.
From Coquelicot Require Import Coquelicot.
From Verif Require Import Num NumProofs Py NdArray NumpyLib Utils ScipyWrap Spec InterpPdf Sparse SparseShapes
  InterpProofs GridTheorems SparseTheorems SparseShapesTheorems SparseShapesExamples.
Import ListNotations.
Local Open Scope R_scope.

(** C139: with 32001 levels in the metadata both ways give the same values, or fail alike, for any integers. *)
Theorem C139_two_ways : forall (voigt : R -> R -> R -> R) (sqrt : R -> R) (cut : R) (m : sparse_meta R),
  forall nmu nsig nv rest inds,
    m_x_int m = false -> m_dims m = (nmu :: nsig :: nv :: 32001 :: rest)%Z -> (nsig * nv <> 0)%Z ->
    through_shapes voigt sqrt m cut inds = through_basis voigt sqrt m cut inds.
Proof. exact c139_agree. Qed.

(** (two basis functions, weights 1 and 1/2) *)
Example C139_two_ways_example : let m := mkmeta [0; 1; 2]%Q false (0, 2)%Q (1, 1)%Q [2; 1; 1; 32001]%Z in
  let inds := [combine_int 7 0; combine_int 16000 1] in
  exists a, through_shapes (fun z _ _ => (1 + z * z)%Q) (fun _ => 1%Q) m (1 # 100000)%Q inds = Ok a /\ length a = 3%nat /\
    through_basis (fun z _ _ => (1 + z * z)%Q) (fun _ => 1%Q) m (1 # 100000)%Q inds = Ok a.
Proof. exact c139_run. Qed.

(** C139: the values are those of the coded sum, cut and divided by the area under it. *)
Theorem C139_value : forall voigt sqrt cut (m : sparse_meta R) nmu nsig nv rest,
  m_x_int m = false -> m_dims m = (nmu :: nsig :: nv :: 32001 :: rest)%Z -> (0 < nsig)%Z -> (0 < nv)%Z ->
  let x := fun i => nth0 i (m_x m) in let n := length (m_x m) in
  let Y := mixture voigt sqrt x n cut (m_mu m) (m_sig m) nmu nsig nv in
  forall code, code <> [] ->
    (forall c b, In (c, b) code -> (0 <= b < nmu * (nsig * nv))%Z /\ (b < 65536)%Z) ->
    visible voigt x n cut (m_mu m) (m_sig m) nmu nsig nv code ->
    let y j := clip cut (Y code j) in
    through_shapes voigt sqrt m cut (map (fun cb => combine_int (fst cb) (snd cb)) code) =
    Ok (map (fun j => y j / area_under x n y) (seq 0 n)).
Proof. exact c139_value. Qed.

(** C139: if the sum reaches the cut somewhere they are the values of a density on the grid, 0 exactly where the sum is below the cut. *)
Theorem C139_density : forall voigt sqrt cut (m : sparse_meta R) nmu nsig nv rest,
  m_x_int m = false -> m_dims m = (nmu :: nsig :: nv :: 32001 :: rest)%Z -> (0 < nsig)%Z -> (0 < nv)%Z -> increasing (m_x m) -> (2 <= length (m_x m))%nat ->
  let x := fun i => nth0 i (m_x m) in let n := length (m_x m) in
  let Y := mixture voigt sqrt x n cut (m_mu m) (m_sig m) nmu nsig nv in
  forall code, code <> [] ->
    (forall c b, In (c, b) code -> (0 <= b < nmu * (nsig * nv))%Z /\ (b < 65536)%Z) ->
    visible voigt x n cut (m_mu m) (m_sig m) nmu nsig nv code ->
    0 < cut -> (exists j, (j < n)%nat /\ cut <= Y code j) ->
    exists out, through_shapes voigt sqrt m cut (map (fun cb => combine_int (fst cb) (snd cb)) code) = Ok out /\
      length out = n /\ (forall j, (j < n)%nat -> 0 <= nth0 j out) /\ area_under x n (fun j => nth0 j out) = 1 /\
      (forall j, (j < n)%nat -> nth0 j out = 0 <-> Y code j < cut).
Proof. exact c139_density. Qed.

(** C139: the pdf of the sparse ensemble has at the grid points the values of the sum divided by the area under it; it has the reconstructed values if no value of the sum is between 0 and the cut. *)
Theorem C139_ensemble : forall voigt sqrt cut (m : sparse_meta R) nmu nsig nv rest,
  m_x_int m = false -> m_dims m = (nmu :: nsig :: nv :: 32001 :: rest)%Z -> (0 < nsig)%Z -> (0 < nv)%Z -> increasing (m_x m) -> (2 <= length (m_x m))%nat ->
  let x := fun i => nth0 i (m_x m) in let n := length (m_x m) in
  let Y := mixture voigt sqrt x n cut (m_mu m) (m_sig m) nmu nsig nv in
  forall codes, codes <> [] ->
    (forall code, In code codes -> code <> [] /\ forall c b, In (c, b) code -> (0 <= b < nmu * (nsig * nv))%Z /\ (b < 65536)%Z) ->
    (forall code, In code codes -> visible voigt x n cut (m_mu m) (m_sig m) nmu nsig nv code) ->
    (forall r, (r < length codes)%nat ->
       (forall j, (j < n)%nat -> 0 <= Y (nth r codes []) j) /\ exists j, (j < n)%nat /\ 0 < Y (nth r codes []) j) ->
    let ints := map (fun cb => combine_int (fst cb) (snd cb)) in
    exists i, sparse_ctor voigt sqrt (m_x m) (m_mu m) (m_sig m) (Z.to_nat nmu) (Z.to_nat nsig) (Z.to_nat nv) cut (map ints codes) = Ok i /\
    exists f, evaluates (interp_ens_pdf i) (length codes) f /\
      forall r, (r < length codes)%nat ->
        (forall j, (j < n)%nat -> f r (x j) = Y (nth r codes []) j / area_under x n (Y (nth r codes []))) /\
        ((forall j, (j < n)%nat -> Y (nth r codes []) j = 0 \/ cut <= Y (nth r codes []) j) ->
         through_shapes voigt sqrt m cut (ints (nth r codes [])) = Ok (map (fun j => f r (x j)) (seq 0 n))).
Proof. exact c139_ensemble. Qed.

Example C139_ensemble_example : exists (voigt : R -> R -> R -> R) (m : sparse_meta R) cut code,
    m_x_int m = false /\ m_dims m = [1; 1; 1; 32001]%Z /\ increasing (m_x m) /\ (2 <= length (m_x m))%nat /\ 0 < cut /\ code <> [] /\
    (forall c b, In (c, b) code -> (0 <= b < 1 * (1 * 1))%Z /\ (b < 65536)%Z) /\
    visible voigt (fun i => nth0 i (m_x m)) (length (m_x m)) cut (m_mu m) (m_sig m) 1 1 1 code /\
    let Y := mixture voigt sqrt (fun i => nth0 i (m_x m)) (length (m_x m)) cut (m_mu m) (m_sig m) 1 1 1 code in
    (forall j, (j < length (m_x m))%nat -> 0 <= Y j) /\ (forall j, (j < length (m_x m))%nat -> Y j = 0 \/ cut <= Y j) /\
    exists j, (j < length (m_x m))%nat /\ 0 < Y j.
Proof. exact c139_example. Qed.

(** Otherwise not: where the sum is positive and below the cut the ensemble has a positive density and the reconstruction 0. *)
Theorem C139_cut_differs : exists (voigt : R -> R -> R -> R) (m : sparse_meta R) cut inds i f out,
    m_x_int m = false /\ increasing (m_x m) /\ 0 < cut /\ m_dims m = [1; 1; 1; 32001]%Z /\
    sparse_ctor voigt sqrt (m_x m) (m_mu m) (m_sig m) 1 1 1 cut [inds] = Ok i /\ evaluates (interp_ens_pdf i) 1 f /\
    through_shapes voigt sqrt m cut inds = Ok out /\ 0 < f 0%nat (nth0 1 (m_x m)) /\ nth0 1 out = 0.
Proof. exact c139_cut_differs. Qed.

(** With another number of levels in the metadata the two ways differ. *)
Theorem C139_levels_differ : exists (voigt : Q -> Q -> Q -> Q) (sqrt : Q -> Q) m cut inds a b,
  m_x_int m = false /\ m_dims m = [2; 1; 1; 11]%Z /\
  through_shapes voigt sqrt m cut inds = Ok a /\ through_basis voigt sqrt m cut inds = Ok b /\ a <> b.
Proof. exact c139_levels_differ. Qed.

(** C139: a basis number outside the dictionary is an IndexError. *)
Theorem C139_index : forall voigt sqrt cut (m : sparse_meta R) nmu nsig nv rest code,
  m_dims m = (nmu :: nsig :: nv :: 32001 :: rest)%Z -> (0 <= nmu)%Z -> (0 < nsig)%Z -> (0 < nv)%Z ->
  (forall c b, In (c, b) code -> (0 <= b < 65536)%Z) -> (exists c b, In (c, b) code /\ (nmu * (nsig * nv) <= b)%Z) ->
  through_shapes voigt sqrt m cut (map (fun cb => combine_int (fst cb) (snd cb)) code) = Err IndexError.
Proof. exact c139_index. Qed.

(** C139: on a grid of integers [shapes2pdf] raises. *)
Theorem C139_integers : forall voigt sqrt cut (m : sparse_meta R) w ma sa ga rest_w rest_m rest_s rest_g,
  m_x_int m = true ->
  shapes2pdf voigt sqrt (w :: rest_w) (ma :: rest_m) (sa :: rest_s) (ga :: rest_g) m cut = Err TypeError.
Proof. exact c139_integers. Qed.

Print Assumptions C139_two_ways.
Print Assumptions C139_value.
Print Assumptions C139_density.
Print Assumptions C139_ensemble.
Print Assumptions C139_cut_differs.
Print Assumptions C139_levels_differ.
Print Assumptions C139_index.
Print Assumptions C139_integers.
