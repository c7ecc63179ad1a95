(** C140: sparse ensembles made from integers.  [mixture], [visible], [area_under]: SparseShapesTheorems.v; [usable], [broken_line], [sparse_keywords]:
    SparseMadeTheorems.v; [voigtR]: Voigt.v; [made]: ensembles reached by valid calls; [distribution]: IntegrateTheorems.v. *)
From Coq Require Import String List Arith ZArith QArith Bool Lia Reals Lra.
From Coquelicot Require Import Coquelicot.
From Verif Require Import Num Py NdArray ScipyWrap Spec Values Ensemble Classes Voigt InterpProofs MixmodTheorems SparseShapesTheorems Kinds KindInputs ReachProofs
  EnsembleTheorems IntegrateTheorems SparseMadeTheorems EnsembleRefuted.
Import ListNotations.
Local Open Scope string_scope.
Local Open Scope list_scope.
Local Open Scope R_scope.

(** C140: non-negative coefficients and basis functions that are seen on the grid give an ensemble; each of its PDFs is the coded mixture\n    of Voigt profiles divided by the area under it, in straight lines between the grid points, with integral one; the cdf is a distribution function. *)
Theorem C140_made : forall (X : scipy) xs mu sig nmu nsig nv rest n (codes : list (list (Z * Z))),
  fill_outside X -> increasing xs -> (2 <= length xs)%nat -> (0 < n)%nat -> (2 <= length rest)%nat -> List.Forall (Z.le 0) (nmu :: nsig :: nv :: rest) -> codes <> [] ->
  (forall code, In code codes -> usable n nmu nsig nv code) ->
  (forall code, In code codes -> visible voigtR (fun i => nth0 i xs) (length xs) (/ 100000) mu sig nmu nsig nv code) ->
  let dims := nmu :: nsig :: nv :: rest in
  let Y := mixture voigtR R_sqrt.sqrt (fun i => nth0 i xs) (length xs) (/ 100000) mu sig nmu nsig nv in
  normal_laws (s_phi X) (s_Phi X) ->
    exists e f F, qp_create (qp X) "sparse" (sparse_keywords xs mu sig dims n codes) = Ok e /\
      made X [MPdf; MCdf; MPpf] e /\ e_npdf e = length codes /\ g_name (e_obj e) = "sparse" /\
      computes (ens_pdf e) (length codes) f /\ computes (ens_cdf e) (length codes) F /\
      forall r, (r < length codes)%nat -> distribution (f r) (F r) /\
        let A := area_under (fun i => nth0 i xs) (length xs) (Y (nth r codes [])) in
        0 < A /\ broken_line xs (fun j => Y (nth r codes []) j / A) (f r) /\ is_RInt (f r) (nth0 0 xs) (nlast xs) 1.
Proof. exact c140_made. Qed.

(** (two PDFs, one normal profile, three grid points) *)
Example C140_made_example : exists X xs mu sig rest (codes : list (list (Z * Z))),
  fill_outside X /\ normal_laws (s_phi X) (s_Phi X) /\ increasing xs /\ (2 <= length xs)%nat /\ (2 <= length rest)%nat /\ List.Forall (Z.le 0) (1 :: 1 :: 1 :: rest)%Z /\
  length codes = 2%nat /\ forall code, In code codes -> usable 2 1 1 1 code /\ visible voigtR (fun i => nth0 i xs) (length xs) (/ 100000) mu sig 1 1 1 code.
Proof. exact c140_example. Qed.

(** C140: a cut given to the constructor is lost on selection. *)
Theorem C140_cut_lost : exists d, vget d "cut" = Some (VNum (3 # 4)%Q) /\
  yields (newQ "sparse" d None) (fun e => e_npdf e = 2%nat /\ ens_pdf e (PScalar (1 # 2)%Q) = Ok [[Fin 0%Q]; [Fin 0%Q]] /\
    yields (getitem qpQ e (KInt 0)) (fun e' => exists v, ens_pdf e' (PScalar (1 # 2)%Q) = Ok [[Fin v]] /\ (0 < v)%Q)).
Proof. exact c140_cut_lost. Qed.

(** C140: calls that fail. *)
Theorem C140_errors : forall (X : scipy) xs (mu sig : R * R) dims n codes,
  (forall code, In code codes -> length code = n) -> (0 < n)%nat -> codes <> [] ->
  let made_from d := qp_create (qp X) "sparse" d in
  let d := sparse_keywords xs mu sig dims n codes in
  (* too few dimensions, or negative ones *)
  ((length dims < 3)%nat -> made_from d = Err IndexError) /\
  (forall nmu nsig nv rest, dims = (nmu :: nsig :: nv :: rest)%Z -> (nmu < 0 \/ nsig < 0 \/ nv < 0)%Z -> made_from d = Err ValueError) /\
  (* a basis number outside the dictionary *)
  (forall nmu nsig nv rest code c b, dims = (nmu :: nsig :: nv :: rest)%Z -> (0 <= nmu)%Z -> (0 <= nsig)%Z -> (0 <= nv)%Z ->
     In code codes -> In (c, b) code -> (nmu * (nsig * nv) <= b < 65536)%Z -> made_from d = Err IndexError) /\
  (* a keyword left out *)
  (forall k, In k (map fst d) -> made_from (filter (fun kv => negb (String.eqb (fst kv) k)) d) = Err TypeError).
Proof. exact c140_errors. Qed.

Print Assumptions C140_made.
Print Assumptions C140_cut_lost.
Print Assumptions C140_errors.
