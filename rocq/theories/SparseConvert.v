(** Conversion to the sparse representation: sparse_rep.py 217-295 [build_sparse_representation] as a whole,
    conversion_funcs.py 320-363 [extract_sparse_from_xy], sparse_pdf.py 34-65 [sparse_gen.__init__]. *)
From Coq Require Import String List Arith ZArith Bool.
From Verif Require Import Num Py NdArray NumpyLib ScipyWrap Values Ensemble Classes InterpPdf Convert SampleConvert Sparse.
Import ListNotations.
Local Open Scope string_scope.
Local Open Scope list_scope.

Section SparseConvert.
  Context {T : Type} {N : Num T}.
  Local Open Scope num_scope.
  (** scipy's Voigt profile, the square root, and the solutions of linear systems (Sparse.v) *)
  Variables (voigt : T -> T -> T -> T) (sqrt : T -> T).
  Variable chol : list (list T) -> list T -> list T.
  Variable dependent : list (list T) -> list T -> bool.

  Definition nceil (x : T) : Z := Z.opp (nfloor (n0 - x)%num).
  (** sparse_rep.py 234-244: the ranges and numbers of means and widths; [None]: not given.  With [sig] given and [Nsig] not,
      [max_sig] is not assigned.  The points are not empty.
      SIMPLIFICATION: 0/0 (equal points) is a ValueError of [int]; other divisions by 0 are not modelled. *)
  Definition basis_plan (x : list T) (mu : option (T * T)) (nmu : option nat) (sig : option (T * T)) (nsig : option nat)
    : res ((T * T) * nat * (T * T) * nat) :=
    match x with
    | x0 :: x1 :: t =>
        let dx := x1 - x0 in
        let lo := nminimum x0 (x1 :: t) in let hi := nmaximum x0 (x1 :: t) in
        let mu' := match mu with Some m => m | None => (lo, hi) end in                   (* 235-236 *)
        let nmu' := match nmu with Some n => n | None => length x end in                 (* 237-238 *)
        let sig' := match sig with Some s => s | None => (dx / nofZ 6, (hi - lo) / nofZ 12) end in      (* 239-242 *)
        let* nsig' := match nsig, sig with
          | Some n, _ => Ok n
          | None, Some _ => Err UnboundLocalError
          | None, None =>
              if dx =? n0 then (if hi - lo =? n0 then Err ValueError else Err NotModelled) else
              let z := nceil (nofZ 2 * ((hi - lo) / nofZ 12 - dx / nofZ 6) / dx) in      (* 244 *)
              if (z <? 0)%Z then Err ValueError else Ok (Z.to_nat z)                     (* [np.linspace] *)
          end in
        Ok (mu', nmu', sig', nsig')
    | _ => Err IndexError                                                                (* 234 *)
    end.
  (** 217-295: the integers, one line of [nsparse] per PDF, and the metadata without [Ntot] *)
  Definition pad (n : nat) (l : list Z) : list Z := l ++ repeat 0%Z (n - length l).
  Definition build_sparse_representation (x : list T) (P : list (list T)) mu nmu sig nsig (nv nsparse : nat) (tol : T)
    : res (list (list Z) * ((T * T) * (T * T) * list Z)) :=
    let* p := basis_plan x mu nmu sig nsig in
    let '(mu, nmu, sig, nsig) := p in
    let A := create_voigt_basis voigt sqrt x mu nmu sig nsig nv (nfrac 1 100000) in      (* 254 *)
    let* r := build_all sqrt chol dependent nsparse tol A P in
    Ok (map (pad nsparse) (fst r), (mu, sig, map Z.of_nat [nmu; nsig; nv] ++ [32001%Z; Z.of_nat nsparse])).

  (** The columns in which [np.where(yvals > 0)] finds an entry *)
  Definition positive_columns (rows : list (list T)) : list nat :=
    flat_map (fun row => map fst (filter (fun iy => n0 <? snd iy) (combine (seq 0 (length row)) row))) rows.
  Definition sorted_grid (x : list T) : bool := forallb (fun d => n0 <? d) (ndiff x).
  (** conversion_funcs.py 345-363.  Both defaults are looked up whether or not the keywords are given.
      SIMPLIFICATIONS: [yvals] has two axes, [xvals] one, in increasing order; [nvals] is a number without fraction. *)
  Definition extract_sparse_from_xy : extractor (T := T) := fun e kw =>
    let* dy := match vget (objdata e) "yvals" with Some v => Ok v | None => Err KeyError end in           (* 347 *)
    let* dx := match vget (metadata e) "xvals" with
               | Some (VArr a) => Ok (VArr (nd1 (nth 0 (rows_of a) [])))
               | Some _ => Err NotModelled | None => Err KeyError end in                                   (* 349 *)
    match keyword kw "yvals" dy, keyword kw "xvals" dx, keyword kw "nvals" (VNum (nofZ 300)) with
    | VArr y, VArr xa, VNum nt =>
        if negb ((length (shp y) =? 2)%nat && (length (shp xa) =? 1)%nat && sorted_grid (dat xa) && (nofZ (nfloor nt) =? nt)) then Err NotModelled else
        match dat xa with
        | [] => Err ValueError                                                                             (* 353 *)
        | x0 :: t =>
            let x := x0 :: t in
            let js := positive_columns (rows_of y) in
            if existsb (fun j => (length x <=? j)%nat) js then Err IndexError else                         (* 355 *)
            match map (fun j => nth0 j x) js with
            | [] => Err ValueError                                                                         (* 355: max of nothing *)
            | p0 :: ps =>
                let xmin := nminimum x0 t in let xmax := nmaximum p0 ps in
                if (nfloor nt <? 0)%Z then Err ValueError else                                             (* 356 *)
                let newx := np_linspace xmin xmax (Z.to_nat (nfloor nt)) in
                if negb (length x =? last (shp y) O)%nat then Err ValueError else                          (* 357 *)
                let newpdf := map (fun row => map (interp1d x row n0 n0) newx) (rows_of y) in              (* 358 *)
                let* r := build_sparse_representation newx newpdf None None None None 3 20 (nfrac 1 10000000000) in
                let '(lines, (mu, sig, dims)) := r in
                Ok [("xvals", VArr (nd1 newx)); ("mu", VArr (nd1 [fst mu; snd mu])); ("sig", VArr (nd1 [fst sig; snd sig]));
                    ("dims", VByt (nd1 dims)); ("sparse_indices", VByt (mknd [length lines; 20%nat] (concat lines)))]
            end
        end
    | _, _, _ => Err NotModelled
    end.

  (** [convert(e, "sparse", ...)]: sparse_pdf.py 88-93, factory.py 272-301 *)
  Definition sparse_convert (e : ens T) (kw : vdict T) : res (ens T) :=
    let* d := extract_sparse_from_xy e kw in ens_new (sparse_create voigt sqrt) d None.
End SparseConvert.
