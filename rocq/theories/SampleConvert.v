(** Conversions by way of random samples: conversion_funcs.py 68-88 [extract_samples], 116-149 [extract_hist_samples], 177-199
    [extract_fit], 202-242 [extract_mixmod_fit_samples]. *)
From Coq Require Import String List Arith ZArith Bool.
From Verif Require Import Num Py NdArray NumpyLib ScipyWrap Values Ensemble Convert.
Import ListNotations.
Local Open Scope string_scope.
Local Open Scope list_scope.

Section SampleConvert.
  Context {T : Type} {N : Num T}.
  (** [e.rvs(size, random_state)]: one line of samples per PDF.  The random numbers are a parameter. *)
  Variable rvs : ens T -> value T -> value T -> res (list (list T)).
  Definition keyword (kw : vdict T) (k : string) (d : value T) : value T := match vget kw k with Some v => v | None => d end.

  (** [np.vectorize(f, signature="(a)->(b, ..)")(rows)]: every line of [rows] is given to [f].  The names of the axes bind their
      lengths: two axes of the same name must have the same length.
      TRUSTED: numpy/lib/function_base.py _parse_input_dimensions, _update_dim_sizes, vectorize._vectorize_call_with_signature. *)
  Fixpoint bind_axes (env : list (nat * nat)) (names sizes : list nat) : bool :=
    match names, sizes with
    | n :: ns, s :: ss =>
        match find (fun x => fst x =? n)%nat env with
        | Some (_, s') => (s =? s')%nat && bind_axes env ns ss
        | None => bind_axes ((n, s) :: env) ns ss
        end
    | _, _ => true
    end.
  Definition vectorize (a : nat) (bs : list nat) (f : list T -> res (nd T)) (rows : list (list T)) : res (list (nd T)) :=
    match rows with
    | [] => Err ValueError                                                    (* no calls, no otypes *)
    | row :: _ =>
        let* first := f row in
        if bind_axes [(a, length row)] bs (shp first) then mapM f rows else Err ValueError
    end.

  (** conversion_funcs.py 142-143: [np.histogram] wants edges that do not decrease *)
  Fixpoint no_decrease (l : list T) : bool :=
    match l with x :: ((y :: _) as t) => negb (nltb y x) && no_decrease t | _ => true end.
  Definition hist_helper (bins sample : list T) : res (nd T) :=
    if no_decrease bins then Ok (nd1 (map (fun c => nofZ (Z.of_nat c)) (np_histogram sample bins))) else Err ValueError.
  (** 135-149: the axis of the samples is named by the NUMBER OF PDFS, that of the answer by the number of bins *)
  Definition extract_hist_samples : extractor (T := T) := fun e kw =>
    let* bins := grid_arg kw "bins" in
    let* samples := rvs e (keyword kw "size" (VNum (nofZ 1000))) VNone in
    let* pdfs := if (length bins =? 0)%nat then Err ValueError                 (* the signature "(n)->(-1)" is not valid *)
                 else vectorize (length samples) [pred (length bins)] (hist_helper bins) samples in
    Ok [("bins", VArr (nd1 bins)); ("pdfs", VArr (mknd [length samples; pred (length bins)] (concat (map dat pdfs))))].

  (** 83-88; a missing [xvals] is a KeyError, after the samples were drawn *)
  Definition extract_samples : extractor (T := T) := fun e kw =>
    let* samples := rvs e (keyword kw "size" (VNum (nofZ 1000))) VNone in
    match vget kw "xvals" with
    | None => Err KeyError
    | Some x => Ok [("samples", VArr (mknd [length samples; length (nth 0 samples [])] (concat samples))); ("xvals", x); ("yvals", VNone)]
    end.
  (** 196 *)
  Definition extract_fit : extractor (T := T) := fun _ _ => Err NotImplementedError.

  (** sklearn's [GaussianMixture(n_components).fit(samples)]: weights, means and variances *)
  Variable gauss_fit : value T -> list T -> res (list T * list T * list T).
  Variable sqrt : T -> T.
  (** 229-237 *)
  Definition mixmod_helper (ncomps : value T) (samps : list T) : res (list T * list T * list T) :=
    let* wmv := gauss_fit ncomps samps in
    let '(w, m, v) := wmv in Ok (w, m, map sqrt v).
  (** 222-242.  The axes of the signature "(nsamples)->(3,ncomps)" are named by their lengths, so that names never disagree. *)
  Definition extract_mixmod_fit_samples : extractor (T := T) := fun e kw =>
    let* samples := rvs e (keyword kw "nsamples" (VNum (nofZ 1000))) (keyword kw "random_state" VNone) in
    match samples with
    | [] => Err ValueError
    | _ =>
        let* fits := mapM (mixmod_helper (keyword kw "ncomps" (VNum (nofZ 3)))) samples in
        let k := match fits with (w, _, _) :: _ => length w | [] => O end in
        Ok [("weights", VArr (nd2 k (map (fun f => fst (fst f)) fits))); ("means", VArr (nd2 k (map (fun f => snd (fst f)) fits)));
            ("stds", VArr (nd2 k (map snd fits)))]
    end.
End SampleConvert.
