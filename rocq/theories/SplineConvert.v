(** The spline class among the conversions of the factory: qp/spline_pdf.py 311-319 [add_mappings]. *)
From Coq Require Import String List Arith ZArith Bool.
From Verif Require Import Num Py NdArray NumpyLib ScipyWrap Values Ensemble Classes Registry Convert SampleConvert SplineXy.
Import ListNotations.
Local Open Scope string_scope.
Local Open Scope list_scope.

Section SplineWorld.
  Context {T : Type} {N : Num T}.
  Variables (phi Phi : T -> T) (quad : list T -> list T -> T -> T -> T -> T)
            (cubic dspline : list T -> list T -> T -> T) (log10 pow10 : T -> T)
            (voigt : T -> T -> T -> T) (sqrt : T -> T) (Phinv : T -> xnum T).
  Variables (hist_samples mixmod_fit xy_sparse : extractor (T := T)).
  (** scipy's spline fit, quadrature and density estimate (SplineXy.v); the random samples (SampleConvert.v) *)
  Variables (splrep : list T -> list T -> res (list T * list T * nat)) (integral : (T -> T) -> T -> T -> T) (kde : list T -> res (T -> T)).
  Variable rvs : ens T -> value T -> value T -> res (list (list T)).

  (** the classes of Convert.v, and spline as number 8 *)
  Definition full_name (c : nat) : option string := if (c =? 8)%nat then Some "spline" else qp_name c.
  (** spline_pdf.py 315-319 *)
  Definition spline_mappings : list (registration mfunc) :=
    [mkreg Creation (CreateFun (create_of (qp_classes phi Phi quad cubic dspline pow10 voigt sqrt Phinv) "spline")) None;
     mkreg Creation (CreateFun (spline_from_xy splrep integral)) (Some "xy");
     mkreg Creation (CreateFun (spline_from_samples splrep integral kde)) (Some "samples");
     mkreg Extraction (ExtractFun extract_xy_vals) (Some "xy");
     mkreg Extraction (ExtractFun (extract_samples rvs)) (Some "samples")].
  Definition full_mappings (c : nat) : list (registration mfunc) :=
    if (c =? 8)%nat then spline_mappings else qp_mappings phi Phi quad cubic dspline log10 pow10 voigt sqrt Phinv hist_samples mixmod_fit xy_sparse c.
  Definition full_hierarchy : hierarchy mfunc := mkhier full_name full_mappings (fun _ => None) (fun c => [c; 0]).
  Definition full_world : world mfunc := acts full_hierarchy (start mfunc) (map (AddClass (V := mfunc)) [7; 1; 2; 8; 3; 4; 5; 6]).
End SplineWorld.
