(** Conversions: C34, C35, C84 - C89.  [QH], [QW]: the classes of qp and the factory after importing qp. *)
From Coq Require Import String List Arith ZArith QArith Bool Lia Reals Lra.
From Verif Require Import Num NumProofs Py NdArray NumpyLib Utils ScipyWrap Spec Values Ensemble Classes Packing PackingTheorems Registry RegistryTheorems
  Convert InterpProofs MixmodTheorems QuantTheorems Kinds EnsembleProofs KindInputs ReachProofs EnsembleTheorems IntegrateTheorems
  EnsembleRefuted ConvertRefuted ConvertTheorems ConvertExamples.
Import ListNotations.
Local Open Scope string_scope.
Local Open Scope list_scope.
Local Open Scope R_scope.

(** C34 for bins of equal width (missing: other bins, see the refutation): if the cdf of every PDF is 0 at the first and 1 at the
    last edge, the conversion succeeds and every bin keeps its probability. *)
Theorem C34_uniform_partial : forall X hs mf xy,
  forall e n F bins w, fill_outside X -> source e n F -> increasing bins -> (2 <= length bins)%nat ->
    (forall r x y, (r < n)%nat -> x <= y -> F r x <= F r y) ->
    (forall i, (i < pred (length bins))%nat -> width bins i = w) ->
    (forall r, (r < n)%nat -> F r (nth0 0 bins) = 0 /\ F r (nlast bins) = 1) ->
    exists e' G, factory_convert (QH X hs mf xy) (QW X hs mf xy) e "hist" [("bins", VArr (nd1 bins))] = Ok e' /\ source e' n G /\
      forall r i, (r < n)%nat -> (i < pred (length bins))%nat -> prob G bins r i = prob F bins r i.
Proof. exact c34_uniform. Qed.

(** (two histograms, bins 0, 1, 2) *)
Example C34_example : exists X e n F bins w, fill_outside X /\ source e n F /\ increasing bins /\ (2 <= length bins)%nat /\
  (forall r x y, (r < n)%nat -> x <= y -> F r x <= F r y) /\ (forall i, (i < pred (length bins))%nat -> width bins i = w) /\
  (forall r, (r < n)%nat -> F r (nth0 0 bins) = 0 /\ F r (nlast bins) = 1) /\ n = 2%nat /\ length bins = 3%nat.
Proof. exact c34_example. Qed.

(** C34 is false for bins of different widths. *)
Theorem C34_widths_refuted : exists d bins,
  bins = [0; 1; 3]%Q /\
  yields (newQ "hist" d None) (fun e =>
    ens_pdf e (PGrid [1 # 2; 5 # 2]%Q) = Ok [[Fin (1 # 3); Fin (1 # 3)]]%Q /\
    ens_cdf e (PGrid bins) = Ok [[Fin 0; Fin (1 # 3); Fin 1]]%Q /\
    yields (factory_convert hierQ worldQ e "hist" [("bins", VArr (nd1 bins))]) (fun e' =>
      ens_cdf e' (PGrid bins) = Ok [[Fin 0; Fin (1 # 5); Fin 1]]%Q)).
Proof. exact c34_widths_refuted. Qed.

(** C84: for every bin vector, the probability of a bin after the conversion is p_i w_i / sum_j p_j w_j, where p_i and w_i are the
    probability and the width of the bin before. *)
Theorem C84_formula : forall X hs mf xy,
  forall e n F bins, fill_outside X -> source e n F -> increasing bins -> (2 <= length bins)%nat ->
    (forall r x y, (r < n)%nat -> x <= y -> F r x <= F r y) -> (forall r, (r < n)%nat -> F r (nth0 0 bins) < F r (nlast bins)) ->
    exists e' G, factory_convert (QH X hs mf xy) (QW X hs mf xy) e "hist" [("bins", VArr (nd1 bins))] = Ok e' /\
      made X [MPdf; MCdf; MPpf] e' /\ g_name (e_obj e') = "hist" /\ source e' n G /\
      forall r i, (r < n)%nat -> (i < pred (length bins))%nat ->
        prob G bins r i * rsum (pred (length bins)) (fun j => prob F bins r j * width bins j) = prob F bins r i * width bins i.
Proof. exact c34_convert. Qed.

(** Every reachable ensemble but those of class quant can be the source, *)
Theorem C84_reachable : forall X M e, fill_outside X -> normal_laws (s_phi X) (s_Phi X) -> made X M e -> proper_class e ->
  exists f F, densities e (e_npdf e) f /\ source e (e_npdf e) F /\ forall r, (r < e_npdf e)%nat -> distribution (f r) (F r).
Proof. exact proper_reachable. Qed.

(** (two logistic distributions, bins -1, 0, 3) *)
Example C84_example : exists X e n F bins, fill_outside X /\ source e n F /\ increasing bins /\ (2 <= length bins)%nat /\
  (forall r x y, (r < n)%nat -> x <= y -> F r x <= F r y) /\ (forall r, (r < n)%nat -> F r (nth0 0 bins) < F r (nlast bins)) /\ n = 2%nat /\ bins = [-1; 0; 3].
Proof. exact c84_example. Qed.

(** C35: for every class of qp, every ensemble and every keywords, the two entry points give the same result. *)
Theorem C35_agree : forall X hs mf xy,
  forall e name c kw, dget String.eqb (w_registry (QW X hs mf xy)) name = Some c ->
  factory_convert (QH X hs mf xy) (QW X hs mf xy) e name kw = convert_to (QH X hs mf xy) (QW X hs mf xy) e c kw.
Proof. exact qp_agree. Qed.

(** The same for any class in the factory that has registered a default creation function. *)
Theorem C35_agree_registered : 
  forall (H : hierarchy (mfunc (T := R))) l c w l' name e kw, mro_ok H ->
  w = snd (add_class H (acts H (start _) l) c) -> fst (add_class H (acts H (start _) l) c) = Ok tt -> orderly H w l' ->
  h_name H c = Some name -> (exists r, In r (h_mappings H c) /\ r_which r = Creation /\ r_method r = None) ->
  factory_convert H (acts H w l') e name kw = convert_to H (acts H w l') e c kw.
Proof. exact c35_agree_default. Qed.

(** C35 for ensembles built with the default check_input (missing: check_input=False, see the refutation): converting a histogram
    ensemble to its own bins, when they have equal widths, gives an identical ensemble. *)
Theorem C35_hist_partial : forall X hs mf xy,
  forall M e bins w, fill_outside X -> made X M e ->
  vget (metadata e) "bins" = Some (VArr (mknd [1; length bins]%nat bins)) -> (forall i, (i < pred (length bins))%nat -> width bins i = w) ->
  exists e', factory_convert (QH X hs mf xy) (QW X hs mf xy) e "hist" [("bins", VArr (nd1 bins))] = Ok e' /\ identical e' e.
Proof. exact c35_hist. Qed.

(** The same for an interpolated ensemble and its own grid. *)
Theorem C35_interp_partial : forall X hs mf xy,
  forall M e xs, fill_outside X -> made X M e -> g_name (e_obj e) = "interp" ->
  vget (metadata e) "xvals" = Some (VArr (mknd [1; length xs]%nat xs)) ->
  exists e', factory_convert (QH X hs mf xy) (QW X hs mf xy) e "interp" [("xvals", VArr (nd1 xs))] = Ok e' /\ identical e' e.
Proof. exact c35_interp. Qed.

(** (two histograms) *)
Example C35_example : exists X M e bins w, fill_outside X /\ made X M e /\ vget (metadata e) "bins" = Some (VArr (mknd [1; length bins]%nat bins)) /\
  (forall i, (i < pred (length bins))%nat -> width bins i = w) /\ e_npdf e = 2%nat /\ length bins = 3%nat.
Proof. exact c35_example. Qed.

(** (two interpolated densities) *)
Example C35_interp_example : exists X M e xs, fill_outside X /\ made X M e /\ g_name (e_obj e) = "interp" /\
  vget (metadata e) "xvals" = Some (VArr (mknd [1; length xs]%nat xs)) /\ e_npdf e = 2%nat /\ length xs = 3%nat.
Proof. exact c35_interp_example. Qed.

(** C35 is false for a class without creation function: the exceptions differ. *)
Theorem C35_exceptions_refuted : 
  exists (H : hierarchy (mfunc (T := Q))) w d kw,
  w = acts H (start _) [AddClass 1%nat] /\ dget String.eqb (w_registry w) "foo" = Some 1%nat /\
  yields (newQ "hist" d None) (fun e =>
    factory_convert H w e "foo" kw = Err TypeError /\ convert_to H w e 1%nat kw = Err KeyError).
Proof. exact c35_exceptions_refuted. Qed.

(** C85: the exact statement for ensembles built with the default options. *)
Theorem C85_hist : forall X hs mf xy,
  forall M e bins w, fill_outside X -> made X M e ->
  vget (metadata e) "bins" = Some (VArr (mknd [1; length bins]%nat bins)) -> (forall i, (i < pred (length bins))%nat -> width bins i = w) ->
  exists e', factory_convert (QH X hs mf xy) (QW X hs mf xy) e "hist" [("bins", VArr (nd1 bins))] = Ok e' /\ identical e' e.
Proof. exact c35_hist. Qed.

Theorem C85_interp : forall X hs mf xy,
  forall M e xs, fill_outside X -> made X M e -> g_name (e_obj e) = "interp" ->
  vget (metadata e) "xvals" = Some (VArr (mknd [1; length xs]%nat xs)) ->
  exists e', factory_convert (QH X hs mf xy) (QW X hs mf xy) e "interp" [("xvals", VArr (nd1 xs))] = Ok e' /\ identical e' e.
Proof. exact c35_interp. Qed.

(** C86: after the conversion to class interp the density at every grid point is the one of the source divided by its trapezium sum. *)
Theorem C86_interp : forall X hs mf xy,
  forall e n f xs, fill_outside X -> densities e n f -> increasing xs -> (2 <= length xs)%nat ->
  (forall r x, (r < n)%nat -> In x xs -> 0 <= f r x) -> (forall r, (r < n)%nat -> 0 < trapezium (f r) xs) ->
  exists e' g, factory_convert (QH X hs mf xy) (QW X hs mf xy) e "interp" [("xvals", VArr (nd1 xs))] = Ok e' /\
    made X [MPdf; MCdf; MPpf] e' /\ g_name (e_obj e') = "interp" /\ densities e' n g /\
    forall r x, (r < n)%nat -> In x xs -> g r x * trapezium (f r) xs = f r x.
Proof. exact convert_interp. Qed.

(** For class interp_irregular the divisor is the sum of the values at the right ends times the widths. *)
Theorem C86_irregular : forall X hs mf xy,
  forall e n f xs, fill_outside X -> densities e n f -> increasing xs -> (2 <= length xs)%nat ->
  (forall r x, (r < n)%nat -> In x xs -> 0 <= f r x) -> (forall r, (r < n)%nat -> 0 < right_rule (f r) xs) ->
  exists e' g, factory_convert (QH X hs mf xy) (QW X hs mf xy) e "interp_irregular" [("xvals", VArr (nd1 xs))] = Ok e' /\
    made X [MPdf; MCdf; MPpf] e' /\ g_name (e_obj e') = "interp_irregular" /\ densities e' n g /\
    forall r x, (r < n)%nat -> In x xs -> g r x * right_rule (f r) xs = f r x.
Proof. exact convert_irregular. Qed.

(** (two logistic distributions, grid -1, 0, 3) *)
Example C86_example : exists X e n f xs, fill_outside X /\ densities e n f /\ increasing xs /\ (2 <= length xs)%nat /\
  (forall r x, (r < n)%nat -> In x xs -> 0 <= f r x) /\ (forall r, (r < n)%nat -> 0 < trapezium (f r) xs) /\ (forall r, (r < n)%nat -> 0 < right_rule (f r) xs) /\
  n = 2%nat /\ xs = [-1; 0; 3].
Proof. exact c86_example. Qed.

(** C87: which function extracts the data for every class of qp and every method name.  Unknown names fall back to the default;
    the sparse extraction registered by interp_irregular is never used; class norm has none. *)
Theorem C87_extraction : forall X hs mf xy,
  forall m,
  let H := QH X hs mf xy in let w := QW X hs mf xy in
  method_of H w Extraction 1 m = Some (ExtractFun (match m with Some s => if String.eqb s "samples" then hs else extract_hist_values | None => extract_hist_values end)) /\
  method_of H w Extraction 2 m = Some (ExtractFun extract_vals_at_x) /\
  method_of H w Extraction 3 m = Some (ExtractFun extract_xy_vals) /\
  method_of H w Extraction 4 m = Some (ExtractFun mf) /\
  method_of H w Extraction 5 m = Some (ExtractFun extract_quantiles) /\
  method_of H w Extraction 6 m = Some (ExtractFun (extract_and_pack log10R pow10R)) /\
  method_of H w Extraction 7 m = None.
Proof. exact qp_extraction. Qed.

(** Without extraction function, or for an unknown class, both entry points raise KeyError. *)
Theorem C87_no_extraction : 
  forall (H : hierarchy (mfunc (T := R))) w e name c kw m,
  dget String.eqb (w_registry w) name = Some c -> method_key kw = Ok m -> method_of H w Extraction c m = None ->
  factory_convert H w e name kw = Err KeyError /\ convert_to H w e c kw = Err KeyError.
Proof. exact c33_no_extraction. Qed.

Theorem C87_no_class : 
  forall (H : hierarchy (mfunc (T := R))) w e name kw,
  dget String.eqb (w_registry w) name = None -> factory_convert H w e name kw = Err KeyError.
Proof. exact c33_no_class. Qed.

(** C88: converting to quantiles strictly between 0 and 1 keeps them: at the requested levels the ppf of the result is the one of
    the source and the cdf of the result at the quantiles is the level. *)
Theorem C88_quantiles : forall X hs mf xy,
  forall e n Q qs, fill_outside X -> interpolates (s_quad X) -> quantiles e n Q -> increasing qs -> (2 <= length qs)%nat ->
  inside qs -> / 2 ^ 52 < nth0 0 qs -> (forall r, (r < n)%nat -> increasing (map (Q r) qs)) ->
  exists e' F Q', factory_convert (QH X hs mf xy) (QW X hs mf xy) e "quant" [("quants", VArr (nd1 qs))] = Ok e' /\
    made X [MPdf; MCdf; MPpf] e' /\ g_name (e_obj e') = "quant" /\ source e' n F /\ quantiles e' n Q' /\
    forall r p, (r < n)%nat -> In p qs -> Q' r p = Q r p /\ F r (Q r p) = p.
Proof. exact convert_quant. Qed.

(** (two distributions, three levels) *)
Example C88_example : exists X e n Q qs, fill_outside X /\ interpolates (s_quad X) /\ quantiles e n Q /\ increasing qs /\ (2 <= length qs)%nat /\
  inside qs /\ / 2 ^ 52 < nth0 0 qs /\ (forall r, (r < n)%nat -> increasing (map (Q r) qs)) /\ n = 2%nat /\ length qs = 3%nat.
Proof. exact c88_example. Qed.

(** C89: for every reachable ensemble of the classes with finite support, the ppf is infinite at the levels 0 and 1. *)
Theorem C89_infinite_ends : forall X M e, fill_outside X -> made X M e -> g_name (e_obj e) <> "mixmod" -> g_name (e_obj e) <> "norm" -> g_name (e_obj e) <> "spline" ->
  ens_ppf e (PScalar 0) = Ok (map (fun _ => [NInf]) (seq 0 (e_npdf e))) /\ ens_ppf e (PScalar 1) = Ok (map (fun _ => [PInf]) (seq 0 (e_npdf e))).
Proof. exact infinite_ends. Qed.

(** (two interpolated densities) *)
Example C89_example : exists X M e xs, fill_outside X /\ made X M e /\ g_name (e_obj e) = "interp" /\
  vget (metadata e) "xvals" = Some (VArr (mknd [1; length xs]%nat xs)) /\ e_npdf e = 2%nat /\ length xs = 3%nat.
Proof. exact c35_interp_example. Qed.

Print Assumptions C34_uniform_partial.
Print Assumptions C34_widths_refuted.
Print Assumptions C84_formula.
Print Assumptions C84_reachable.
Print Assumptions C35_agree.
Print Assumptions C35_agree_registered.
Print Assumptions C35_hist_partial.
Print Assumptions C35_interp_partial.
Print Assumptions C35_exceptions_refuted.
Print Assumptions C85_hist.
Print Assumptions C85_interp.
Print Assumptions C86_interp.
Print Assumptions C86_irregular.
Print Assumptions C87_extraction.
Print Assumptions C87_no_extraction.
Print Assumptions C87_no_class.
Print Assumptions C88_quantiles.
Print Assumptions C89_infinite_ends.
