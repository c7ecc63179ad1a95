(** C127: conversions to spline.  [SH], [SW]: the classes and the registry of qp with spline (SplineConvertTheorems.v, SplineConvert.v);
    [interpolant], [quad_exact], [least_of], [greatest_of], [is_base_integral]: SplineXyTheorems.v, SplineTheorems.v; [densities]: Kinds.v *)
From Coq Require Import String List Arith ZArith Bool Lia Reals Lra.
From Coquelicot Require Import Coquelicot.
From Verif Require Import Num Py NdArray ScipyWrap Spec Values Ensemble Classes SplinePdf SplineXy Registry Convert SampleConvert
  MixmodTheorems SplineProofs SplineMath Kinds KindInputs ReachProofs EnsembleTheorems IntegrateTheorems ConvertTheorems SortProofs InterpProofs SplineTheorems SplineXyTheorems SplineConvert SplineConvertTheorems.
Import ListNotations.
Local Open Scope string_scope.
Local Open Scope list_scope.
Local Open Scope R_scope.

(** C127: method xy: the density is that of the source at every grid point, divided by one constant per PDF; it integrates to one over the grid and the cdf is its integral. *)
Theorem C127_xy : forall X hs mf xy splrep quad kde rvs, 
  forall e n f xs N (Ts Cs : nat -> list R) (Ks : nat -> nat) lo hi, densities e n f -> increasing xs ->
    (forall r, (r < n)%nat -> interpolant splrep xs (map (f r) xs) (Ts r) (Cs r) (Ks r)) -> (forall r, (r < n)%nat -> length (Ts r) = N) ->
    quad_exact quad -> least_of lo [xs] -> greatest_of hi [xs] -> (forall r, (r < n)%nat -> RInt (splev (Ts r) (Cs r) (Ks r)) lo hi <> 0) ->
    exists e' g G, factory_convert (SH X hs mf xy splrep quad kde rvs) (SW X hs mf xy splrep quad kde rvs) e "spline" [("method", VStr "xy"); ("xvals", VArr (nd1 xs))] = Ok e' /\
      e_npdf e' = n /\ g_name (e_obj e') = "spline" /\ computes (ens_pdf e') n g /\ computes (ens_cdf e') n G /\
      forall r, (r < n)%nat ->
        (exists I, I <> 0 /\ is_RInt (splev (Ts r) (Cs r) (Ks r)) lo hi I /\ forall x, In x xs -> g r x = f r x / I) /\
        is_RInt (g r) lo hi 1 /\ is_base_integral (Ts r) (Ks r) (g r) (G r) /\
        (first_knot (Ts r) (Ks r) = lo -> last_knot (Ts r) (Ks r) = hi -> forall x, hi <= x -> G r x = 1).
Proof. exact c127_xy. Qed.

(** C127: method samples: the same with the estimate from the samples; 1000 samples unless a size is given. *)
Theorem C127_samples : forall X hs mf xy splrep quad kde rvs, 
  forall e size w N x ss (D : nat -> R -> R) (Ts Cs : nat -> list R) (Ks : nat -> nat) lo hi,
    rvs e (match size with Some v => v | None => VNum 1000 end) VNone = Ok ss ->
    ss <> [] -> (forall l, In l ss -> length l = w) -> (forall r, (r < length ss)%nat -> kde (nth r ss []) = Ok (D r)) ->
    (forall r, (r < length ss)%nat -> interpolant splrep x (map (D r) x) (Ts r) (Cs r) (Ks r)) -> (forall r, (r < length ss)%nat -> length (Ts r) = N) ->
    quad_exact quad -> least_of lo [x] -> greatest_of hi [x] -> (forall r, (r < length ss)%nat -> RInt (splev (Ts r) (Cs r) (Ks r)) lo hi <> 0) ->
    exists e' g G, factory_convert (SH X hs mf xy splrep quad kde rvs) (SW X hs mf xy splrep quad kde rvs) e "spline" ([("method", VStr "samples"); ("xvals", VArr (nd1 x))] ++ match size with Some v => [("size", v)] | None => [] end) = Ok e' /\
      e_npdf e' = length ss /\ g_name (e_obj e') = "spline" /\ computes (ens_pdf e') (length ss) g /\ computes (ens_cdf e') (length ss) G /\
      forall r, (r < length ss)%nat ->
        (exists I, I <> 0 /\ is_RInt (splev (Ts r) (Cs r) (Ks r)) lo hi I /\ forall v, In v x -> g r v = D r v / I) /\
        is_RInt (g r) lo hi 1 /\ is_base_integral (Ts r) (Ks r) (g r) (G r) /\
        (first_knot (Ts r) (Ks r) = lo -> last_knot (Ts r) (Ks r) = hi -> forall v, hi <= v -> G r v = 1).
Proof. exact c127_samples. Qed.

(** C127: without one of the two methods the conversion raises KeyError, for every source and all keywords. *)
Theorem C127_default : forall X hs mf xy splrep quad kde rvs, 
  forall e kw m, method_key kw = Ok m -> m <> Some "xy" -> m <> Some "samples" -> factory_convert (SH X hs mf xy splrep quad kde rvs) (SW X hs mf xy splrep quad kde rvs) e "spline" kw = Err KeyError.
Proof. exact c127_default. Qed.

(** C127: without a grid: ValueError for xy, KeyError for samples. *)
Theorem C127_grid : forall X hs mf xy splrep quad kde rvs, 
  forall e kw, vget (vremove kw "method") "xvals" = None ->
    (method_key kw = Ok (Some "xy") -> factory_convert (SH X hs mf xy splrep quad kde rvs) (SW X hs mf xy splrep quad kde rvs) e "spline" kw = Err ValueError) /\
    (method_key kw = Ok (Some "samples") -> (exists ss, forall s, rvs e s VNone = Ok ss) -> factory_convert (SH X hs mf xy splrep quad kde rvs) (SW X hs mf xy splrep quad kde rvs) e "spline" kw = Err KeyError).
Proof. exact c127_grid. Qed.

(** C127: conversions to the other classes do not depend on spline being registered: C83 to C88 hold with it too. *)
Theorem C127_others : forall X hs mf xy splrep quad kde rvs, 
  forall e name kw, name <> "spline" -> factory_convert (SH X hs mf xy splrep quad kde rvs) (SW X hs mf xy splrep quad kde rvs) e name kw = factory_convert (QH X hs mf xy) (QW X hs mf xy) e name kw.
Proof. exact c127_others. Qed.

(** (two logistic distributions on four points: the 3/8 rule) *)
Example C127_example : exists X no splrep quad kde rvs e e' f g G, densities e 2 f /\ (forall r x, (r < 2)%nat -> 0 < f r x) /\
  factory_convert (SH X no no no splrep quad kde rvs) (SW X no no no splrep quad kde rvs) e "spline" [("method", VStr "xy"); ("xvals", VArr (nd1 [0; 1; 2; 3]))] = Ok e' /\
  computes (ens_pdf e') 2 g /\ computes (ens_cdf e') 2 G /\
  forall r, (r < 2)%nat -> g r 2 * (3 / 8 * (f r 0 + 3 * f r 1 + 3 * f r 2 + f r 3)) = f r 2 /\ G r 3 = 1.
Proof. exact c127_example. Qed.

(** (by samples) *)
Example C127_samples_example : exists X no splrep quad kde rvs e e' g G, e_npdf e = 2%nat /\
  factory_convert (SH X no no no splrep quad kde rvs) (SW X no no no splrep quad kde rvs) e "spline" [("method", VStr "samples"); ("xvals", VArr (nd1 [0; 1; 2; 3])); ("size", VNum 2)] = Ok e' /\
  computes (ens_pdf e') 2 g /\ computes (ens_cdf e') 2 G /\ g 1%nat 1 = 4 / 9 /\ G 1%nat 3 = 1.
Proof. exact c127_samples_example. Qed.

Print Assumptions C127_xy.
Print Assumptions C127_samples.
Print Assumptions C127_default.
Print Assumptions C127_grid.
Print Assumptions C127_others.
