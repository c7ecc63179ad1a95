(** Splines: C114, C115, C116, C117. *)
From Coq Require Import String List Arith ZArith Bool Lia Reals Lra.
From Coquelicot Require Import Coquelicot.
From Verif Require Import Num NumProofs Py NdArray NumpyLib Utils ScipyWrap Spec Values Ensemble Classes SplinePdf SplineXy
  SortProofs BinProofs EvalProofs InterpProofs HistProofs SplineMath Kinds KindInputs ReachProofs EnsembleTheorems IntegrateTheorems SplineTheorems SplineXyTheorems SplineExamples.
Import ListNotations.
Local Open Scope string_scope.
Local Open Scope list_scope.
Local Open Scope R_scope.

(** C114: pdf is the spline of the stored table, cdf its integral over the base range. *)
Theorem C114_splines : forall X M e, fill_outside X -> made X M e -> g_name (e_obj e) = "spline" ->
  exists n xs ys ks f F, spline_table e n xs ys ks /\ computes (ens_pdf e) (e_npdf e) f /\ computes (ens_cdf e) (e_npdf e) F /\
    forall r, (r < e_npdf e)%nat -> let t := nth r xs [] in let c := nth r ys [] in let k := nth r ks 0%nat in
      (k <= 5)%nat /\ (2 * k + 2 <= n)%nat /\ (ordered t -> is_spline t c k (f r) /\ is_base_integral t k (f r) (F r)).
Proof. exact c114_splines. Qed.

(** C114: in the base range the density is between the smallest and the largest coefficient. *)
Theorem C114_bounds : forall t c k f lo hi, ordered t -> (2 * k + 2 <= length t)%nat -> is_spline t c k f ->
  (forall i, (i < length t - k - 1)%nat -> lo <= nth0 i c <= hi) -> forall x, first_knot t k <= x < last_knot t k -> lo <= f x <= hi.
Proof. exact c114_bounds. Qed.

(** (the straight line 2 (1 - x) on [0, 1]; at 2 the density is -2 and the cdf is 1) *)
Example C114_example : exists e M f F, made scipy1 M e /\ g_name (e_obj e) = "spline" /\ e_npdf e = 1%nat /\ spline_table e 4 [line_knots] [line_coefs] [1%nat] /\
  ordered line_knots /\ (forall i, (i < 2)%nat -> 0 <= nth0 i line_coefs) /\
  computes (ens_pdf e) 1 f /\ computes (ens_cdf e) 1 F /\ is_spline line_knots line_coefs 1 (f 0%nat) /\ is_base_integral line_knots 1 (f 0%nat) (F 0%nat) /\
  (forall x, f 0%nat x = 2 * (1 - x)) /\ F 0%nat 2 = 1.
Proof. exact c114_example. Qed.

(** C115: the cdf is 0 below the base range, constant above it, and grows by the integral of the density in between. *)
Theorem C115_shape : forall t k f F, ordered t -> (2 * k + 2 <= length t)%nat -> is_base_integral t k f F ->
  (forall x, x <= first_knot t k -> F x = 0) /\ (forall x, last_knot t k <= x -> F x = F (last_knot t k)) /\
  (forall a b, first_knot t k <= a -> a <= b -> b <= last_knot t k -> is_RInt f a b (F b - F a)).
Proof. exact c115_shape. Qed.

(** C115: coefficients that are not negative give a density that is not negative in the base range and a cdf that does not decrease. *)
Theorem C115_proper : forall t c k f F, ordered t -> (2 * k + 2 <= length t)%nat -> is_spline t c k f -> is_base_integral t k f F ->
  (forall i, (i < length t - k - 1)%nat -> 0 <= nth0 i c) ->
  (forall x, first_knot t k <= x < last_knot t k -> 0 <= f x) /\ (forall x y, x <= y -> F x <= F y) /\ (forall x, 0 <= F x <= F (last_knot t k)).
Proof. exact c115_proper. Qed.

(** (the same straight line) *)
Example C115_example : exists e M f F, made scipy1 M e /\ g_name (e_obj e) = "spline" /\ e_npdf e = 1%nat /\ spline_table e 4 [line_knots] [line_coefs] [1%nat] /\
  ordered line_knots /\ (forall i, (i < 2)%nat -> 0 <= nth0 i line_coefs) /\
  computes (ens_pdf e) 1 f /\ computes (ens_cdf e) 1 F /\ is_spline line_knots line_coefs 1 (f 0%nat) /\ is_base_integral line_knots 1 (f 0%nat) (F 0%nat) /\
  (forall x, f 0%nat x = 2 * (1 - x)) /\ F 0%nat 2 = 1.
Proof. exact c114_example. Qed.

(** C116: a spline made from points is the interpolating spline, divided by its integral over the range of all points. *)
Theorem C116_xy : forall splrep quad m n xs ys (Ts Cs : nat -> list R) (Ks : nat -> nat) lo hi,
  (0 < m)%nat -> xs <> [] -> length ys = length xs -> (forall l, In l xs -> length l = m) -> (forall l, In l ys -> length l = m) ->
  (forall r, (r < length xs)%nat -> interpolant splrep (nth r xs []) (nth r ys []) (Ts r) (Cs r) (Ks r)) -> (forall r, (r < length xs)%nat -> length (Ts r) = n) ->
  quad_exact quad -> least_of lo xs -> greatest_of hi xs -> (forall r, (r < length xs)%nat -> RInt (splev (Ts r) (Cs r) (Ks r)) lo hi <> 0) ->
  exists e f F, ens_new (spline_from_xy splrep quad) [("xvals", VArr (nd2 m xs)); ("yvals", VArr (nd2 m ys))] None = Ok e /\
    e_npdf e = length xs /\ g_name (e_obj e) = "spline" /\ computes (ens_pdf e) (length xs) f /\ computes (ens_cdf e) (length xs) F /\
    forall r, (r < length xs)%nat ->
      (exists I, I <> 0 /\ is_RInt (splev (Ts r) (Cs r) (Ks r)) lo hi I /\ forall i, (i < m)%nat -> f r (nth0 i (nth r xs [])) = nth0 i (nth r ys []) / I) /\
      is_spline (Ts r) (map (fun v => v / RInt (splev (Ts r) (Cs r) (Ks r)) lo hi) (Cs r)) (Ks r) (f r) /\
      is_RInt (f r) lo hi 1 /\ is_base_integral (Ts r) (Ks r) (f r) (F r) /\
      (first_knot (Ts r) (Ks r) = lo -> last_knot (Ts r) (Ks r) = hi -> forall x, hi <= x -> F r x = 1).
Proof. exact c116_xy. Qed.

(** C116: arrays of different shapes are refused. *)
Theorem C116_shapes : forall splrep quad (xv yv : nd R), shp xv <> shp yv -> ens_new (spline_from_xy splrep quad) [("xvals", VArr xv); ("yvals", VArr yv)] None = Err ValueError.
Proof. exact c116_shapes. Qed.

(** (two PDFs on the same points) *)
Example C116_example : exists e f F, ens_new (spline_from_xy splrep4 quadR) [("xvals", VArr (nd2 4 points4)); ("yvals", VArr (nd2 4 values4))] None = Ok e /\
  e_npdf e = 2%nat /\ computes (ens_pdf e) 2 f /\ computes (ens_cdf e) 2 F /\ f 0%nat 1 = 4 / 9 /\ f 1%nat 1 = 1 / 3 /\ F 0%nat 3 = 1 /\ F 1%nat 4 = 1.
Proof. exact c116_example. Qed.

(** C116: non-negative values do not make the density non-negative. *)
Theorem C116_negative : exists e f, ens_new (spline_from_xy splrep4 quadR) [("xvals", VArr (nd2 4 [[0; 1; 2; 3]])); ("yvals", VArr (nd2 4 [[1; 0; 0; 1]]))] None = Ok e /\
  computes (ens_pdf e) 1 f /\ f 0%nat (3 / 2) = - 1 / 6.
Proof. exact c116_negative. Qed.

(** C116: PDFs with different ranges are not normalised. *)
Theorem C116_ranges : exists e f F, ens_new (spline_from_xy splrep4 quadR) [("xvals", VArr (nd2 4 [[0; 1; 2; 3]; [0; 2; 4; 6]])); ("yvals", VArr (nd2 4 [[1; 1; 1; 1]; [1; 1; 1; 1]]))] None = Ok e /\
  computes (ens_pdf e) 2 f /\ computes (ens_cdf e) 2 F /\ (forall x, 0 <= x < 3 -> f 0%nat x = 1 / 6) /\ (forall x, 3 <= x -> F 0%nat x = 1 / 2) /\ (forall x, 6 <= x -> F 1%nat x = 1).
Proof. exact c116_ranges. Qed.

(** C117: a spline made from samples interpolates the estimated densities, up to normalisation. *)
Theorem C117_samples : forall splrep quad kde w n x ss (D : nat -> R -> R) (Ts Cs : nat -> list R) (Ks : nat -> nat) lo hi,
  x <> [] -> ss <> [] -> (forall l, In l ss -> length l = w) -> (forall r, (r < length ss)%nat -> kde (nth r ss []) = Ok (D r)) ->
  (forall r, (r < length ss)%nat -> interpolant splrep x (map (D r) x) (Ts r) (Cs r) (Ks r)) -> (forall r, (r < length ss)%nat -> length (Ts r) = n) ->
  quad_exact quad -> least_of lo [x] -> greatest_of hi [x] -> (forall r, (r < length ss)%nat -> RInt (splev (Ts r) (Cs r) (Ks r)) lo hi <> 0) ->
  exists e f F, ens_new (spline_from_samples splrep quad kde) [("xvals", VArr (nd1 x)); ("samples", VArr (nd2 w ss))] None = Ok e /\
    e_npdf e = length ss /\ g_name (e_obj e) = "spline" /\ computes (ens_pdf e) (length ss) f /\ computes (ens_cdf e) (length ss) F /\
    forall r, (r < length ss)%nat ->
      (exists I, I <> 0 /\ is_RInt (splev (Ts r) (Cs r) (Ks r)) lo hi I /\ forall i, (i < length x)%nat -> f r (nth0 i x) = D r (nth0 i x) / I) /\
      is_spline (Ts r) (map (fun v => v / RInt (splev (Ts r) (Cs r) (Ks r)) lo hi) (Cs r)) (Ks r) (f r) /\
      is_RInt (f r) lo hi 1 /\ is_base_integral (Ts r) (Ks r) (f r) (F r) /\
      (first_knot (Ts r) (Ks r) = lo -> last_knot (Ts r) (Ks r) = hi -> forall z, hi <= z -> F r z = 1).
Proof. exact c117_samples. Qed.

(** (two PDFs with two samples each) *)
Example C117_example : exists e f F, ens_new (spline_from_samples splrep4 quadR kde4) [("xvals", VArr (nd1 [0; 1; 2; 3])); ("samples", VArr (nd2 2 [[1; 2]; [0; 3]]))] None = Ok e /\
  e_npdf e = 2%nat /\ computes (ens_pdf e) 2 f /\ computes (ens_cdf e) 2 F /\ f 1%nat 1 = 4 / 9 /\ F 1%nat 3 = 1.
Proof. exact c117_example. Qed.

Print Assumptions C114_splines.
Print Assumptions C114_bounds.
Print Assumptions C115_shape.
Print Assumptions C115_proper.
Print Assumptions C116_xy.
Print Assumptions C116_shapes.
Print Assumptions C116_negative.
Print Assumptions C116_ranges.
Print Assumptions C117_samples.
