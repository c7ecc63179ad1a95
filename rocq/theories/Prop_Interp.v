(** Piecewise-linear ensembles: C08 - C11. *)
From Coq Require Import List Arith ZArith QArith Bool Sorted Lia Reals Lra.
From Coquelicot Require Import Coquelicot.
From Verif Require Import Num NumProofs Py NdArray NumpyLib Utils ScipyWrap InterpPdf Spec
  InterpProofs HistTheorems GridTheorems IrrTheorems.
Import ListNotations.
Local Open Scope R_scope.

(** C08: the density is non-negative, has integral 1, vanishes outside the grid, is
    proportional to the input at the grid points and a straight line between them. *)
Theorem C08_interp_pdf_normalised : forall xs rows, interp_input xs rows ->
  exists i, interp_ctor xs (nd2 (length xs) rows) true = Ok i /\
  exists f, evaluates (interp_ens_pdf i) (length rows) f /\
    forall r, (r < length rows)%nat ->
      (forall x, 0 <= f r x) /\
      is_RInt (f r) (nth0 0 xs) (nlast xs) 1 /\
      (forall x, x < nth0 0 xs \/ nlast xs < x -> f r x = 0) /\
      (exists k, 0 < k /\ forall j, (j < length xs)%nat -> f r (nth0 j xs) = k * at2 rows r j) /\
      (forall j x, (S j < length xs)%nat -> nth0 j xs <= x <= nth0 (S j) xs ->
         f r x * (nth0 (S j) xs - nth0 j xs) = f r (nth0 j xs) * (nth0 (S j) xs - x) + f r (nth0 (S j) xs) * (x - nth0 j xs)).
Proof. exact c08. Qed.

Example C08_example : interp_input [0; 1; 3] [[1; 2; 0]; [0; 5; 5]].
Proof. exact interp_input_example. Qed.

(** C09: everything except the value at the first grid point; between grid points the
    cdf is within (change of the density) * (cell width) / 8 of the integral. *)
Theorem C09_interp_cdf_partial : forall xs rows i, interp_input xs rows ->
  interp_ctor xs (nd2 (length xs) rows) true = Ok i ->
  exists f F, evaluates (interp_ens_pdf i) (length rows) f /\ evaluates (interp_ens_cdf i) (length rows) F /\
    forall r, (r < length rows)%nat ->
      (forall x y, x <= y -> F r x <= F r y) /\
      (forall x, 0 <= F r x <= 1) /\
      (forall x, x < nth0 0 xs -> F r x = 0) /\
      (forall x, nlast xs <= x -> F r x = 1) /\
      (forall j, (1 <= j < length xs)%nat -> is_RInt (f r) (nth0 0 xs) (nth0 j xs) (F r (nth0 j xs))) /\
      F r (nth0 0 xs) = f r (nth0 0 xs) * (nth0 1 xs - nth0 0 xs) / 2 /\
      (forall j x, (1 <= j)%nat -> (S j < length xs)%nat -> nth0 j xs <= x <= nth0 (S j) xs ->
         exists v, is_RInt (f r) (nth0 0 xs) x v /\
           Rabs (F r x - v) <= Rabs (f r (nth0 (S j) xs) - f r (nth0 j xs)) * (nth0 (S j) xs - nth0 j xs) / 8).
Proof. exact c09. Qed.

(** The cdf at the first grid point is not 0: a flat density on [0,2] with grid
    (0,1,2) has cdf(0) = 1/4. *)
Theorem C09_first_point_refuted :
  exists (xs : list Q) (rows : list (list Q)) (i : interp Q),
    interp_ctor xs (nd2 3 rows) true = Ok i /\
    interp_ens_cdf i (PScalar (nth 0 xs 0%Q)) = Ok [[Fin (1 # 4)%Q]].
Proof. exact c09_refuted. Qed.

(** C10: [ppf] inverts the cdf from cdf(first point) upwards -- hence for every
    probability when the density starts at 0 -- and is the first point below it. *)
Theorem C10_interp_ppf_partial : forall xs rows i, interp_input xs rows ->
  interp_ctor xs (nd2 (length xs) rows) true = Ok i ->
  exists F Q, evaluates (interp_ens_cdf i) (length rows) F /\
    evaluates_on 0 1 (interp_ens_ppf i) (length rows) Q /\
    forall r, (r < length rows)%nat ->
      (forall p, 0 < p < 1 -> nth0 0 xs <= Q r p <= nlast xs) /\
      (forall p q, 0 < p -> p <= q -> q < 1 -> Q r p <= Q r q) /\
      (forall p, 0 < p < 1 -> F r (nth0 0 xs) <= p -> F r (Q r p) = p) /\
      (forall p, 0 < p < 1 -> p < F r (nth0 0 xs) -> Q r p = nth0 0 xs) /\
      (at2 rows r 0 = 0 -> forall p, 0 < p < 1 -> F r (Q r p) = p) /\
      (forall j x, (S j < length xs)%nat -> nth0 j xs <= x < nth0 (S j) xs -> F r (nth0 j xs) < F r (nth0 (S j) xs) ->
         0 < F r x -> Q r (F r x) = x).
Proof. exact c10. Qed.

(** For the flat density, cdf(ppf(0.1)) = 0.25. *)
Theorem C10_interp_ppf_refuted :
  exists (xs : list Q) (rows : list (list Q)) (i : interp Q) (x : Q),
    interp_ctor xs (nd2 3 rows) true = Ok i /\
    interp_ens_ppf i (PScalar (1 # 10)%Q) = Ok [[Fin x]] /\
    interp_ens_cdf i (PScalar x) = Ok [[Fin (1 # 4)%Q]].
Proof. exact c10_refuted. Qed.

(** C11: the cdf is a proper cdf (the right Riemann sums of the density), but the
    integral of the density is the ratio of trapezoid and right-rectangle sums. *)
Theorem C11_irregular_partial : forall n xr yr, irr_input n xr yr ->
  exists o, irr_ctor (nd2 n xr) (nd2 n yr) true = Ok o /\
  exists f F, evaluates (irr_ens_pdf o) (length xr) f /\ evaluates (irr_ens_cdf o) (length xr) F /\
    forall r, (r < length xr)%nat ->
      (forall x, 0 <= f r x) /\
      is_RInt (f r) (at2 xr r 0) (at2 xr r (pred n))
        (rsum (pred n) (fun i => (at2 xr r (S i) - at2 xr r i) * (at2 yr r i + at2 yr r (S i)) / 2) /
         rsum (pred n) (fun i => (at2 xr r (S i) - at2 xr r i) * at2 yr r (S i))) /\
      (forall x y, x <= y -> F r x <= F r y) /\
      (forall x, 0 <= F r x <= 1) /\
      (forall x, x <= at2 xr r 0 -> F r x = 0) /\
      (forall x, at2 xr r (pred n) <= x -> F r x = 1) /\
      (forall j, (j < n)%nat ->
         F r (at2 xr r j) = rsum j (fun i => (at2 xr r (S i) - at2 xr r i) * f r (at2 xr r (S i)))).
Proof. exact c11. Qed.

(** A density proportional to x on [0,1] gets integral 1/2. *)
Theorem C11_irregular_pdf_refuted :
  exists n xr yr o f, irr_input n xr yr /\ irr_ctor (nd2 n xr) (nd2 n yr) true = Ok o /\
    evaluates (irr_ens_pdf o) (length xr) f /\ is_RInt (f 0%nat) (at2 xr 0 0) (at2 xr 0 (pred n)) (1 / 2).
Proof. exact c11_not_normalised. Qed.

Example C11_example : irr_input 3 [[0; 1; 3]; [1; 2; 5]] [[1; 2; 0]; [0; 5; 5]].
Proof. exact irr_input_example. Qed.

(** C58: the exact cdf of an interpolated ensemble. *)
Theorem C58_interp_cdf_values : forall xs rows i, interp_input xs rows ->
  interp_ctor xs (nd2 (length xs) rows) true = Ok i ->
  exists f F, evaluates (interp_ens_pdf i) (length rows) f /\ evaluates (interp_ens_cdf i) (length rows) F /\
    forall r, (r < length rows)%nat ->
      (forall x y, x <= y -> F r x <= F r y) /\
      (forall x, 0 <= F r x <= 1) /\
      (forall x, x < nth0 0 xs -> F r x = 0) /\
      (forall x, nlast xs <= x -> F r x = 1) /\
      (forall j, (1 <= j < length xs)%nat -> is_RInt (f r) (nth0 0 xs) (nth0 j xs) (F r (nth0 j xs))) /\
      F r (nth0 0 xs) = f r (nth0 0 xs) * (nth0 1 xs - nth0 0 xs) / 2 /\
      (forall j x, (1 <= j)%nat -> (S j < length xs)%nat -> nth0 j xs <= x <= nth0 (S j) xs ->
         exists v, is_RInt (f r) (nth0 0 xs) x v /\
           Rabs (F r x - v) <= Rabs (f r (nth0 (S j) xs) - f r (nth0 j xs)) * (nth0 (S j) xs - nth0 j xs) / 8).
Proof. exact c09. Qed.

(** C59 *)
Theorem C59_interp_ppf_values : forall xs rows i, interp_input xs rows ->
  interp_ctor xs (nd2 (length xs) rows) true = Ok i ->
  exists F Q, evaluates (interp_ens_cdf i) (length rows) F /\
    evaluates_on 0 1 (interp_ens_ppf i) (length rows) Q /\
    forall r, (r < length rows)%nat ->
      (forall p, 0 < p < 1 -> nth0 0 xs <= Q r p <= nlast xs) /\
      (forall p q, 0 < p -> p <= q -> q < 1 -> Q r p <= Q r q) /\
      (forall p, 0 < p < 1 -> F r (nth0 0 xs) <= p -> F r (Q r p) = p) /\
      (forall p, 0 < p < 1 -> p < F r (nth0 0 xs) -> Q r p = nth0 0 xs) /\
      (at2 rows r 0 = 0 -> forall p, 0 < p < 1 -> F r (Q r p) = p) /\
      (forall j x, (S j < length xs)%nat -> nth0 j xs <= x < nth0 (S j) xs -> F r (nth0 j xs) < F r (nth0 (S j) xs) ->
         0 < F r x -> Q r (F r x) = x).
Proof. exact c10. Qed.

(** C60 *)
Theorem C60_irregular_values : forall n xr yr, irr_input n xr yr ->
  exists o, irr_ctor (nd2 n xr) (nd2 n yr) true = Ok o /\
  exists f F, evaluates (irr_ens_pdf o) (length xr) f /\ evaluates (irr_ens_cdf o) (length xr) F /\
    forall r, (r < length xr)%nat ->
      (forall x, 0 <= f r x) /\
      is_RInt (f r) (at2 xr r 0) (at2 xr r (pred n))
        (rsum (pred n) (fun i => (at2 xr r (S i) - at2 xr r i) * (at2 yr r i + at2 yr r (S i)) / 2) /
         rsum (pred n) (fun i => (at2 xr r (S i) - at2 xr r i) * at2 yr r (S i))) /\
      (forall x y, x <= y -> F r x <= F r y) /\
      (forall x, 0 <= F r x <= 1) /\
      (forall x, x <= at2 xr r 0 -> F r x = 0) /\
      (forall x, at2 xr r (pred n) <= x -> F r x = 1) /\
      (forall j, (j < n)%nat ->
         F r (at2 xr r j) = rsum j (fun i => (at2 xr r (S i) - at2 xr r i) * f r (at2 xr r (S i)))).
Proof. exact c11. Qed.

(** C55 *)
Theorem C55_irregular_ppf_inverts_cdf : forall n xr yr o, irr_input n xr yr -> irr_ctor (nd2 n xr) (nd2 n yr) true = Ok o ->
  exists F Q, evaluates (irr_ens_cdf o) (length xr) F /\ evaluates_on 0 1 (irr_ens_ppf o) (length xr) Q /\
    forall r, (r < length xr)%nat ->
      (forall p, 0 < p < 1 -> at2 xr r 0 <= Q r p <= at2 xr r (pred n) /\ F r (Q r p) = p) /\
      (forall p q, 0 < p -> p <= q -> q < 1 -> Q r p <= Q r q).
Proof. exact c55_irr_ppf. Qed.

Print Assumptions C08_interp_pdf_normalised.
Print Assumptions C09_interp_cdf_partial.
Print Assumptions C09_first_point_refuted.
Print Assumptions C10_interp_ppf_partial.
Print Assumptions C10_interp_ppf_refuted.
Print Assumptions C11_irregular_partial.
Print Assumptions C11_irregular_pdf_refuted.
Print Assumptions C58_interp_cdf_values.
Print Assumptions C59_interp_ppf_values.
Print Assumptions C60_irregular_values.
Print Assumptions C55_irregular_ppf_inverts_cdf.
