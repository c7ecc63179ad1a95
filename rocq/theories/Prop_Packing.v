(** Packing into bytes and packed ensembles: C16, C17, C71, C72. *)
From Coq Require Import List Arith ZArith QArith Bool Sorted Lia Reals Lra.
From Coquelicot Require Import Coquelicot.
From Verif Require Import Num NumProofs Py NdArray NumpyLib Utils ScipyWrap Spec InterpPdf Packing PackedPdf
  InterpProofs GridTheorems PackingTheorems PackedTheorems.
Import ListNotations.
Local Open Scope R_scope.

(** C16: packing and unpacking changes an entry by at most rowmax/510, keeps the row maximum and the
    order, and packing the unpacked array gives the same bytes. *)
Theorem C16_linear_packing : forall (rows : list (list R)) (lf : option R),
  (forall row, In row rows -> packable row) ->
  exists packed maxs back,
    pack_array log10R pow10R LinearFromRowmax lf rows = Ok (packed, maxs) /\
    unpack_array pow10R LinearFromRowmax lf packed maxs = Ok back /\
    same_shape packed rows /\ same_shape back rows /\ length maxs = length rows /\
    (* each entry *)
    (forall r i, (r < length rows)%nat -> (i < length (nth r rows []))%nat ->
       let m := nth0 r maxs in
       is_max m (nth r rows []) /\
       (0 <= byte packed r i <= 255)%Z /\
       Rabs (entry back r i - entry rows r i) <= m / 510 /\
       (entry rows r i = m -> entry back r i = m)) /\
    (* order *)
    (forall r i j, (r < length rows)%nat -> (i < length (nth r rows []))%nat -> (j < length (nth r rows []))%nat ->
       entry rows r i <= entry rows r j ->
       (byte packed r i <= byte packed r j)%Z /\ entry back r i <= entry back r j) /\
    (* packing again *)
    pack_array log10R pow10R LinearFromRowmax lf back = Ok (packed, maxs).
Proof. exact c16_linear. Qed.

Example C16_example :
  pack_array (fun x => x) (fun x => x) LinearFromRowmax None [[1; 2; 3; 0]; [5; 1 # 7; 0; 0]]%Q
  = Ok ([[85; 170; 255; 0]; [255; 7; 0; 0]]%Z, [3; 5]%Q).
Proof. exact c16_example. Qed.

(** Outside the hypotheses: a small negative entry becomes the largest byte. *)
Example C16_negative_example :
  linear_code 1%Q (- (1 # 255))%Q = 255%Z.
Proof. exact c16_negative_wraps. Qed.

(** C17 as far as it holds: values half a step above the floor are kept within half a step; values
    below the floor by at least the added constant 10^(3 log_floor) are dropped; no overflow. *)
Theorem C17_log_packing_partial : forall (rows : list (list R)) (lf : R), lf < 0 ->
  (forall row, In row rows -> packable row) ->
  exists packed maxs back,
    pack_array log10R pow10R LogFromRowmax (Some lf) rows = Ok (packed, maxs) /\
    unpack_array pow10R LogFromRowmax (Some lf) packed maxs = Ok back /\
    same_shape packed rows /\ same_shape back rows /\ length maxs = length rows /\
    forall r i, (r < length rows)%nat -> (i < length (nth r rows []))%nat ->
       let m := nth0 r maxs in let x := entry rows r i in let v := entry back r i in
       let eps := Rpower 10 (3 * lf) in
       is_max m (nth r rows []) /\
       (0 <= byte packed r i <= 255)%Z /\
       (* half a step above the floor the relative error is at most half a step *)
       (m * Rpower 10 (lf * (509 / 510)) < x ->
          x * Rpower 10 (lf / 510) <= v /\ v <= (x + eps) * Rpower 10 (- lf / 510)) /\
       (* below the floor by at least the added constant, the value is dropped *)
       (x + eps <= m * Rpower 10 lf -> v = 0).
Proof. exact c17_partial. Qed.

(** C17 as stated is false: a value above the floor is dropped, and a zero of a faint row comes back as
    the row maximum. *)
Theorem C17_log_packing_refuted : exists (rows : list (list R)) (lf : R) packed maxs back,
  lf < 0 /\ (forall row, In row rows -> packable row) /\
  pack_array log10R pow10R LogFromRowmax (Some lf) rows = Ok (packed, maxs) /\
  unpack_array pow10R LogFromRowmax (Some lf) packed maxs = Ok back /\
  (* row 0: 1.001 times the floor, dropped *)
  (nth0 0 maxs * Rpower 10 lf < entry rows 0 1 /\ entry back 0 1 = 0) /\
  (* row 1: a zero, far below the floor, becomes the maximum *)
  (entry rows 1 1 = 0 /\ entry back 1 1 = nth0 1 maxs /\ 0 < nth0 1 maxs).
Proof. exact c17_refuted. Qed.

(** C71: the exact threshold below which values are dropped, the exact error bounds above it, order, row
    maximum, and repacking. *)
Theorem C71_log_packing_exact : forall (rows : list (list R)) (lf : R), lf < 0 ->
  (forall row, In row rows -> packable row) ->
  exists packed maxs back,
    pack_array log10R pow10R LogFromRowmax (Some lf) rows = Ok (packed, maxs) /\
    unpack_array pow10R LogFromRowmax (Some lf) packed maxs = Ok back /\
    same_shape packed rows /\ same_shape back rows /\ length maxs = length rows /\
    (forall r i, (r < length rows)%nat -> (i < length (nth r rows []))%nat ->
       let m := nth0 r maxs in let x := entry rows r i in let v := entry back r i in
       let eps := Rpower 10 (3 * lf) in
       is_max m (nth r rows []) /\
       (0 <= byte packed r i <= 255)%Z /\
       (* dropped exactly below a threshold just above the floor *)
       (v = 0 <-> x + eps <= m * Rpower 10 (lf * (509 / 510))) /\
       (* kept within the resolution of the code *)
       (v <> 0 -> x * Rpower 10 (lf / 510) <= v /\ v <= (x + eps) * Rpower 10 (- lf / 510)) /\
       (x = m -> v = m)) /\
    (forall r i j, (r < length rows)%nat -> (i < length (nth r rows []))%nat -> (j < length (nth r rows []))%nat ->
       entry rows r i <= entry rows r j ->
       (byte packed r i <= byte packed r j)%Z /\ entry back r i <= entry back r j) /\
    (* packing again, when the added constant is small against the floor of every row *)
    ((forall r, (r < length rows)%nat ->
        Rpower 10 (3 * lf) < nth0 r maxs * Rpower 10 lf * (Rpower 10 (- lf / 510) - 1)) ->
     pack_array log10R pow10R LogFromRowmax (Some lf) back = Ok (packed, maxs)).
Proof. exact c71_log. Qed.

Theorem C71_dispatch : forall (rows : list (list R)) packed maxs lf,
  pack_array log10R pow10R OtherPacking lf rows = Err ValueError /\
  unpack_array pow10R OtherPacking lf packed maxs = Err ValueError /\
  pack_array log10R pow10R LogFromRowmax None rows = pack_array log10R pow10R LogFromRowmax (Some (-3)) rows /\
  unpack_array pow10R LogFromRowmax None packed maxs = unpack_array pow10R LogFromRowmax (Some (-3)) packed maxs.
Proof. exact pack_dispatch. Qed.

Example C71_example : exists rows : list (list R), exists lf packed maxs,
  rows <> [] /\ lf < 0 /\ (forall row, In row rows -> packable row) /\
  pack_array log10R pow10R LogFromRowmax (Some lf) rows = Ok (packed, maxs) /\
  forall r, (r < length rows)%nat ->
        Rpower 10 (3 * lf) < nth0 r maxs * Rpower 10 lf * (Rpower 10 (- lf / 510) - 1).
Proof. exact c71_example. Qed.

(** C72: a packed ensemble is the interpolated ensemble of the unpacked values, and a density. *)
Theorem C72_packed_is_interp : forall xs rows pt lf, interp_input xs rows -> legal pt lf ->
  exists pk ms back k i,
    pack_array log10R pow10R pt (Some lf) rows = Ok (pk, ms) /\
    unpack_array pow10R pt (Some lf) pk ms = Ok back /\
    packed_ctor pow10R xs (nd2 (length xs) pk) (column ms) pt lf true = Ok k /\
    interp_ctor xs (nd2 (length xs) back) true = Ok i /\
    (forall x, packed_ens_pdf k x = interp_ens_pdf i x) /\
    (forall x, packed_ens_cdf k x = interp_ens_cdf i x) /\
    (forall q, packed_ens_ppf k q = interp_ens_ppf i q) /\
    exists f, evaluates (packed_ens_pdf k) (length rows) f /\
      forall r, (r < length rows)%nat ->
        (forall x, 0 <= f r x) /\ is_RInt (f r) (nth0 0 xs) (nlast xs) 1 /\
        (forall x, x < nth0 0 xs \/ nlast xs < x -> f r x = 0).
Proof. exact c72_refines. Qed.

(** C72: pointwise distance to the ensemble that was packed. *)
Theorem C72_linear_error : forall xs rows lf, interp_input xs rows ->
  exists pk ms k i,
    pack_array log10R pow10R LinearFromRowmax (Some lf) rows = Ok (pk, ms) /\
    packed_ctor pow10R xs (nd2 (length xs) pk) (column ms) LinearFromRowmax lf true = Ok k /\
    interp_ctor xs (nd2 (length xs) rows) true = Ok i /\
    exists f g, evaluates (packed_ens_pdf k) (length rows) f /\ evaluates (interp_ens_pdf i) (length rows) g /\
      forall r, (r < length rows)%nat ->
        let total := rsum (pred (length xs)) (fun j =>
          (nth0 (S j) xs - nth0 j xs) * (nth0 j (nth r rows []) + nth0 (S j) (nth r rows [])) / 2) in
        forall x, Rabs (f r x - g r x) <= (nth0 r ms / (510 * total)) * (1 + (nlast xs - nth0 0 xs) * f r x).
Proof. exact c72_linear_error. Qed.

Example C72_example : interp_input [0; 1; 3] [[1; 2; 0]; [0; 5; 5]].
Proof. exact interp_input_example. Qed.

Print Assumptions C16_linear_packing.
Print Assumptions C17_log_packing_partial.
Print Assumptions C17_log_packing_refuted.
Print Assumptions C71_log_packing_exact.
Print Assumptions C71_dispatch.
Print Assumptions C72_packed_is_interp.
Print Assumptions C72_linear_error.
