(** Model of qp/packing_utils.py: packing of rows of numbers into bytes.
    The logarithm to base 10 and the power of 10 are parameters; the theorems
    use the true functions of the real numbers. *)
From Coq Require Import List Arith ZArith Bool.
From Verif Require Import Num Py NdArray NumpyLib.
Import ListNotations.

(** packing_utils.py 7-9; [OtherPacking] stands for any value that is no
    member of the enum. *)
Inductive packing := LinearFromRowmax | LogFromRowmax | OtherPacking.

Section Packing.
  Context {T : Type} {N : Num T}.
  Variables log10 pow10 : T -> T.
  Local Open Scope num_scope.

  (** [.astype(np.uint8)] of an integral float: modulo 256 (what the usual
      platforms do outside 0..255; the C standard leaves it undefined). *)
  Definition u8 (z : Z) : Z := Z.modulo z 256.

  (** [input_array.max(axis=1)] on one row *)
  Definition row_max (row : list T) : T := nmaximum (nhead row) (tl row).

  (** Whole array, row by row; [max] over an empty axis raises ValueError. *)
  Definition pack_rows (code : T -> T -> Z) (rows : list (list T)) : res (list (list Z) * list T) :=
    if existsb (fun r => Nat.eqb (length r) 0) rows then Err ValueError
    else Ok (map (fun r => map (code (row_max r)) r) rows, map row_max rows).

  (** packing_utils.py 29-30, one entry *)
  Definition linear_code (m x : T) : Z := u8 (nround (nofZ 255 * x / m)).
  (** packing_utils.py 12-30 *)
  Definition linear_pack := pack_rows linear_code.

  (** packing_utils.py 49, one entry *)
  Definition linear_value (m : T) (p : Z) : T := m * nofZ p / nofZ 255.
  (** packing_utils.py 33-50: [row_max] has one entry per row *)
  Definition linear_unpack (packed : list (list Z)) (maxs : list T) : list (list T) :=
    map2 (fun row m => map (linear_value m) row) packed maxs.

  (** packing_utils.py 72-84, one entry.  [np.round] then [.clip(0, 255)]. *)
  Definition log_code (lf m x : T) : Z :=
    let nlf := (- (n1)) * lf in                                           (* 72 *)
    let eps := pow10 (nofZ 3 * lf) in                                     (* 72 *)
    u8 (Z.min (Z.max (nround (nofZ 255 * (log10 ((x + eps) / m) + nlf) / nlf)) 0) 255).
  Definition log_pack (lf : T) := pack_rows (log_code lf).

  (** packing_utils.py 104-109, one entry *)
  Definition log_value (lf m : T) (p : Z) : T :=
    let nlf := (- (n1)) * lf in
    m * (if Z.eqb p 0 then n0 else pow10 (nlf * (nofZ p / nofZ 255 - n1))).
  Definition log_unpack (lf : T) (packed : list (list Z)) (maxs : list T) : list (list T) :=
    map2 (fun row m => map (log_value lf m) row) packed maxs.

  Definition default_floor : T := nofZ (-3).

  (** packing_utils.py 113-132; [lf = None] is a call without [log_floor]. *)
  Definition pack_array (pt : packing) (lf : option T) (rows : list (list T)) : res (list (list Z) * list T) :=
    match pt with
    | LinearFromRowmax => linear_pack rows
    | LogFromRowmax => log_pack (match lf with Some f => f | None => default_floor end) rows
    | OtherPacking => Err ValueError
    end.

  (** packing_utils.py 135-158 *)
  Definition unpack_array (pt : packing) (lf : option T) (packed : list (list Z)) (maxs : list T) : res (list (list T)) :=
    match pt with
    | LinearFromRowmax => Ok (linear_unpack packed maxs)
    | LogFromRowmax => Ok (log_unpack (match lf with Some f => f | None => default_floor end) packed maxs)
    | OtherPacking => Err ValueError
    end.
End Packing.
