(** n-dimensional numpy arrays: a shape and a flat row-major (C order) buffer. *)
From Coq Require Import List Arith ZArith Bool.
From Verif Require Import Py.
Import ListNotations.

Record nd (A : Type) := mknd { shp : list nat; dat : list A }.
Arguments mknd {A} _ _.
Arguments shp {A} _.
Arguments dat {A} _.

Definition prod (s : list nat) : nat := fold_right Nat.mul 1 s.

Section Nd.
  Context {A : Type}.

  (** Every numpy array satisfies this. *)
  Definition nd_wf (a : nd A) : Prop := length (dat a) = prod (shp a).

  Definition np_ndim (a : nd A) : nat := length (shp a).
  Definition np_size (a : nd A) : nat := prod (shp a).

  Definition nd0 (x : A) : nd A := mknd [] [x].                    (* 0-d array *)
  Definition nd1 (l : list A) : nd A := mknd [length l] l.         (* 1-d array *)
  (** 2-d array from equally long rows; [k] is the row length. *)
  Definition nd2 (k : nat) (rows : list (list A)) : nd A :=
    mknd [length rows; k] (concat rows).

  (** [np.squeeze(a)]: drop the axes of length 1. *)
  Definition np_squeeze (a : nd A) : nd A :=
    mknd (filter (fun n => negb (Nat.eqb n 1)) (shp a)) (dat a).

  (** [np.expand_dims(a, 0)] and [np.expand_dims(a, -1)] *)
  Definition expand_first (a : nd A) : nd A := mknd (1 :: shp a) (dat a).
  Definition expand_last (a : nd A) : nd A := mknd (shp a ++ [1]) (dat a).

  (** [a.reshape(s)] for a fully specified shape. *)
  Definition np_reshape (s : list nat) (a : nd A) : res (nd A) :=
    if Nat.eqb (prod s) (length (dat a)) then Ok (mknd s (dat a)) else Err ValueError.

  (** [a.ravel()] *)
  Definition np_ravel (a : nd A) : list A := dat a.

  (** Cut a flat buffer in [n] consecutive pieces of length [k]. *)
  Fixpoint chunks (n k : nat) (l : list A) : list (list A) :=
    match n with
    | O => []
    | S m => firstn k l :: chunks m k (skipn k l)
    end.

  (** The sub-arrays along the first axis, flattened. *)
  Definition rows_of (a : nd A) : list (list A) :=
    match shp a with
    | [] => []
    | n :: rest => chunks n (prod rest) (dat a)
    end.

  (** The keys accepted by [a[key]] along the first axis.
      - [KInt i]: a Python int (may be negative);
      - [KSlice i j]: [a[i:j]] with explicit bounds, unit step;
      - [KMask m]: a boolean mask of the length of the axis;
      - [KList is]: a list/array of ints. *)
  Inductive pykey :=
  | KInt (i : Z)
  | KSlice (i j : Z)
  | KMask (m : list bool)
  | KList (is : list Z).

  (** Python's index normalisation: negative indices count from the end. *)
  Definition norm_index (n : nat) (i : Z) : option nat :=
    let i' := (if i <? 0 then i + Z.of_nat n else i)%Z in
    if ((0 <=? i') && (i' <? Z.of_nat n))%Z then Some (Z.to_nat i') else None.

  (** Bound of a slice: clipped to [0, n] after adding [n] if negative. *)
  Definition norm_bound (n : nat) (i : Z) : nat :=
    let i' := (if i <? 0 then i + Z.of_nat n else i)%Z in
    Z.to_nat (Z.max 0 (Z.min i' (Z.of_nat n))).

  Fixpoint norm_list (n : nat) (is : list Z) : option (list nat) :=
    match is with
    | [] => Some []
    | i :: t => match norm_index n i, norm_list n t with
                | Some k, Some ks => Some (k :: ks)
                | _, _ => None
                end
    end.

  Fixpoint mask_positions (k : nat) (m : list bool) : list nat :=
    match m with
    | [] => []
    | true :: t => k :: mask_positions (S k) t
    | false :: t => mask_positions (S k) t
    end.

  (** Positions selected by a key on an axis of length [n]; [None] = IndexError. *)
  Definition key_positions (n : nat) (k : pykey) : option (list nat) :=
    match k with
    | KInt i => match norm_index n i with Some p => Some [p] | None => None end
    | KSlice i j =>
        let lo := norm_bound n i in
        let hi := norm_bound n j in
        Some (seq lo (hi - lo))
    | KMask m => if Nat.eqb (length m) n then Some (mask_positions 0 m) else None
    | KList is => norm_list n is
    end.

  (** [a[key]]: an int drops the first axis, the other keys keep it.
      Indexing a 0-d array raises IndexError. *)
  Definition np_getitem (a : nd A) (k : pykey) : res (nd A) :=
    match shp a with
    | [] => Err IndexError
    | n :: rest =>
        match key_positions n k with
        | None => Err IndexError
        | Some ps =>
            let rows := map (fun p => nth p (rows_of a) []) ps in
            match k with
            | KInt _ => Ok (mknd rest (concat rows))
            | _ => Ok (mknd (length ps :: rest) (concat rows))
            end
        end
    end.

  (** [np.concatenate([a1; ...; ak])] along axis 0: all must have the same
      trailing shape and at least one axis. *)
  Definition np_concatenate (l : list (nd A)) : res (nd A) :=
    match l with
    | [] => Err ValueError
    | a :: _ =>
        match shp a with
        | [] => Err ValueError
        | _ :: rest =>
            if forallb (fun b => match shp b with
                                 | [] => false
                                 | _ :: r => if list_eq_dec Nat.eq_dec r rest then true else false
                                 end) l
            then Ok (mknd (fold_right (fun b s => hd 0 (shp b) + s) 0 l :: rest)
                          (concat (map dat l)))
            else Err ValueError
        end
    end.
End Nd.
Arguments pykey : clear implicits.
