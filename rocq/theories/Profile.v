(** Model of utils.py 835-872 [profile]. *)
From Coq Require Import List Arith ZArith Bool.
From Verif Require Import Num Py NdArray NumpyLib Utils ScipyWrap.
Import ListNotations.

Section Profile.
  Context {T : Type} {N : Num T}.
  Variable nsqrt : T -> T.
  Local Open Scope num_scope.

  (** [y_data[mask_col]] *)
  Fixpoint masked (m : list bool) (ys : list T) : list T :=
    match m, ys with
    | b :: m, y :: ys => if b then y :: masked m ys else masked m ys
    | _, _ => []
    end.
  Definition of_nat (n : nat) : T := nofZ (Z.of_nat n).
  (** [a.mean()], [a.std()] (population standard deviation) of a non-empty array *)
  Definition np_mean (l : list T) : T := nsum l / of_nat (length l).
  Definition np_std (l : list T) : T := let m := np_mean l in nsqrt (np_mean (map (fun y => (y - m) * (y - m)) l)).

  (** utils.py 860-869, one bin; a mask of another length than [y_data] is an IndexError, raised only if the mask selects something *)
  Definition profile_bin (im : list (nat * bool)) (ys : list T) (std : bool) (i : nat) : res (xnum T * xnum T) :=
    let mask_col := map (fun p : nat * bool => snd p && Nat.eqb (fst p) i) im in
    let count := length (filter (fun b : bool => b) mask_col) in
    if Nat.eqb count 0 then Ok (NaN, NaN)
    else if negb (Nat.eqb (length mask_col) (length ys)) then Err IndexError
    else
      let l := masked mask_col ys in
      Ok (Fin (np_mean l), Fin (if std then np_std l else np_std l / nsqrt (of_nat count))).  (* 867-871 *)
  (** utils.py 835-872; [get_bin_indices] needs two edges (line 88: [widths[0]]) *)
  Definition profile (xs ys bins : list T) (std : bool) : res (list (xnum T) * list (xnum T)) :=
    if (length bins <? 2)%nat then Err IndexError
    else
      let im := map (get_bin_indices bins) xs in
      let* l := mapM (profile_bin im ys std) (seq 0 (pred (length bins))) in
      Ok (map fst l, map snd l).
End Profile.
