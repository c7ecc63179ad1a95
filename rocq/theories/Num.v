(** Numbers for the numeric model.

    The code of qp computes with numpy float64 arrays.  The model abstracts
    them to an ordered field with a floor function, given by the class [Num].
    Two instances are provided:
    - [QNum] : rationals, executable, used for examples and witnesses;
    - [RNum] : Coq's reals, used for the general theorems.
    SIMPLIFICATION: arithmetic is exact, no IEEE rounding, no overflow. *)
From Coq Require Import ZArith QArith Qround Qreduction Reals Bool List.
Import ListNotations.

Class Num (T : Type) := {
  n0   : T;
  n1   : T;
  nadd : T -> T -> T;
  nsub : T -> T -> T;
  nmul : T -> T -> T;
  ndiv : T -> T -> T;   (* only meaningful when the divisor is not 0 *)
  nopp : T -> T;
  nleb : T -> T -> bool;
  nofZ : Z -> T;
  nfloor : T -> Z
}.

Declare Scope num_scope.
Delimit Scope num_scope with num.
Infix "+" := nadd : num_scope.
Infix "-" := nsub : num_scope.
Infix "*" := nmul : num_scope.
Infix "/" := ndiv : num_scope.
Notation "- x" := (nopp x) : num_scope.
Infix "<=?" := nleb : num_scope.

(** Strict comparison and equality tests, derived from [nleb]. *)
Definition nltb {T} {N : Num T} (a b : T) : bool := negb (nleb b a).
Definition neqb {T} {N : Num T} (a b : T) : bool := nleb a b && nleb b a.
Definition nabs {T} {N : Num T} (a : T) : T := if nleb n0 a then a else nopp a.
Definition nmin {T} {N : Num T} (a b : T) : T := if nleb a b then a else b.
Definition nmax {T} {N : Num T} (a b : T) : T := if nleb a b then b else a.
(** numpy's [x.clip(lo, hi)] = minimum(maximum(x, lo), hi). *)
Definition nclip {T} {N : Num T} (lo hi x : T) : T := nmin (nmax x lo) hi.
Definition nfrac {T} {N : Num T} (a : Z) (b : Z) : T := ndiv (nofZ a) (nofZ b).
Definition nhalf {T} {N : Num T} : T := nfrac 1 2.

Infix "<?" := nltb : num_scope.
Infix "=?" := neqb : num_scope.

(** Natural powers, [x ** n]. *)
Fixpoint npow {T} {N : Num T} (x : T) (n : nat) : T :=
  match n with O => n1 | S k => nmul x (npow x k) end.

(** [np.round]: round to nearest, ties to even. *)
Definition nround {T} {N : Num T} (x : T) : Z :=
  let f := nfloor x in
  let r := nsub x (nofZ f) in
  if nltb r nhalf then f
  else if nltb nhalf r then (f + 1)%Z
  else if Z.even f then f else (f + 1)%Z.

(** Rational instance: executable; results are kept in lowest terms. *)
Global Instance QNum : Num Q := {
  n0 := 0%Q;
  n1 := 1%Q;
  nadd := fun a b => Qred (a + b);
  nsub := fun a b => Qred (a - b);
  nmul := fun a b => Qred (a * b);
  ndiv := fun a b => Qred (a / b);
  nopp := fun a => Qred (- a);
  nleb := Qle_bool;
  nofZ := fun z => inject_Z z;
  nfloor := Qfloor
}.

(** Real instance. *)
Definition Rleb (a b : R) : bool := if Rle_dec a b then true else false.

Global Instance RNum : Num R := {
  n0 := 0%R;
  n1 := 1%R;
  nadd := Rplus;
  nsub := Rminus;
  nmul := Rmult;
  ndiv := Rdiv;
  nopp := Ropp;
  nleb := Rleb;
  nofZ := IZR;
  nfloor := Int_part
}.

(** List helpers shared by the array models. *)
Section Lists.
  Context {A B C : Type}.

  (** Elementwise binary operation on equally long arrays. *)
  Fixpoint map2 (f : A -> B -> C) (l1 : list A) (l2 : list B) : list C :=
    match l1, l2 with
    | a :: t1, b :: t2 => f a b :: map2 f t1 t2
    | _, _ => []
    end.
End Lists.

Section NumLists.
  Context {T : Type} {N : Num T}.
  Local Open Scope num_scope.

  (** [np.sum] of a 1-d array. *)
  Definition nsum (l : list T) : T := fold_right nadd n0 l.

  (** [np.cumsum] of a 1-d array. *)
  Fixpoint ncumsum_from (acc : T) (l : list T) : list T :=
    match l with
    | [] => []
    | a :: t => let s := acc + a in s :: ncumsum_from s t
    end.
  Definition ncumsum (l : list T) : list T := ncumsum_from n0 l.

  (** [l[1:] - l[:-1]] *)
  Definition ndiff (l : list T) : list T := map2 nsub (tl l) (removelast l).

  (** [np.max]/[np.min] of a non-empty array (argument: head and tail). *)
  Definition nmaximum (d : T) (l : list T) : T := fold_left nmax l d.
  Definition nminimum (d : T) (l : list T) : T := fold_left nmin l d.

  Definition nth0 (i : nat) (l : list T) : T := nth i l n0.
  Definition nlast (l : list T) : T := last l n0.

  (** [np.sum] in the order in which numpy adds (numpy's [pairwise_sum], an external function): fewer than eight items
      from left to right; up to 128 in eight lanes; more by halves, the first of a length divisible by eight. *)
  Fixpoint lanes (r l : list T) : list T * list T :=
    match l with
    | a :: b :: c :: d :: e :: f :: g :: h :: rest => lanes (map2 nadd r [a; b; c; d; e; f; g; h]) rest
    | _ => (r, l)
    end.
  Definition sum_block (l : list T) : T :=
    match l with
    | a :: b :: c :: d :: e :: f :: g :: h :: rest =>
        let (r, rest) := lanes [a; b; c; d; e; f; g; h] rest in
        let s := ((nth0 0 r + nth0 1 r) + (nth0 2 r + nth0 3 r)) + ((nth0 4 r + nth0 5 r) + (nth0 6 r + nth0 7 r)) in
        fold_left nadd rest s
    | _ => fold_left nadd l n0
    end.
  Fixpoint pairwise_sum (fuel : nat) (l : list T) : T :=
    match fuel with
    | O => sum_block l
    | S fuel =>
        if Nat.leb (length l) 128 then sum_block l
        else let half := Nat.div (length l) 2 in
             let m := Nat.sub half (Nat.modulo half 8) in
             pairwise_sum fuel (firstn m l) + pairwise_sum fuel (skipn m l)
    end.
  Definition npsum (l : list T) : T := n0 + pairwise_sum (length l) l.
  Definition nhead (l : list T) : T := hd n0 l.
End NumLists.
