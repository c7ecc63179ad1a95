(** Python-level notions: exceptions as values and insertion-ordered
    dictionaries with string (or None) keys. *)
From Coq Require Import String List Bool.
Import ListNotations.

(** The exceptions that the modelled code raises or lets through. *)
Inductive exn :=
| ValueError | KeyError | IndexError | TypeError | AttributeError
| UnboundLocalError | NotImplementedError | AssertionError | ZeroDivisionError
| NotModelled (* not an exception: the outcome has no counterpart in the model *).

Inductive res (A : Type) :=
| Ok (a : A)
| Err (e : exn).
Arguments Ok {A} a.
Arguments Err {A} e.

Definition bind {A B} (m : res A) (f : A -> res B) : res B :=
  match m with Ok a => f a | Err e => Err e end.
Notation "'let*' x ':=' m 'in' f" := (bind m (fun x => f))
  (at level 200, x pattern, m at level 100, f at level 200).

(** Run a partial operation on every element, stopping at the first error. *)
Fixpoint mapM {A B} (f : A -> res B) (l : list A) : res (list B) :=
  match l with
  | [] => Ok []
  | a :: t => let* b := f a in let* bs := mapM f t in Ok (b :: bs)
  end.

(** A Python [dict] with insertion order: association list with at most one
    binding per key (invariant [NoDup (keys d)], kept by all operations). *)
Definition dict (K V : Type) := list (K * V).

Section Dict.
  Context {K V : Type} (keqb : K -> K -> bool).

  Definition keys (d : dict K V) : list K := map fst d.

  (** [key in d] / [d.get(key)] *)
  Fixpoint dget (d : dict K V) (k : K) : option V :=
    match d with
    | [] => None
    | (k', v) :: t => if keqb k k' then Some v else dget t k
    end.
  Definition dmem (d : dict K V) (k : K) : bool :=
    match dget d k with Some _ => true | None => false end.

  (** [d[key] = v]: overwrites in place or appends at the end. *)
  Fixpoint dset (d : dict K V) (k : K) (v : V) : dict K V :=
    match d with
    | [] => [(k, v)]
    | (k', v') :: t => if keqb k k' then (k', v) :: t else (k', v') :: dset t k v
    end.

  (** [d.update(d2)] *)
  Definition dupdate (d d2 : dict K V) : dict K V :=
    fold_left (fun acc kv => dset acc (fst kv) (snd kv)) d2 d.

  (** [d.pop(key, None)] (result dictionary only). *)
  Definition dremove (d : dict K V) (k : K) : dict K V :=
    filter (fun kv => negb (keqb k (fst kv))) d.
End Dict.

(** Optional keys: method names in the conversion maps are [str] or [None]. *)
Definition okey_eqb (a b : option string) : bool :=
  match a, b with
  | None, None => true
  | Some x, Some y => String.eqb x y
  | _, _ => false
  end.
