(** Model of files with several ensembles: factory.py 360-395 [write_dict], [read_dict]. *)
From Coq Require Import String Ascii List Arith ZArith Bool.
From Verif Require Import Num Py NdArray ScipyWrap Values Ensemble Hdf5.
Import ListNotations.
Local Open Scope string_scope.
Local Open Scope list_scope.

(** h5py takes a slash in a name as a path, and the empty name as an error *)
Fixpoint no_slash (s : string) : bool :=
  match s with EmptyString => true | String a t => negb (Ascii.eqb a "/"%char) && no_slash t end.
Definition plain_name (s : string) : bool := negb (String.eqb s "") && no_slash s.

Section DictFile.
  Context {T : Type} {N : Num T}.
  Variable class_create : string -> option (vdict T -> res (gobj T)).
  (** what a user may put into the dictionary *)
  Inductive dentry := Ens (e : ens T) | Other.
  (** one top level group per ensemble, each laid out as the file of that ensemble *)
  Definition dict_file := dict string (@h5file T).
  (** 361-369; tables_io's [writeDictsToHdf5] replaces an existing file.  SIMPLIFICATION: names without slash. *)
  Fixpoint dict_tables (d : dict string dentry) : res (dict string (@h5file T)) :=
    match d with
    | [] => Ok []
    | (_, Other) :: _ => Err ValueError                                       (* 365-366 *)
    | (k, Ens e) :: t => let* r := dict_tables t in Ok ((k, store (build_tables e)) :: r)
    end.
  Definition write_dict (d : dict string dentry) : res dict_file :=
    let* t := dict_tables d in
    if forallb plain_name (keys d) then Ok (by_name t) else Err NotModelled.
  (** 372-395; the groups come ordered by name *)
  Definition read_dict (f : dict_file) : res (dict string (ens T)) :=
    mapM (fun kv => let* e := read_file class_create (snd kv) in Ok (fst kv, e)) f.
End DictFile.
Arguments dentry : clear implicits.
Arguments dict_file : clear implicits.
