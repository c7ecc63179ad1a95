(** Model of the class registry of qp/factory.py and of the method tables of qp/pdf_gen.py. *)
From Coq Require Import String List Arith Bool.
From Verif Require Import Py Values.
Import ListNotations.
Local Open Scope string_scope.
Local Open Scope list_scope.

(** The three tables of a class (pdf_gen.py 44-46) *)
Inductive which := Creation | Extraction | Reader.
Definition which_eqb (a b : which) : bool :=
  match a, b with Creation, Creation => true | Extraction, Extraction => true | Reader, Reader => true | _, _ => false end.

Section Registry.
  (** The functions stored in the tables; they are only stored and handed out. *)
  Variable V : Type.
  Definition mtable := dict (option string) V.
  Definition mtables := which -> mtable.

  (** One call of [_add_creation_method], [_add_extraction_method] or [_add_reader_method] *)
  Record registration := mkreg { r_which : which; r_func : V; r_method : option string }.

  (** The Python classes, identified by numbers.  [h_name]: the class attribute [name] if there
      is one; [h_mappings]: the calls made by [add_mappings]; [h_fails]: the exception it ends
      with, if any; [h_mro]: the class followed by its bases, [Pdf_gen] itself being number 0. *)
  Record hierarchy := mkhier {
    h_name : nat -> option string; h_mappings : nat -> list registration;
    h_fails : nat -> option exn; h_mro : nat -> list nat }.
  Variable H : hierarchy.

  (** What an attribute of the factory refers to *)
  Inductive attribute := Builtin (name : string) | ClassAttr (c : nat) | CreateOf (c : nat).
  (** [w_own c]: the tables in the dictionary of class [c] itself, if any; [w_registry]: the
      factory as an OrderedDict; [w_attrs]: the attributes of the factory object. *)
  Record world := mkworld {
    w_own : nat -> option mtables; w_registry : dict string nat; w_attrs : dict string attribute }.

  (** Attribute lookup [cls._creation_map]: the class whose dictionary holds the tables *)
  Definition owner (w : world) (c : nat) : nat :=
    match find (fun b => match w_own w b with Some _ => true | None => false end) (h_mro H c) with
    | Some b => b | None => 0 end.
  Definition empty_tables : mtables := fun _ => [].
  Definition tables_at (w : world) (b : nat) : mtables :=
    match w_own w b with Some t => t | None => empty_tables end.
  Definition tables_of (w : world) (c : nat) : mtables := tables_at w (owner w c).
  Definition set_own (w : world) (c : nat) (t : mtables) : world :=
    mkworld (fun b => if Nat.eqb b c then Some t else w_own w b) (w_registry w) (w_attrs w).

  (** pdf_gen.py 78-91 [creation_method], [extraction_method], [reader_method] *)
  Definition method_of (w : world) (q : which) (c : nat) (m : option string) : option V :=
    get_val_or_default (tables_of w c q) m.
  (** pdf_gen.py 93-98 [add_method_dicts] *)
  Definition add_method_dicts (w : world) (c : nat) : world := set_own w c empty_tables.
  (** pdf_gen.py 100-113: the table found by attribute lookup is changed in place *)
  Definition register (w : world) (c : nat) (r : registration) : world :=
    let b := owner w c in
    let t := tables_at w b in
    set_own w b (fun q => if which_eqb q (r_which r) then fst (set_val_or_default (t q) (r_method r) (r_func r)) else t q).
  Definition add_mappings (w : world) (c : nat) : world := fold_left (fun w r => register w c r) (h_mappings H c) w.

  (** factory.py 77-101 [add_class]: the outcome and the state afterwards *)
  Definition add_class (w : world) (c : nat) : res unit * world :=
    match h_name H c with
    | None => (Err AttributeError, w)                                                  (* 87-91 *)
    | Some name =>
        if dmem String.eqb (w_registry w) name then (Err KeyError, w) else             (* 92-96 *)
        let w1 := add_mappings (add_method_dicts w c) c in                             (* 97-98 *)
        match h_fails H c with
        | Some x => (Err x, w1)
        | None =>
            (Ok tt, mkworld (w_own w1) (dset String.eqb (w_registry w1) name c)        (* 99 *)
               (dset String.eqb (dset String.eqb (w_attrs w1) (name ++ "_gen")%string (ClassAttr c)) name (CreateOf c)))
                                                                                       (* 100-101 *)
        end
    end.

  (** The methods of [Factory] that a user calls *)
  Definition builtins : list string :=
    ["add_class"; "create"; "from_tables"; "read_metadata"; "is_qp_file"; "read"; "data_length"; "iterator";
     "convert"; "pretty_print"; "concatenate"; "write_dict"; "read_dict"; "keys"; "items"; "get"; "pop"; "update"].
  (** Before any class is added; [Pdf_gen] has its own tables (pdf_gen.py 44-46). *)
  Definition start : world :=
    mkworld (fun b => if Nat.eqb b 0 then Some empty_tables else None) [] (map (fun n => (n, Builtin n)) builtins).

  (** What can happen to the registry *)
  Inductive action := AddClass (c : nat) | Register (c : nat) (r : registration).
  Definition act (w : world) (a : action) : world :=
    match a with AddClass c => snd (add_class w c) | Register c r => register w c r end.
  Definition acts (w : world) (l : list action) : world := fold_left act l w.
End Registry.
Arguments mkreg {V}. Arguments r_which {V}. Arguments r_func {V}. Arguments r_method {V}.
Arguments mkhier {V}. Arguments h_name {V}. Arguments h_mappings {V}. Arguments h_fails {V}. Arguments h_mro {V}.
Arguments mkworld {V}. Arguments w_own {V}. Arguments w_registry {V}. Arguments w_attrs {V}.
Arguments tables_at {V}. Arguments set_own {V}. Arguments add_method_dicts {V}. Arguments owner {V}.
Arguments method_of {V}. Arguments register {V}. Arguments add_mappings {V}. Arguments add_class {V}.
Arguments AddClass {V}. Arguments Register {V}. Arguments act {V}. Arguments acts {V}. Arguments empty_tables {V}. Arguments tables_of {V}.
