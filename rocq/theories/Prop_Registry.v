(** The class registry and the method tables: C32, C33, C82, C83. *)
From Coq Require Import String List Arith Bool.
From Verif Require Import Py Values Ensemble Registry RegistryTheorems Convert ConvertTheorems ConvertRefuted ConvertExamples.
Import ListNotations.
Local Open Scope string_scope.
Local Open Scope list_scope.
Local Open Scope nat_scope.

(** C32, one registration in any state: an anonymous class is refused, a used name is refused with KeyError, in both cases
    nothing changes; otherwise the class becomes available under its name, all other names and the methods of all other classes with
    tables of their own stay as they were. *)
Theorem C32_add : forall V (H : hierarchy V), mro_ok H ->
  forall w c,
    (h_name H c = None -> add_class H w c = (Err AttributeError, w)) /\
    (forall n, h_name H c = Some n -> dget String.eqb (w_registry w) n <> None -> add_class H w c = (Err KeyError, w)) /\
    (forall n, h_name H c = Some n -> dget String.eqb (w_registry w) n = None ->
       exists w', add_class H w c = (match h_fails H c with Some x => Err x | None => Ok tt end, w') /\
         (forall b, w_own w b <> None -> b <> c -> methods_same H w w' b) /\
         (forall q m, resolution (h_mappings H c) q m (method_of H w' q c m)) /\
         match h_fails H c with
         | Some x => w_registry w' = w_registry w /\ w_attrs w' = w_attrs w
         | None =>
             w_registry w' = w_registry w ++ [(n, c)] /\ dget String.eqb (w_registry w') n = Some c /\
             (forall n', n' <> n -> dget String.eqb (w_registry w') n' = dget String.eqb (w_registry w) n') /\
             dget String.eqb (w_attrs w') n = Some (CreateOf c) /\ dget String.eqb (w_attrs w') (n ++ "_gen")%string = Some (ClassAttr c) /\
             (forall a, a <> n -> a <> (n ++ "_gen")%string -> dget String.eqb (w_attrs w') a = dget String.eqb (w_attrs w) a)
         end).
Proof. exact @c32_add. Qed.

(** C32, any sequence of registrations: no name occurs twice, every class sits under its own name, and no registration is ever
    lost or replaced. *)
Theorem C32_history : forall V (H : hierarchy V), mro_ok H ->
  forall l l',
    let w := acts H (start V) l in let w' := acts H (start V) (l ++ l') in
    NoDup (keys (w_registry w)) /\
    (forall n c, In (n, c) (w_registry w) <-> dget String.eqb (w_registry w) n = Some c) /\
    (forall n c, dget String.eqb (w_registry w) n = Some c -> h_name H c = Some n /\ dget String.eqb (w_registry w') n = Some c) /\
    exists t, w_registry w' = w_registry w ++ t.
Proof. exact @c32_history. Qed.

(** C82: adding a class sets exactly two attributes of the factory, whatever they referred to before. *)
Theorem C82_attributes : forall V (H : hierarchy V), mro_ok H -> forall w c n w',
  h_name H c = Some n -> add_class H w c = (Ok tt, w') ->
  dget String.eqb (w_attrs w') n = Some (CreateOf c) /\ dget String.eqb (w_attrs w') (n ++ "_gen")%string = Some (ClassAttr c) /\
  forall a, a <> n -> a <> (n ++ "_gen")%string -> dget String.eqb (w_attrs w') a = dget String.eqb (w_attrs w) a.
Proof. exact c82_attributes. Qed.

(** ... in particular a class called like a method of the factory, or like the attribute of another class, overwrites it. *)
Example C82_attributes_example : exists (H : hierarchy nat) w,
  w = acts H (start nat) [AddClass 1; AddClass 4; AddClass 3] /\
  dget String.eqb (w_registry w) "foo" = Some 1 /\
  dget String.eqb (w_attrs (start nat)) "create" = Some (Builtin "create") /\ dget String.eqb (w_attrs w) "create" = Some (CreateOf 4) /\
  dget String.eqb (w_attrs (act H (start nat) (AddClass 1))) "foo_gen" = Some (ClassAttr 1) /\ dget String.eqb (w_attrs w) "foo_gen" = Some (CreateOf 3).
Proof. exact c82_shadow. Qed.

(** C33 for histories in which functions are only registered on classes that are in the factory (missing: registrations on
    classes that have not been added, see the refutation): a lookup gives the first function registered for the class under that
    method, else the first default, else nothing. *)
Theorem C33_resolution_partial : forall V (H : hierarchy V), mro_ok H ->
  forall l c w l', w = snd (add_class H (acts H (start V) l) c) ->
    fst (add_class H (acts H (start V) l) c) = Ok tt -> orderly H w l' ->
    forall q m, resolution (h_mappings H c ++ made_on c l') q m (method_of H (acts H w l') q c m).
Proof. exact @c33_resolution. Qed.

(** C33 is false for registrations on a class that is not in the factory: the function is seen by another class, and it is lost
    when the class is added. *)
Theorem C33_leak_refuted : exists (H : hierarchy nat) r,
  r_method r = Some "fast" /\ r_which r = Creation /\
  let w := register H (start nat) 1 r in
  h_mappings H 2 = [mkreg Creation 2 None] /\ method_of H w Creation 2 (Some "fast") = Some (r_func r) /\
  fst (add_class H w 1) = Ok tt /\ method_of H (snd (add_class H w 1)) Creation 1 (Some "fast") = Some 1 /\ r_func r <> 1.
Proof. exact c33_leak_refuted. Qed.

(** C83: the exact statement for registered classes, *)
Theorem C83_resolution : forall V (H : hierarchy V), mro_ok H ->
  forall l c w l', w = snd (add_class H (acts H (start V) l) c) ->
    fst (add_class H (acts H (start V) l) c) = Ok tt -> orderly H w l' ->
    forall q m, resolution (h_mappings H c ++ made_on c l') q m (method_of H (acts H w l') q c m).
Proof. exact @c33_resolution. Qed.

(** which determines the result. *)
Theorem C83_unique : forall V (rs : list (registration V)) q m o o',
  resolution rs q m o -> resolution rs q m o' -> o = o'.
Proof. exact @resolution_unique. Qed.

(** (a class with a default method, on which two functions are registered under the same name) *)
Example C83_example : exists (H : hierarchy nat) l c w l', mro_ok H /\ w = snd (add_class H (acts H (start nat) l) c) /\
  fst (add_class H (acts H (start nat) l) c) = Ok tt /\ orderly H w l' /\ length (h_mappings H c) = 1%nat /\ length (made_on c l') = 2%nat /\
  method_of H (acts H w l') Creation c (Some "fast") = Some 8%nat.
Proof. exact c83_example. Qed.

Print Assumptions C32_add.
Print Assumptions C32_history.
Print Assumptions C33_resolution_partial.
Print Assumptions C33_leak_refuted.
Print Assumptions C82_attributes.
Print Assumptions C83_resolution.
Print Assumptions C83_unique.
