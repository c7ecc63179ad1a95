(** Registrations and conversions for which the general claims fail, and what qp's own classes
    register. *)
From Coq Require Import String List Arith ZArith QArith Bool.
From Verif Require Import Num Py NdArray NumpyLib ScipyWrap Values Ensemble Classes Registry Convert EnsembleRefuted.
Import ListNotations.
Local Open Scope string_scope.
Local Open Scope list_scope.
Local Open Scope nat_scope.

(** ** Registrations *)
(** Classes 1 and 2, called "foo" and "bar"; class 3 is called "foo_gen", class 4 "create".  Each
    registers its own number as default creation function. *)
Definition names4 (c : nat) : option string := match c with 1 => Some "foo" | 2 => Some "bar" | 3 => Some "foo_gen" | 4 => Some "create" | _ => None end.
Definition classes4 : hierarchy nat := mkhier names4 (fun c => [mkreg Creation c None]) (fun _ => None) (fun c => [c; 0]).
(** A function registered on a class that is not in the factory yet goes to the tables of the
    common base class: another class sees it, and the class itself no longer does once it is added. *)
Lemma c33_leak_refuted : exists (H : hierarchy nat) r,
  r_method r = Some "fast" /\ r_which r = Creation /\
  let w := register H (start nat) 1 r in
  h_mappings H 2 = [mkreg Creation 2 None] /\ method_of H w Creation 2 (Some "fast") = Some (r_func r) /\
  fst (add_class H w 1) = Ok tt /\ method_of H (snd (add_class H w 1)) Creation 1 (Some "fast") = Some 1 /\ r_func r <> 1.
Proof. exists classes4, (mkreg Creation 9 (Some "fast")). vm_compute. repeat split. discriminate. Qed.
(** The attributes of the factory can be overwritten: by a class called like a method, and by a
    class called like the attribute of another class. *)
Lemma c82_shadow : exists (H : hierarchy nat) w,
  w = acts H (start nat) [AddClass 1; AddClass 4; AddClass 3] /\
  dget String.eqb (w_registry w) "foo" = Some 1 /\
  dget String.eqb (w_attrs (start nat)) "create" = Some (Builtin "create") /\ dget String.eqb (w_attrs w) "create" = Some (CreateOf 4) /\
  dget String.eqb (w_attrs (act H (start nat) (AddClass 1))) "foo_gen" = Some (ClassAttr 1) /\ dget String.eqb (w_attrs w) "foo_gen" = Some (CreateOf 3).
Proof. exists classes4, (acts classes4 (start nat) [AddClass 1; AddClass 4; AddClass 3]). vm_compute. repeat split. Qed.

(** ** Conversions *)
Definition noext : extractor (T := Q) := fun _ _ => Err NotModelled.
Definition hierQ : hierarchy (mfunc (T := Q)) :=
  qp_hierarchy (fun x => nmax 0 (1 - nabs x))%Q ramp interp1d (fun xs ys x => interp1d xs ys 0 0 x)%Q (fun xs ys x => nth0 0 xs)
    (fun x => x) (fun x => x) (fun x _ _ => nmax 0 (1 - nabs x))%Q (fun x => x) (fun p => Fin (2 * p - 1)%Q) noext noext noext.
Definition worldQ : world (mfunc (T := Q)) :=
  qp_world (fun x => nmax 0 (1 - nabs x))%Q ramp interp1d (fun xs ys x => interp1d xs ys 0 0 x)%Q (fun xs ys x => nth0 0 xs)
    (fun x => x) (fun x => x) (fun x _ _ => nmax 0 (1 - nabs x))%Q (fun x => x) (fun p => Fin (2 * p - 1)%Q) noext noext noext.
(** The uniform distribution on [0, 3] in the bins [0, 1], [1, 3]: the probabilities 1/3, 2/3 become 1/5, 4/5. *)
Lemma c34_widths_refuted : exists d bins,
  bins = [0; 1; 3]%Q /\
  yields (newQ "hist" d None) (fun e =>
    ens_pdf e (PGrid [1 # 2; 5 # 2]%Q) = Ok [[Fin (1 # 3); Fin (1 # 3)]]%Q /\
    ens_cdf e (PGrid bins) = Ok [[Fin 0; Fin (1 # 3); Fin 1]]%Q /\
    yields (factory_convert hierQ worldQ e "hist" [("bins", VArr (nd1 bins))]) (fun e' =>
      ens_cdf e' (PGrid bins) = Ok [[Fin 0; Fin (1 # 5); Fin 1]]%Q)).
Proof. exists [("bins", VArr (nd1 [0; 3]%Q)); ("pdfs", VArr (nd2 1 [[1]]%Q))], [0; 1; 3]%Q. split; [reflexivity|]. vm_compute. repeat split. Qed.
(** A class that registers an extraction function but no creation function: the two entry points
    raise different exceptions. *)
Definition nocreate : hierarchy (mfunc (T := Q)) :=
  mkhier (fun c => match c with 1 => Some "foo" | _ => None end) (fun _ => [mkreg Extraction (ExtractFun extract_vals_at_x) None]) (fun _ => None) (fun c => [c; 0]).
Lemma c35_exceptions_refuted : exists (H : hierarchy (mfunc (T := Q))) w d kw,
  w = acts H (start _) [AddClass 1] /\ dget String.eqb (w_registry w) "foo" = Some 1 /\
  yields (newQ "hist" d None) (fun e =>
    factory_convert H w e "foo" kw = Err TypeError /\ convert_to H w e 1 kw = Err KeyError).
Proof.
  exists nocreate, (acts nocreate (start _) [AddClass 1]), two_hists, [("xvals", VArr (nd1 [0; 1; 2]%Q))]. split; [reflexivity|]. split; [reflexivity|].
  vm_compute. repeat split.
Qed.
