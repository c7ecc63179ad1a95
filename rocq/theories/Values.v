(** The values stored in the dictionaries of an ensemble, the numpy functions that
    qp applies to them, and the model of qp/dict_utils.py. *)
From Coq Require Import String List Arith ZArith Bool.
From Verif Require Import Num Py NdArray NumpyLib.
Import ListNotations.

(** Arrays of numbers, of bytes (unsigned integers) or of strings; Python numbers,
    strings and None.  Booleans are the numbers 0 and 1; byte strings and strings are
    not distinguished. *)
Inductive value (T : Type) :=
| VArr (a : nd T) | VByt (a : nd Z) | VTxt (a : nd string)
| VNum (t : T) | VStr (s : string) | VNone.
Arguments VArr {T} a.
Arguments VByt {T} a.
Arguments VTxt {T} a.
Arguments VNum {T} t.
Arguments VStr {T} s.
Arguments VNone {T}.

Notation vdict T := (dict string (value T)).
Definition vget {V} (d : dict string V) (k : string) : option V := dget String.eqb d k.
Definition vset {V} (d : dict string V) (k : string) (v : V) : dict string V := dset String.eqb d k v.
Definition vupdate {V} (d d2 : dict string V) : dict string V := dupdate String.eqb d d2.
Definition vremove {V} (d : dict string V) (k : string) : dict string V := dremove String.eqb d k.

Section Values.
  Context {T : Type} {N : Num T}.
  Local Open Scope num_scope.

  (** [np.shape(v)], [np.size(v)] *)
  Definition v_shape (v : value T) : list nat :=
    match v with VArr a => shp a | VByt a => shp a | VTxt a => shp a | _ => [] end.
  Definition v_size (v : value T) : nat := prod (v_shape v).

  (** [v[key]].  Python numbers and None cannot be indexed (TypeError); strings are
      indexed by characters. *)
  Definition v_getitem (v : value T) (k : pykey) : res (value T) :=
    match v with
    | VArr a => let* b := np_getitem a k in Ok (VArr b)
    | VByt a => let* b := np_getitem a k in Ok (VByt b)
    | VTxt a => let* b := np_getitem a k in Ok (VTxt b)
    | VNum _ | VNone => Err TypeError
    | VStr s =>
        match k with
        | KInt i => match norm_index (String.length s) i with
                    | Some p => Ok (VStr (substring p 1 s)) | None => Err IndexError end
        | KSlice i j => let lo := norm_bound (String.length s) i in
                        Ok (VStr (substring lo (norm_bound (String.length s) j - lo) s))
        | _ => Err TypeError
        end
    end.

  (** [np.squeeze(v)].  SIMPLIFICATION: None stays None (numpy makes an object array). *)
  Definition v_squeeze (v : value T) : value T :=
    match v with
    | VArr a => VArr (np_squeeze a) | VByt a => VByt (np_squeeze a) | VTxt a => VTxt (np_squeeze a)
    | VNum t => VArr (nd0 t) | VStr s => VTxt (nd0 s) | VNone => VNone
    end.
  (** [np.expand_dims(v, 0)] and [np.expand_dims(v, -1)] *)
  Definition v_expand_first (v : value T) : value T :=
    match v with
    | VArr a => VArr (expand_first a) | VByt a => VByt (expand_first a) | VTxt a => VTxt (expand_first a)
    | VNum t => VArr (nd1 [t]) | VStr s => VTxt (nd1 [s]) | VNone => VNone
    end.
  Definition v_expand_last (v : value T) : value T :=
    match v with
    | VArr a => VArr (expand_last a) | VByt a => VByt (expand_last a) | VTxt a => VTxt (expand_last a)
    | VNum t => VArr (nd1 [t]) | VStr s => VTxt (nd1 [s]) | VNone => VNone
    end.

  (** [np.concatenate(vs)].  Python scalars and 0-d arrays raise ValueError.
      SIMPLIFICATION: arrays of different kinds are a TypeError (numpy would promote). *)
  Definition as_arr (v : value T) : res (nd T) := match v with VArr a => Ok a | VByt _ | VTxt _ => Err TypeError | _ => Err ValueError end.
  Definition as_byt (v : value T) : res (nd Z) := match v with VByt a => Ok a | VArr _ | VTxt _ => Err TypeError | _ => Err ValueError end.
  Definition as_txt (v : value T) : res (nd string) := match v with VTxt a => Ok a | VArr _ | VByt _ => Err TypeError | _ => Err ValueError end.
  Definition v_concatenate (vs : list (value T)) : res (value T) :=
    match vs with
    | VArr _ :: _ => let* l := mapM as_arr vs in let* a := np_concatenate l in Ok (VArr a)
    | VByt _ :: _ => let* l := mapM as_byt vs in let* a := np_concatenate l in Ok (VByt a)
    | VTxt _ :: _ => let* l := mapM as_txt vs in let* a := np_concatenate l in Ok (VTxt a)
    | _ => Err ValueError
    end.

  (** [np.allclose(a, b)] on equally long data: |a - b| <= 1e-8 + 1e-5 |b| *)
  Definition np_allclose (a b : list T) : bool := forallb (fun x => x) (map2 np_isclose a b).

  (** One pass of the loop of [compare_two_dicts] (dict_utils.py 201-207): [v != vv] is
      decided exactly for single elements; for larger arrays it raises ValueError and
      [np.allclose] decides.  SIMPLIFICATION: shapes that differ raise ValueError unless
      one of the arrays has one element (then numpy broadcasts it); two arrays of several
      strings, which no class stores, are an error. *)
  Definition pairs_of {A} (a b : nd A) : option (list A * list A) :=
    if list_eq_dec Nat.eq_dec (shp a) (shp b) then Some (dat a, dat b)
    else match dat a, dat b with
         | [x], l => Some (map (fun _ => x) l, l)
         | l, [y] => Some (l, map (fun _ => y) l)
         | _, _ => None
         end.
  Definition v_match (v vv : value T) : res bool :=
    match v, vv with
    | VArr a, VArr b =>
        match pairs_of a b with
        | None => Err ValueError
        | Some ([x], [y]) => Ok (x =? y)
        | Some (l, l') => Ok (np_allclose l l')
        end
    | VByt a, VByt b =>
        match pairs_of a b with
        | None => Err ValueError
        | Some ([x], [y]) => Ok (Z.eqb x y)
        | Some (l, l') => Ok (np_allclose (map nofZ l) (map nofZ l'))
        end
    | VTxt a, VTxt b =>
        match pairs_of a b with
        | None => Err ValueError
        | Some ([x], [y]) => Ok (String.eqb x y)
        | Some _ => Err TypeError
        end
    | VNum x, VNum y => Ok (x =? y)
    | VStr x, VStr y => Ok (String.eqb x y)
    | VNone, VNone => Ok true
    | _, _ => Ok false
    end.

  (** [d1.keys() == d2.keys()] (set comparison) *)
  Definition same_keys {V} (d1 d2 : dict string V) : bool :=
    forallb (fun k => dmem String.eqb d2 k) (keys d1) && forallb (fun k => dmem String.eqb d1 k) (keys d2).

  (** dict_utils.py 111-133 [slice_dict] *)
  Definition slice_dict (d : vdict T) (k : pykey) : res (vdict T) :=
    mapM (fun kv => match v_getitem (snd kv) k with
                    | Ok v => Ok (fst kv, v)
                    | Err KeyError | Err TypeError => Ok kv
                    | Err e => Err e
                    end) d.

  (** dict_utils.py 136-148 [check_keys] *)
  Definition check_keys (ds : list (vdict T)) : res unit :=
    match ds with
    | [] => Ok tt
    | d0 :: ds' => if forallb (same_keys d0) ds' then Ok tt else Err ValueError
    end.

  (** dict_utils.py 151-170 [concatenate_dicts] *)
  Definition concatenate_dicts (ds : list (vdict T)) : res (vdict T) :=
    match ds with
    | [] => Ok []
    | d0 :: _ =>
        let* _ := check_keys ds in
        mapM (fun k =>
          let* vs := mapM (fun d => match vget d k with Some v => Ok v | None => Err KeyError end) ds in
          let* v := v_concatenate vs in Ok (k, v)) (keys d0)
    end.

  (** dict_utils.py 173-187 [check_array_shapes]; [np.shape(val)[0]] of a scalar is an IndexError. *)
  Fixpoint check_columns (d : vdict T) (npdf : nat) : res unit :=
    match d with
    | [] => Ok tt
    | (_, v) :: t =>
        if (v_size v =? 1)%nat && (npdf =? 1)%nat then check_columns t npdf
        else match v_shape v with
             | [] => Err IndexError
             | n :: _ => if (n =? npdf)%nat then check_columns t npdf else Err ValueError
             end
    end.
  Definition check_array_shapes (d : option (vdict T)) (npdf : nat) : res unit :=
    match d with None => Ok tt | Some d => check_columns d npdf end.

  (** dict_utils.py 190-208 [compare_two_dicts] *)
  Fixpoint compare_items (d1 d2 : vdict T) : res bool :=
    match d1 with
    | [] => Ok true
    | (k, v) :: t =>
        match vget d2 k with
        | None => Err KeyError
        | Some vv => let* b := v_match v vv in if b then compare_items t d2 else Ok false
        end
    end.
  Definition compare_two_dicts (d1 d2 : vdict T) : res bool :=
    if same_keys d1 d2 then compare_items d1 d2 else Ok false.
  (** dict_utils.py 211-225 [compare_dicts] *)
  Fixpoint compare_all (d0 : vdict T) (ds : list (vdict T)) : res bool :=
    match ds with
    | [] => Ok true
    | d :: t => let* b := compare_two_dicts d0 d in if b then compare_all d0 t else Ok false
    end.
  Definition compare_dicts (ds : list (vdict T)) : res bool :=
    match ds with [] => Ok true | d0 :: t => compare_all d0 t end.
End Values.

(** dict_utils.py 8-36 [get_val_or_default]: keys are method names (or None) *)
Definition get_val_or_default {V} (d : dict (option string) V) (k : option string) : option V :=
  match dget okey_eqb d k with
  | Some v => Some v
  | None => dget okey_eqb d None
  end.
(** dict_utils.py 39-68 [set_val_or_default]: the dictionary afterwards and the value returned *)
Definition set_val_or_default {V} (d : dict (option string) V) (k : option string) (v : V)
  : dict (option string) V * V :=
  match dget okey_eqb d k with
  | Some w => (d, w)
  | None => (dset okey_eqb d k v, v)
  end.
