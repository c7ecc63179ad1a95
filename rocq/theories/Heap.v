(** Model of where ancillary data live: which ensembles hold the same dictionary object and the same array memory.
    ensemble.py 23-44 [__init__], 46-75 [__getitem__], 165-194 [update], [update_objdata], 233-247 [set_ancil], 249-265
    [add_to_ancil], 267-284 [append], 286-300 [build_tables]; factory.py 126-154 [from_tables], 317-358 [concatenate];
    dict_utils.py 111-134 [slice_dict], 136-148 [check_keys], 151-170 [concatenate_dicts], 173-187 [check_array_shapes].
    SIMPLIFICATIONS: the PDFs are only counted (their construction succeeds and the metadata match); columns are 1-d arrays. *)
From Coq Require Import String ZArith Bool List Arith.
From Verif Require Import Py NdArray.
Import ListNotations.
Local Open Scope string_scope.
Local Open Scope list_scope.
Local Open Scope nat_scope.

Section Heap.
  Context {V : Type}.
  (** A 1-d numpy array: element [j] lies at place [nth j a_pos] of buffer [a_buf].  A view has the buffer of its base. *)
  Record arr := mkarr { a_buf : nat; a_pos : list nat }.
  (** what a dictionary holds under a name: an array, or a numpy scalar (which cannot be written) *)
  Inductive cell := CArr (a : arr) | CScal (v : V).
  Notation columns := (dict string cell).
  (** Buffers, dictionary objects, and ensembles: number of PDFs and the dictionary [_ancil] refers to. *)
  Record heap := mkheap { bufs : list (list V); dicts : list columns; ensembles : list (nat * option nat) }.
  Definition empty : heap := mkheap [] [] [].

  Definition place (h : heap) (b p : nat) : option V := match nth_error (bufs h) b with Some l => nth_error l p | None => None end.
  Definition read (h : heap) (a : arr) : list (option V) := map (place h (a_buf a)) (a_pos a).

  Fixpoint set_nth {A} (l : list A) (i : nat) (x : A) : list A :=
    match l, i with
    | [], _ => []
    | _ :: t, O => x :: t
    | y :: t, S i => y :: set_nth t i x
    end.

  Definition dict_at (h : heap) (d : nat) : columns := nth d (dicts h) [].
  Definition new_dict (h : heap) (c : columns) : heap := mkheap (bufs h) (dicts h ++ [c]) (ensembles h).
  Definition new_ens (h : heap) (n : nat) (d : option nat) : heap := mkheap (bufs h) (dicts h) (ensembles h ++ [(n, d)]).
  Definition set_ens (h : heap) (o n : nat) (d : option nat) : heap := mkheap (bufs h) (dicts h) (set_nth (ensembles h) o (n, d)).

  (** a new array with the given values *)
  Definition alloc (h : heap) (l : list V) : heap * cell :=
    (mkheap (bufs h ++ [l]) (dicts h) (ensembles h), CArr (mkarr (length (bufs h)) (seq 0 (length l)))).
  Fixpoint alloc_all (h : heap) (cols : list (string * list V)) : heap * list (string * cell) :=
    match cols with
    | [] => (h, [])
    | (k, l) :: t => let (h1, c) := alloc h l in let (h2, r) := alloc_all h1 t in (h2, (k, c) :: r)
    end.

  (** dict_utils.py 173-187; [np.shape(val)[0]] of a scalar is an IndexError *)
  Fixpoint check_shapes (d : columns) (n : nat) : res unit :=
    match d with
    | [] => Ok tt
    | (_, CScal _) :: t => if n =? 1 then check_shapes t n else Err IndexError
    | (_, CArr a) :: t => if length (a_pos a) =? n then check_shapes t n else Err ValueError
    end.
  Definition check_ancil (h : heap) (d : option nat) (n : nat) : res unit :=
    match d with None => Ok tt | Some d => check_shapes (dict_at h d) n end.

  (** The values at some places, for a copy. *)
  Fixpoint fetch (l : list (option V)) : res (list V) :=
    match l with
    | [] => Ok []
    | Some v :: t => let* r := fetch t in Ok (v :: r)
    | None :: _ => Err IndexError
    end.
  Definition pick {A} (l : list A) (ps : list nat) : res (list A) :=
    mapM (fun p => match nth_error l p with Some x => Ok x | None => Err IndexError end) ps.

  (** dict_utils.py 127-134, [val[subslice]] for one column: numpy returns a view for a slice, a scalar for an int, and a copy
      for a mask or a list.  Indexing a numpy scalar raises IndexError, which is not caught. *)
  Definition slice_cell (h : heap) (key : pykey) (c : cell) : res (heap * cell) :=
    match c with
    | CScal _ => Err IndexError
    | CArr a =>
        match key_positions (length (a_pos a)) key with
        | None => Err IndexError
        | Some ps =>
            let* qs := pick (a_pos a) ps in
            match key with
            | KSlice _ _ => Ok (h, CArr (mkarr (a_buf a) qs))
            | KInt _ => let* vs := fetch (read h (mkarr (a_buf a) qs)) in
                        match vs with v :: _ => Ok (h, CScal v) | [] => Err IndexError end
            | KMask _ | KList _ => let* vs := fetch (read h (mkarr (a_buf a) qs)) in Ok (alloc h vs)
            end
        end
    end.
  Fixpoint slice_columns (h : heap) (key : pykey) (d : columns) : res (heap * columns) :=
    match d with
    | [] => Ok (h, [])
    | (k, c) :: t =>
        let* hc := slice_cell h key c in
        let* hr := slice_columns (fst hc) key t in
        Ok (fst hr, (k, snd hc) :: snd hr)
    end.

  (** dict_utils.py 136-170: the dictionaries must have the same names; [np.concatenate] copies, and refuses scalars. *)
  Definition gather_columns (h : heap) (k : string) (ds : list columns) : res (list V) :=
    let* ls := mapM (fun d => match dget String.eqb d k with
                              | Some (CArr a) => fetch (read h a)
                              | Some (CScal _) => Err ValueError
                              | None => Err KeyError
                              end) ds in
    Ok (concat ls).
  Definition same_names (d d' : columns) : bool :=
    forallb (fun k => dmem String.eqb d' k) (keys d) && forallb (fun k => dmem String.eqb d k) (keys d').
  Definition concatenate_columns (h : heap) (ds : list columns) : res (list (string * list V)) :=
    match ds with
    | [] => Ok []
    | d :: t => if forallb (same_names d) t
                then mapM (fun k => let* l := gather_columns h k ds in Ok (k, l)) (keys d) else Err ValueError
    end.

  (** What a user does. *)
  Inductive act :=
  | ADict (cols : list (string * list V))          (* d = {"a": np.array(..), ..} *)
  | ACopy (d : nat)                                (* d2 = dict(d) *)
  | ANew (n : nat) (d : option nat)                (* e = Ensemble(.., ancil=d) with n PDFs *)
  | AGet (o : nat) (key : pykey)                   (* e2 = e[key] *)
  | ASet (o : nat) (d : option nat)                (* e.set_ancil(d) *)
  | AAdd (o d : nat)                               (* e.add_to_ancil(d) *)
  | AUpdate (o n : nat) (d : option nat)           (* e.update(.., ancil=d) with n PDFs *)
  | AAppend (o o2 : nat)                           (* e.append(e2) *)
  | AConcat (os : list nat)                        (* e = qp.concatenate([..]) *)
  | ATables (o : nat)                              (* e2 = qp.from_tables(e.build_tables()) *)
  | AWrite (o : nat) (k : string) (j : nat) (v : V). (* e.ancil[k][j] = v *)

  Definition with_ens (h : heap) (o : nat) (f : nat -> option nat -> heap * res unit) : heap * res unit :=
    match nth_error (ensembles h) o with Some (n, d) => f n d | None => (h, Err KeyError) end.
  Definition known (h : heap) (d : nat) : bool := d <? length (dicts h).
  Definition known_opt (h : heap) (d : option nat) : bool := match d with Some d => known h d | None => true end.

  (** ensemble.py 23-44: the dictionary is kept as it is *)
  Definition create (h : heap) (n : nat) (d : option nat) : heap * res unit :=
    match check_ancil h d n with Ok _ => (new_ens h n d, Ok tt) | Err e => (h, Err e) end.
  (** ensemble.py 165-177: the PDFs are replaced before the dictionary is checked *)
  Definition update (h : heap) (o n : nat) (old d : option nat) : heap * res unit :=
    match check_ancil h d n with Ok _ => (set_ens h o n d, Ok tt) | Err e => (set_ens h o n old, Err e) end.
  (** the [_ancil] of every ensemble, or [None] if one of them has none: factory.py 338-344, ensemble.py 280-283 *)
  Definition gather_ancil (h : heap) (ds : list (option nat)) : option (list columns) :=
    fold_right (fun d r => match d, r with Some d, Some r => Some (dict_at h d :: r) | _, _ => None end) (Some []) ds.
  (** the concatenated dictionary, as a new object *)
  Definition joined (h : heap) (ds : list (option nat)) : res (heap * option nat) :=
    match gather_ancil h ds with
    | None => Ok (h, None)
    | Some l => let* cols := concatenate_columns h l in
                let (h1, c) := alloc_all h cols in Ok (new_dict h1 c, Some (length (dicts h)))
    end.

  Definition step (h : heap) (a : act) : heap * res unit :=
    match a with
    | ADict cols => let (h1, c) := alloc_all h cols in (new_dict h1 (dupdate String.eqb [] c), Ok tt)
    | ACopy d => if known h d then (new_dict h (dict_at h d), Ok tt) else (h, Err KeyError)
    | ANew n d => if known_opt h d then create h n d else (h, Err KeyError)
    | AGet o key =>
        with_ens h o (fun n d =>
          match key_positions n key with                                       (* the columns with the PDFs: 65-70 *)
          | None => (h, Err IndexError)
          | Some ps =>
              match d with
              | None => create h (length ps) None
              | Some d => match slice_columns h key (dict_at h d) with          (* 72 *)
                          | Err e => (h, Err e)
                          | Ok (h1, c) => create (new_dict h1 c) (length ps) (Some (length (dicts h)))
                          end
              end
          end)
    | ASet o d =>
        with_ens h o (fun n _ => if known_opt h d then
          match check_ancil h d n with Ok _ => (set_ens h o n d, Ok tt) | Err e => (h, Err e) end else (h, Err KeyError))
    | AAdd o d =>
        with_ens h o (fun n old => if known h d then
          match check_shapes (dict_at h d) n, old with
          | Err e, _ => (h, Err e)
          | Ok _, None => (h, Err AttributeError)                               (* None.update *)
          | Ok _, Some b => (mkheap (bufs h) (set_nth (dicts h) b (dupdate String.eqb (dict_at h b) (dict_at h d))) (ensembles h), Ok tt)
          end else (h, Err KeyError))
    | AUpdate o n d => with_ens h o (fun _ old => if known_opt h d then update h o n old d else (h, Err KeyError))
    | AAppend o o2 =>
        with_ens h o (fun n d => with_ens h o2 (fun n2 d2 =>
          match joined h [d; d2] with
          | Err e => (h, Err e)
          | Ok (h1, r) => update h1 o (n + n2) d r
          end))
    | AConcat os =>
        match pick (ensembles h) os with
        | Err _ => (h, Err KeyError)
        | Ok [] => (h, Ok tt)                                                   (* factory.py 330-331: returns None *)
        | Ok l => match joined h (map snd l) with
                  | Err e => (h, Err e)
                  | Ok (h1, r) => create h1 (list_sum (map fst l)) r
                  end
        end
    | ATables o => with_ens h o (fun n d => create h n d)                       (* the table "ancil" is the dictionary itself *)
    | AWrite o k j v =>
        with_ens h o (fun _ d =>
          match d with
          | None => (h, Err TypeError)
          | Some d => match dget String.eqb (dict_at h d) k with
                      | None => (h, Err KeyError)
                      | Some (CScal _) => (h, Err TypeError)
                      | Some (CArr a) =>
                          match nth_error (a_pos a) j with
                          | None => (h, Err IndexError)
                          | Some p => (mkheap (set_nth (bufs h) (a_buf a) (set_nth (nth (a_buf a) (bufs h) []) p v)) (dicts h) (ensembles h), Ok tt)
                          end
                      end
          end)
    end.

  (** What [e.ancil] shows. *)
  Inductive seen := SArr (l : list (option V)) | SScal (v : V).
  Definition see (h : heap) (c : cell) : seen := match c with CArr a => SArr (read h a) | CScal v => SScal v end.
  Definition shown (h : heap) (o : nat) : option (list (string * seen)) :=
    match nth_error (ensembles h) o with
    | Some (_, Some d) => Some (map (fun kc => (fst kc, see h (snd kc))) (dict_at h d))
    | _ => None
    end.
End Heap.
Arguments heap : clear implicits.
Arguments act : clear implicits.
Arguments cell : clear implicits.
