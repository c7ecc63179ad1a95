(** Model of the HDF5 files of qp: whole and chunked writing (ensemble.py 344-360, 632-690), reading, is_qp_file and the
    chunked iterator (factory.py 156-273), and of the functions of tables_io they call. *)
From Coq Require Import String List Arith ZArith Bool.
From Verif Require Import Num Py NdArray NumpyLib ScipyWrap Values Ensemble.
Import ListNotations.
Local Open Scope string_scope.
Local Open Scope list_scope.

(** ** Ranges of tables_io *)
(** [n // chunk], plus 1 if there is a rest *)
Definition n_chunks (n chunk : nat) : nat := n / chunk + (if (n mod chunk =? 0)%nat then 0 else 1).
(** [split_tasks_by_rank]: task i goes to rank [i % size] *)
Definition tasks_of_rank (tasks size rank : nat) : list nat := filter (fun i => (i mod size =? rank)%nat) (seq 0 tasks).
(** [data_ranges_by_rank]; Python's [//] and [%] fail on zero *)
Definition data_ranges (n chunk size rank : nat) : res (list (nat * nat)) :=
  if (chunk =? 0)%nat then Err ZeroDivisionError
  else if (size =? 0)%nat && (0 <? n_chunks n chunk)%nat then Err ZeroDivisionError
  else Ok (map (fun i => (i * chunk, Nat.min ((i + 1) * chunk) n)) (tasks_of_rank (n_chunks n chunk) size rank)).

Section Hdf5.
  Context {T : Type} {N : Num T}.
  (** The classes in the factory *)
  Variable class_create : string -> option (vdict T -> res (gobj T)).

  (** h5py lists the members of a group ordered by name *)
  Fixpoint insert_name {V} (kv : string * V) (d : dict string V) : dict string V :=
    match d with
    | [] => [kv]
    | x :: t => if String.leb (fst kv) (fst x) then kv :: x :: t else x :: insert_name kv t
    end.
  Definition by_name {V} (d : dict string V) : dict string V := fold_right insert_name [] d.

  (** A file: its groups, each with its datasets ordered by name *)
  Local Notation group := (vdict T).
  Definition h5file := dict string group.

  (** ** Writing a whole ensemble: [write_to], ensemble.py 344-360.  SIMPLIFICATION: text columns are byte strings
      (h5py rejects arrays of unicode strings). *)
  Definition store (t : tables T) : h5file :=
    [("meta", by_name (t_meta t)); ("data", by_name (t_data t))] ++
    match t_ancil t with None => [] | Some a => [("ancil", by_name a)] end.

  (** ** Chunked writing *)
  (** ensemble.py 632-642 [_get_allocation_kwds] for one array, and h5py's [create_dataset]: zeros (empty strings).
      Python scalars have no [shape]. *)
  Definition blank (n : nat) (v : value T) : res (value T) :=
    match v with
    | VArr a => match shp a with [] => Err IndexError | _ :: s => Ok (VArr (mknd (n :: s) (repeat n0 (n * prod s)))) end
    | VByt a => match shp a with [] => Err IndexError | _ :: s => Ok (VByt (mknd (n :: s) (repeat 0%Z (n * prod s)))) end
    | VTxt a => match shp a with [] => Err IndexError | _ :: s => Ok (VTxt (mknd (n :: s) (repeat "" (n * prod s)))) end
    | _ => Err AttributeError
    end.
  Definition allocate (n : nat) (d : vdict T) : res group :=
    let* l := mapM (fun kv => let* v := blank n (snd kv) in Ok (fst kv, v)) d in Ok (by_name l).
  (** ensemble.py 644-660 [initializeHdf5Write] *)
  Definition initialize (e : ens T) (n : nat) : res h5file :=
    let* data := allocate n (objdata e) in
    match e_ancil e with
    | None => Ok [("data", data)]
    | Some a => let* anc := allocate n a in Ok [("data", data); ("ancil", anc)]
    end.

  (** [dataset[start:stop] = v] of h5py: the range is clipped to the dataset, an empty selection writes nothing, an
      array with one row is written to every row of the range, and any other mismatch is a TypeError.
      SIMPLIFICATION: the trailing shapes must agree (h5py also broadcasts trailing axes). *)
  Definition write_nd {A} (d : nd A) (start stop : nat) (v : nd A) : res (nd A) :=
    match shp d, shp v with
    | n :: rest, m :: rest' =>
        let hi := Nat.min stop n in
        if (hi <=? start)%nat then Ok d
        else if list_eq_dec Nat.eq_dec rest rest' then
          let put rows := Ok (mknd (n :: rest) (concat (firstn start (rows_of d) ++ rows ++ skipn hi (rows_of d)))) in
          if (m =? hi - start)%nat then put (rows_of v)
          else if (m =? 1)%nat then put (repeat (dat v) (hi - start))
          else Err TypeError
        else Err TypeError
    | _, _ => Err TypeError
    end.
  (** SIMPLIFICATION: an array of another kind of entries is a TypeError (h5py converts numbers). *)
  Definition write_value (d : value T) (start stop : nat) (v : value T) : res (value T) :=
    match d, v with
    | VArr a, VArr b => let* c := write_nd a start stop b in Ok (VArr c)
    | VByt a, VByt b => let* c := write_nd a start stop b in Ok (VByt c)
    | VTxt a, VTxt b => let* c := write_nd a start stop b in Ok (VTxt c)
    | _, _ => Err TypeError
    end.
  (** One write to one dataset: the step that different processes can interleave *)
  Record step := mkstep { s_group : string; s_key : string; s_start : nat; s_stop : nat; s_value : value T }.
  Definition write_step (f : h5file) (s : step) : res h5file :=
    match vget f (s_group s) with
    | None => Err KeyError
    | Some g =>
        match vget g (s_key s) with
        | None => Err KeyError
        | Some d => let* d' := write_value d (s_start s) (s_stop s) (s_value s) in
                    Ok (vset f (s_group s) (vset g (s_key s) d'))
        end
    end.
  (** A sequence of steps; it stops at the first exception and keeps what was written *)
  Fixpoint write_steps (f : h5file) (l : list step) : res unit * h5file :=
    match l with
    | [] => (Ok tt, f)
    | s :: t => match write_step f s with Err x => (Err x, f) | Ok f' => write_steps f' t end
    end.
  (** ensemble.py 662-676 [writeHdf5Chunk] and tables_io's [writeDictToHdf5Chunk]: for every group of the file, every
      column of the table with that name.  A table that the ensemble lacks is a KeyError after the earlier groups. *)
  Definition group_steps (name : string) (d : vdict T) (start stop : nat) : list step :=
    map (fun kv => mkstep name (fst kv) start stop (snd kv)) d.
  Definition chunk_table (e : ens T) (name : string) : option (vdict T) :=
    if name =? "data" then Some (objdata e) else if name =? "ancil" then e_ancil e else None.
  Fixpoint write_groups (f : h5file) (names : list string) (e : ens T) (start stop : nat) : res unit * h5file :=
    match names with
    | [] => (Ok tt, f)
    | name :: t =>
        match chunk_table e name with
        | None => (Err KeyError, f)
        | Some d => match write_steps f (group_steps name d start stop) with
                    | (Err x, f') => (Err x, f')
                    | (Ok _, f') => write_groups f' t e start stop
                    end
        end
    end.
  Definition write_chunk (f : h5file) (e : ens T) (start stop : nat) : res unit * h5file :=
    write_groups f (keys f) e start stop.

  (** ensemble.py 678-690 [finalizeHdf5Write]: creates the group "meta" (ValueError if it exists), then its datasets
      one after the other in the order of the metadata.  [finalizing f md i]: the file after [i] of them. *)
  Definition finalizing (f : h5file) (md : vdict T) (i : nat) : h5file := f ++ [("meta", by_name (firstn i md))].
  Definition finalize (f : h5file) (e : ens T) : res unit * h5file :=
    match vget f "meta" with
    | Some _ => (Err ValueError, f)
    | None => (Ok tt, finalizing f (metadata e) (length (metadata e)))
    end.

  (** ** Reading *)
  (** factory.py 166-187 [is_qp_file]: any exception means False *)
  Definition is_qp_file (f : h5file) : bool :=
    match vget f "meta" with
    | None => false
    | Some m => match vget m "pdf_name" with
                | None => false
                | Some v => match v_shape v with [] => false | n :: _ => (0 <? n)%nat end
                end
    end.
  (** factory.py 156-164 [read_metadata] *)
  Definition read_metadata (f : h5file) : res (vdict T) :=
    match vget f "meta" with None => Err KeyError | Some m => Ok m end.
  (** factory.py 189-213 [read] *)
  Definition read_file (f : h5file) : res (ens T) :=
    match vget f "meta", vget f "data" with
    | Some m, Some d => from_tables class_create (mktables m d (vget f "ancil"))
    | _, _ => Err KeyError
    end.

  (** tables_io's [getGroupInputDataLength]: the columns must have the same length; an empty group is an IndexError *)
  Definition v_len (v : value T) : res nat := match v_shape v with [] => Err TypeError | n :: _ => Ok n end.
  Definition group_length (g : group) : res nat :=
    match g with
    | [] => Err IndexError
    | (_, v) :: _ =>
        let* n := v_len v in
        let* ns := mapM (fun kv => v_len (snd kv)) g in
        if forallb (Nat.eqb n) ns then Ok n else Err ValueError
    end.
  (** factory.py 215-228 [data_length] *)
  Definition data_length (f : h5file) : res nat :=
    match vget f "data" with None => Err KeyError | Some d => group_length d end.

  (** ** The chunked iterator, factory.py 230-273 *)
  (** [dataset[start:stop]] for every dataset of a group (257-261), stored into a dictionary *)
  Definition read_rows (into : vdict T) (g : group) (start stop : nat) : res (vdict T) :=
    let* l := mapM (fun kv => let* v := v_getitem (snd kv) (KSlice (Z.of_nat start) (Z.of_nat stop)) in Ok (fst kv, v)) g in
    Ok (vupdate into l).
  (** The state of the generator between two yields: the dictionaries [data] and [ancil_data] (each ONE object, filled
      anew for every range), and the ranges to come. *)
  Record iter := mkiter {
    it_func : vdict T -> res (gobj T); it_file : group; it_ancil_file : option group;
    it_data : vdict T; it_ancil : vdict T; it_ranges : list (nat * nat) }.
  (** [metadata.pop("pdf_name")[0]]: the metadata of a file are arrays *)
  Definition first_text (v : value T) : res string :=
    match v with
    | VTxt a => match shp a, dat a with [], _ => Err IndexError | _, s :: _ => Ok s | _, [] => Err IndexError end
    | _ => Err AttributeError
    end.
  (** 241-255 *)
  Definition iter_open (f : h5file) (chunk rank size : nat) : res iter :=
    let* md := read_metadata f in
    match vget md "pdf_name", vget md "pdf_version" with
    | Some v, Some _ =>
        let* name := first_text v in
        match class_create name with
        | None => Err KeyError
        | Some c =>
            match vget f "data" with
            | None => Err KeyError
            | Some d =>
                let* n := group_length d in
                let* ranges := data_ranges n chunk size rank in
                let* data := build_data_dict (vremove (vremove md "pdf_name") "pdf_version") [] in
                Ok (mkiter c d (vget f "ancil") data [] ranges)
            end
        end
    | _, _ => Err KeyError
    end.
  (** 256-263: one step of the generator.  The yielded ensemble holds the object [ancil_data] itself: [y_ens] is the
      ensemble at the moment of the yield. *)
  Record yielded := mkyielded { y_start : nat; y_stop : nat; y_ens : ens T }.
  Definition iter_next (it : iter) : option (res (yielded * iter)) :=
    match it_ranges it with
    | [] => None
    | (start, stop) :: rest =>
        Some (let* data := read_rows (it_data it) (it_file it) start stop in
              let* anc := match it_ancil_file it with None => Ok (it_ancil it) | Some g => read_rows (it_ancil it) g start stop end in
              let* e := ens_new (it_func it) data (Some anc) in
              Ok (mkyielded start stop e, mkiter (it_func it) (it_file it) (it_ancil_file it) data anc rest))
    end.
  (** What a caller that kept a yielded ensemble sees when the generator is in state [it] *)
  Definition seen (it : iter) (y : yielded) : ens T :=
    mkens (e_func (y_ens y)) (e_obj (y_ens y)) (Some (it_ancil it)) (e_gridded (y_ens y)).
  (** The first [k] steps *)
  Fixpoint iter_take (k : nat) (it : iter) : res (list yielded * iter) :=
    match k with
    | O => Ok ([], it)
    | S k' => match iter_next it with
              | None => Ok ([], it)
              | Some r => let* (y, it') := r in
                          let* (ys, it'') := iter_take k' it' in
                          Ok (y :: ys, it'')
              end
    end.
End Hdf5.
Arguments step : clear implicits.
Arguments iter : clear implicits.
Arguments yielded : clear implicits.
Arguments h5file : clear implicits.
