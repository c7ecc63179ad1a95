(** Model of qp/ensemble.py ([Ensemble]) and of the parts of qp/factory.py that build
    ensembles from data, tables or other ensembles. *)
From Coq Require Import String List Arith ZArith Bool.
From Verif Require Import Num Py NdArray NumpyLib ScipyWrap Values.
Import ListNotations.
Local Open Scope string_scope.

Section Ensemble.
  Context {T : Type} {N : Num T}.

  Definition tbl := list (list (xnum T)).

  (** What an ensemble holds of a frozen distribution ([_frozen] and [_gen_obj]): the class
      name, the metadata, the object data (ensemble.py 227-231: the keywords of the frozen
      object without "row", overwritten by the object data of the generator), the shape of
      the set of PDFs, and the evaluation methods. *)
  Record gobj := mkgobj {
    g_name : string; g_meta : vdict T; g_data : vdict T; g_shape : list nat;
    g_pdf : points T -> res tbl; g_cdf : points T -> res tbl; g_ppf : points T -> res tbl }.
  Definition g_npdf (g : gobj) : nat := prod (g_shape g).

  (** [cls.create] of the class with a given name; None if the factory has no such class. *)
  Variable class_create : string -> option (vdict T -> res gobj).
  Definition create_of (name : string) (d : vdict T) : res gobj :=
    match class_create name with Some c => c d | None => Err KeyError end.

  (** The attributes set by [Ensemble.__init__] ([_samples] is only ever None). *)
  Record ens := mkens {
    e_func : vdict T -> res gobj; e_obj : gobj; e_ancil : option (vdict T);
    e_gridded : option (list T * tbl) }.
  Definition e_npdf (e : ens) : nat := g_npdf (e_obj e).

  (** ensemble.py 23-44 [__init__] *)
  Definition ens_new (func : vdict T -> res gobj) (data : vdict T) (ancil : option (vdict T)) : res ens :=
    let* g := func data in
    let* _ := check_array_shapes ancil (g_npdf g) in
    Ok (mkens func g ancil None).

  (** ensemble.py 196-231 *)
  Definition metadata (e : ens) : vdict T := g_meta (e_obj e).
  Definition objdata (e : ens) : vdict T := g_data (e_obj e).
  (** The metadata without name and version, squeezed (60-64, 188-191, factory.py 354-357) *)
  Definition squeezed_meta (m : vdict T) : vdict T :=
    map (fun kv => (fst kv, v_squeeze (snd kv))) (vremove (vremove m "pdf_name") "pdf_version").

  (** ensemble.py 46-75 [__getitem__] *)
  Definition getitem (e : ens) (key : pykey) : res ens :=
    let* dd := slice_dict (objdata e) key in                                     (* 65 *)
    let red := map (fun kv => (fst kv, if (length (v_shape (snd kv)) <? 2)%nat
                                       then v_expand_first (snd kv) else snd kv)) dd in  (* 66-70 *)
    let* anc := match e_ancil e with
                | None => Ok None
                | Some a => let* a' := slice_dict a key in Ok (Some a') end in   (* 71-74 *)
    ens_new (create_of (g_name (e_obj e))) (vupdate (squeezed_meta (metadata e)) red) anc.

  (** Python's iteration over an object that has only [__getitem__]: indices 0, 1, ... until
      IndexError; any other exception escapes.  [None]: still running after [fuel] steps. *)
  Fixpoint iterate_from (e : ens) (i fuel : nat) : option (res (list ens)) :=
    match fuel with
    | O => None
    | S f =>
        match getitem e (KInt (Z.of_nat i)) with
        | Ok p => match iterate_from e (S i) f with
                  | Some (Ok l) => Some (Ok (p :: l)) | other => other end
        | Err IndexError => Some (Ok [])
        | Err x => Some (Err x)
        end
    end.

  (** ** Methods that change the ensemble: result (or exception) and the state afterwards *)
  (** ensemble.py 233-247 *)
  Definition set_ancil (e : ens) (anc : option (vdict T)) : res unit * ens :=
    match check_array_shapes anc (e_npdf e) with
    | Err x => (Err x, e)
    | Ok _ => (Ok tt, mkens (e_func e) (e_obj e) anc (e_gridded e))
    end.
  (** ensemble.py 249-265; [None.update] is an AttributeError *)
  Definition add_to_ancil (e : ens) (to_add : vdict T) : res unit * ens :=
    match check_columns to_add (e_npdf e) with
    | Err x => (Err x, e)
    | Ok _ => match e_ancil e with
              | None => (Err AttributeError, e)
              | Some a => (Ok tt, mkens (e_func e) (e_obj e) (Some (vupdate a to_add)) (e_gridded e))
              end
    end.
  (** ensemble.py 165-177: the frozen object is replaced before the ancillary data is checked *)
  Definition update (e : ens) (data : vdict T) (anc : option (vdict T)) : res unit * ens :=
    match e_func e data with
    | Err x => (Err x, e)
    | Ok g =>
        let e1 := mkens (e_func e) g (e_ancil e) (e_gridded e) in
        match set_ancil e1 anc with
        | (Err x, e2) => (Err x, e2)
        | (Ok _, e2) => (Ok tt, mkens (e_func e2) (e_obj e2) (e_ancil e2) None)
        end
    end.
  (** ensemble.py 179-194 *)
  Definition update_objdata (e : ens) (data : vdict T) (anc : option (vdict T)) : res unit * ens :=
    update e (vupdate (vupdate (squeezed_meta (metadata e)) (objdata e)) data) anc.
  (** ensemble.py 276-284: both must have ancillary data for it to be kept *)
  Definition joined_ancil (a b : option (vdict T)) : res (option (vdict T)) :=
    match a, b with
    | Some x, Some y => let* z := concatenate_dicts [x; y] in Ok (Some z)
    | _, _ => Ok None
    end.
  (** ensemble.py 267-284 *)
  Definition append (e other : ens) : res unit * ens :=
    let prepared :=
      let* same := compare_dicts [metadata e; metadata other] in
      if same then
        let* od := concatenate_dicts [objdata e; objdata other] in
        let* anc := joined_ancil (e_ancil e) (e_ancil other) in
        Ok (od, anc)
      else Err KeyError in
    match prepared with
    | Err x => (Err x, e)
    | Ok (od, anc) => update_objdata e od anc
    end.

  (** ** Cached evaluation *)
  Definition ens_pdf (e : ens) (x : points T) : res tbl := g_pdf (e_obj e) x.
  Definition ens_cdf (e : ens) (x : points T) : res tbl := g_cdf (e_obj e) x.
  Definition ens_ppf (e : ens) (x : points T) : res tbl := g_ppf (e_obj e) x.

  (** [np.array_equal(a, b)] *)
  Definition array_equal (a b : list T) : bool :=
    (length a =? length b)%nat && forallb (fun x => x) (map2 neqb a b).
  (** ensemble.py 323-342 *)
  Definition gridded (e : ens) (grid : list T) : res (list T * tbl) * ens :=
    match e_gridded e with
    | Some (g, v) => if array_equal g grid then (Ok (g, v), e)
                     else match ens_pdf e (PGrid grid) with
                          | Err x => (Err x, e)
                          | Ok v' => (Ok (grid, v'), mkens (e_func e) (e_obj e) (e_ancil e) (Some (grid, v')))
                          end
    | None => match ens_pdf e (PGrid grid) with
              | Err x => (Err x, e)
              | Ok v' => (Ok (grid, v'), mkens (e_func e) (e_obj e) (e_ancil e) (Some (grid, v')))
              end
    end.
  (** The numbers of a table; SIMPLIFICATION: no NaN or infinity, which pdf never returns. *)
  Definition xval (x : xnum T) : T := match x with Fin t => t | _ => n0 end.
  (** ensemble.py 302-321; the maximum over an empty grid is a ValueError *)
  Definition mode (e : ens) (grid : list T) : res (list T) * ens :=
    match gridded e grid with
    | (Err x, e') => (Err x, e')
    | (Ok (g, v), e') =>
        if (length g =? 0)%nat then (Err ValueError, e')
        else (Ok (map (fun line => nth0 (np_argmax (map xval line)) g) v), e')
    end.
  (** array_metrics.py 57-78 [quick_moment], one line *)
  Definition quick_moment (p grid_to_n : list T) (dx : T) : T := nmul (nsum (map2 nmul p grid_to_n)) dx.
  (** ensemble.py 602-610; [np.linspace] with a negative number of points is a ValueError *)
  Definition int_trunc (t : T) : Z := if nleb n0 t then nfloor t else Z.opp (nfloor (nopp t)).
  Definition moment_partial (e : ens) (n : nat) (lo hi dx : T) : res (list T) * ens :=
    let D := int_trunc (ndiv (nsub hi lo) dx) in
    if (D <? 0)%Z then (Err ValueError, e)
    else
      let grid := np_linspace lo hi (Z.to_nat D) in
      match gridded e grid with
      | (Err x, e') => (Err x, e')
      | (Ok (_, v), e') => (Ok (map (fun line => quick_moment (map xval line) (map (fun x => npow x n) grid) dx) v), e')
      end.

  (** ensemble.py 558-576 [integrate], scalar limits *)
  Definition xsub (a b : xnum T) : xnum T :=
    match a, b with
    | Fin x, Fin y => Fin (nsub x y)
    | NaN, _ => NaN | _, NaN => NaN
    | PInf, PInf => NaN | NInf, NInf => NaN
    | PInf, _ => PInf | NInf, _ => NInf
    | _, PInf => NInf | _, NInf => PInf
    end.
  Definition integrate (e : ens) (lo hi : points T) : res tbl :=
    let* b := ens_cdf e hi in
    let* a := ens_cdf e lo in
    Ok (map2 (map2 xsub) b a).
  (** pdf_gen.py 253-270 [histogramize]: one line per PDF (multi-dimensional sets of PDFs are
      reshaped back, which does not move a line) *)
  Definition histogramize (e : ens) (bins : list T) : res tbl :=
    let* c := ens_cdf e (PGrid bins) in
    Ok (map (fun line => map2 xsub (tl line) (removelast line)) c).

  (** ** Tables *)
  (** ensemble.py 286-300: the tables "meta", "data" and, when present, "ancil" *)
  Record tables := mktables { t_meta : vdict T; t_data : vdict T; t_ancil : option (vdict T) }.
  Definition build_tables (e : ens) : tables := mktables (metadata e) (objdata e) (e_ancil e).

  (** factory.py 31-55 [_build_data_dict], the metadata part: one column *)
  Definition meta_item (v : value T) : res (value T) :=
    match length (v_shape v) with
    | O => Ok v
    | S O => v_getitem v (KInt 0)                                             (* 43-44 *)
    | _ => let w := v_squeeze v in                                            (* 39-42 *)
           Ok (match w with
               | VArr a => match shp a, dat a with [], [x] => VNum x | _, _ => w end
               | VTxt a => match shp a, dat a with [], [x] => VStr x | _, _ => w end
               | _ => w end)
    end.
  Definition data_item (v : value T) : value T :=
    if (length (v_shape v) <? 2)%nat then v_expand_last v else v.             (* 51-54 *)
  Definition build_data_dict (md data : vdict T) : res (vdict T) :=
    let* m := mapM (fun kv => let* v := meta_item (snd kv) in Ok (fst kv, v)) md in
    Ok (vupdate m (map (fun kv => (fst kv, data_item (snd kv))) data)).

  (** The text in a value, and the class named by it *)
  Definition text_of (v : value T) : option string :=
    match v with
    | VTxt a => match shp a, dat a with [], [s] => Some s | _, _ => None end
    | VStr s => Some s
    | _ => None
    end.
  (** factory.py 126-154.  No class of qp registers a reader method, so [reader_convert] is
      None.  A name that is not a text cannot be a key of the factory (KeyError). *)
  Definition from_tables (t : tables) : res ens :=
    let* data := build_data_dict (t_meta t) (t_data t) in
    match vget data "pdf_name", vget data "pdf_version" with
    | Some n, Some _ =>
        match text_of n with
        | Some name =>
            match class_create name with
            | Some c => ens_new c (vremove (vremove data "pdf_name") "pdf_version") (t_ancil t)
            | None => Err KeyError
            end
        | None => Err KeyError
        end
    | _, _ => Err KeyError
    end.

  (** factory.py 317-358 [concatenate]; None for the empty list *)
  Fixpoint ancil_list (es : list ens) : option (list (vdict T)) :=
    match es with
    | [] => Some []
    | e :: t => match e_ancil e, ancil_list t with Some a, Some l => Some (a :: l) | _, _ => None end
    end.
  Definition concatenate (es : list ens) : res (option ens) :=
    match es with
    | [] => Ok None
    | e0 :: _ =>
        let* same := compare_dicts (map metadata es) in
        if same then
          let* data := concatenate_dicts (map objdata es) in
          let* anc := match ancil_list es with
                      | Some l => let* a := concatenate_dicts l in Ok (Some a)
                      | None => Ok None end in
          let* e := ens_new (e_func e0) (vupdate data (squeezed_meta (metadata e0))) anc in
          Ok (Some e)
        else Err ValueError
    end.

  (** factory.py 103-124 [create], default method: every class registers its [create] under None *)
  Definition qp_create (name : string) (data : vdict T) : res ens :=
    match class_create name with Some c => ens_new c data None | None => Err KeyError end.
End Ensemble.
Arguments gobj : clear implicits.
Arguments ens : clear implicits.
Arguments tables : clear implicits.
Arguments tbl : clear implicits.
