(** Model of plotting.py 43-142 (figures, axes, the curve of a density) and of ensemble.py 612-620, pdf_gen.py 138-149.
    Trusted translation of matplotlib: [plt.figure]/[add_subplot] give new empty axes, [set_xlim]/[get_xlim] store and return limits,
    [Axes.plot(x, y, kw)] checks the first dimensions of x and y, takes one line per column of y, checks the keywords
    when lines are made, and adds the lines last.
    SIMPLIFICATION: drawing does not change the limits (true after [set_xlim]; autoscaling of the user's own axes is not modelled). *)
From Coq Require Import String List Arith ZArith Bool.
From Verif Require Import Num Py NdArray NumpyLib Utils ScipyWrap Values Ensemble.
Import ListNotations.
Local Open Scope string_scope.

Section Plotting.
  Context {T : Type} {N : Num T}.
  (** the keywords that matplotlib's [Line2D] knows *)
  Variable line_kw : string -> bool.

  (** values of keyword arguments: None, axes, limits, a number of points, anything else *)
  Inductive pval := PNone | PAxes (i : nat) | PLim (lo hi : T) | PCount (n : nat) | PText (s : string).
  Definition kwargs := list (string * pval).
  Definition kget (kw : kwargs) (name : string) : option pval := option_map snd (find (fun kv => String.eqb (fst kv) name) kw).
  Definition kdel (kw : kwargs) (name : string) : kwargs := filter (fun kv => negb (String.eqb (fst kv) name)) kw.
  (** [kwargs.pop(name, default)]: the value; what is left is [kdel kw name] *)
  Definition kpop (kw : kwargs) (name : string) (d : pval) : pval := match kget kw name with Some v => v | None => d end.

  (** a line: its points and its keywords; axes: limits, labels and lines; the canvas: all axes in the order of their creation *)
  Definition line := (list (xnum T * xnum T) * kwargs)%type.
  Record axes := mkaxes { a_lim : T * T; a_xlabel : pval; a_ylabel : pval; a_lines : list line }.
  Definition canvas := list axes.

  (** plotting.py 43-68 [make_figure_axes]; the keywords are a copy, the caller keeps its own *)
  Definition make_figure_axes (c : canvas) (xlim : pval) (kw : kwargs) : canvas * res nat :=
    let xlabel := kpop kw "xlabel" (PText "redshift") in                            (* 59 *)
    let ylabel := kpop (kdel kw "xlabel") "ylabel" (PText "p(z)") in                (* 60 *)
    match xlim with
    | PLim lo hi => ((c ++ [mkaxes (lo, hi) xlabel ylabel []])%list, Ok (length c))   (* 62-68 *)
    | _ => ((c ++ [mkaxes (n0, n1) (PText "") (PText "") []])%list, Err TypeError)    (* 64: not a pair *)
    end.

  (** plotting.py 71-83 [get_axes_and_xlims] *)
  Definition get_axes_and_xlims (c : canvas) (kw : kwargs) : canvas * res (nat * (T * T) * kwargs) :=
    let a := kpop kw "axes" PNone in                                                (* 73 *)
    let kw := kdel kw "axes" in
    let xlim := kpop kw "xlim" PNone in                                             (* 74 *)
    let kw := kdel kw "xlim" in
    match a with
    | PNone =>
        match xlim with
        | PNone => (c, Err ValueError)                                              (* 76-77 *)
        | PLim lo hi => let '(c', r) := make_figure_axes c xlim kw in               (* 78 *)
                        (c', let* i := r in Ok (i, (lo, hi), kw))
        | _ => let '(c', r) := make_figure_axes c xlim kw in (c', let* _ := r in Err TypeError)
        end
    | PAxes i =>
        match xlim with
        | PNone => (c, match nth_error c i with Some ax => Ok (i, a_lim ax, kw) | None => Err NotModelled end)   (* 82 *)
        | _ => (c, Err ValueError)                                                  (* 80-81 *)
        end
    | _ => (c, match xlim with PNone => Err AttributeError | _ => Err ValueError end)
    end.

  (** [Axes.plot(np.squeeze(xvals), np.squeeze(yvals))]: the points of the lines.  A table with one row is squeezed to one
      dimension; with several rows the first dimension of y is the number of rows, and every column is a line. *)
  Definition mpl_lines (xs : list T) (t : list (list (xnum T))) : res (list (list (xnum T * xnum T))) :=
    match t with
    | [row] => Ok [combine (map Fin xs) row]
    | _ => if (length t =? length xs)%nat
           then Ok (map (fun j => combine (map Fin xs) (map (fun row => nth j row NaN) t)) (seq 0 (length xs)))
           else Err ValueError
    end.
  Definition mpl_plot (c : canvas) (i : nat) (xs : list T) (t : list (list (xnum T))) (kw : kwargs) : canvas * res unit :=
    match mpl_lines xs t with
    | Err e => (c, Err e)
    | Ok [] => (c, Ok tt)
    | Ok ls =>
        if forallb (fun kv => line_kw (fst kv)) kw
        then ((firstn i c ++ match nth_error c i with Some ax => [mkaxes (a_lim ax) (a_xlabel ax) (a_ylabel ax) (a_lines ax ++ map (fun l => (l, kw)) ls)%list] | None => [] end ++ skipn (S i) c)%list, Ok tt)
        else (c, Err AttributeError)
    end.

  (** plotting.py 86-109 [plot_pdf_on_axes] *)
  Definition plot_pdf_on_axes (c : canvas) (i : nat) (pdf : points T -> res (list (list (xnum T)))) (xs : list T) (kw : kwargs) : canvas * res nat :=
    match pdf (PGrid xs) with                                                       (* 107 *)
    | Err e => (c, Err e)
    | Ok t => let '(c', r) := mpl_plot c i xs t kw in (c', let* _ := r in Ok i)     (* 108-109 *)
    end.

  (** plotting.py 112-142 [plot_dist_pdf] *)
  Definition plot_dist_pdf (c : canvas) (pdf : points T -> res (list (list (xnum T)))) (kw : kwargs) : canvas * res nat :=
    let '(c', r) := get_axes_and_xlims c kw in                                      (* 139 *)
    match r with
    | Err e => (c', Err e)
    | Ok (i, (lo, hi), kw) =>
        match kpop kw "npts" (PCount 101) with                                      (* 140 *)
        | PCount n => plot_pdf_on_axes c' i pdf (np_linspace lo hi n) (kdel kw "npts")   (* 141-142 *)
        | _ => (c', Err TypeError)
        end
    end.

  (** ensemble.py 612-620 [Ensemble.plot] with pdf_gen.py 138-141 [Pdf_gen.plot]; for classes without their own [plot_native]
      also ensemble.py 622-630 with pdf_gen.py 143-149.  The selected ensemble is given as the result of [self[key]]. *)
  Definition ens_plot (c : canvas) (selected : res (ens T)) (kw : kwargs) : canvas * res nat :=
    match selected with
    | Err e => (c, Err e)
    | Ok e' => plot_dist_pdf c (ens_pdf e') kw
    end.
End Plotting.
Arguments pval : clear implicits.
Arguments kwargs : clear implicits.
Arguments axes : clear implicits.
Arguments canvas : clear implicits.
