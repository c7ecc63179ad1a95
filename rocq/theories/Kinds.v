(** A uniform description of the modelled classes, used to prove facts about all of them at
    once: what a class stores per PDF (its columns), its metadata, and what every method
    answers as a function of ONE stored row. *)
From Coq Require Import String List Arith ZArith Bool Reals.
From Verif Require Import Num NumProofs Py NdArray NumpyLib Utils ScipyWrap Spec Values Ensemble Classes
  HistPdf InterpPdf QuantPdf MixmodPdf Packing PackedPdf SplinePdf Sparse Voigt InterpProofs HistTheorems GridTheorems EvalTheorems PackingTheorems SparseTheorems.
Import ListNotations.
Local Open Scope string_scope.
Local Open Scope list_scope.

Inductive method := MPdf | MCdf | MPpf.
Definition g_eval (m : method) (g : gobj R) : points R -> res (tbl R) :=
  match m with MPdf => g_pdf g | MCdf => g_cdf g | MPpf => g_ppf g end.

(** ** Columns *)
(** What one PDF has in a column: numbers, bytes or texts *)
Inductive cell := Nums (l : list R) | Bytes (l : list Z) | Texts (l : list string).
Definition nums (c : cell) : list R := match c with Nums l => l | _ => [] end.
Definition bytes (c : cell) : list Z := match c with Bytes l => l | _ => [] end.
Definition texts (c : cell) : list string := match c with Texts l => l | _ => [] end.
Definition row := list cell.
Definition cell_at (j : nat) (d : row) : cell := nth j d (Nums []).
(** The array with the given rows, each of shape [rest] *)
Definition rows_nd {A} (rest : list nat) (rows : list (list A)) : nd A := mknd (length rows :: rest) (concat rows).
(** The type of a column: kind of entries and shape of the part of one PDF *)
Inductive coltype := NumCol (rest : list nat) | ByteCol (rest : list nat) | TextCol (rest : list nat).
Definition rest_of (c : coltype) : list nat := match c with NumCol s => s | ByteCol s => s | TextCol s => s end.
Definition cell_ok (c : coltype) (x : cell) : Prop :=
  match c, x with
  | NumCol s, Nums l => length l = prod s
  | ByteCol s, Bytes l => length l = prod s
  | TextCol s, Texts l => length l = prod s
  | _, _ => False
  end.
Definition col_value (c : coltype) (l : list cell) : value R :=
  match c with
  | NumCol s => VArr (rows_nd s (map nums l))
  | ByteCol s => VByt (rows_nd s (map bytes l))
  | TextCol s => VTxt (rows_nd s (map texts l))
  end.
Definition layout := list (string * coltype).
Fixpoint columns_from (j : nat) (L : layout) (D : list row) : vdict R :=
  match L with
  | [] => []
  | (k, c) :: t => (k, col_value c (map (cell_at j) D)) :: columns_from (S j) t D
  end.
Definition columns (L : layout) (D : list row) : vdict R := columns_from 0 L D.
Definition row_fits (L : layout) (d : row) : Prop := Forall2 (fun kc x => cell_ok (snd kc) x) L d.

(** ** Kinds: a class together with its metadata *)
Inductive kind :=
| KHist (bins : list R)
| KInterp (xs : list R)
| KIrr (n : nat)
| KMix (k : nat)
| KQuant (quants : list R) (name : string)
| KPacked (xs : list R) (pt : packing) (lf : R)
| KSpline (n : nat)
| KSparse (xs : list R) (mu sig : R * R) (dims : list Z) (n : nat)
| KNorm.

Definition kind_name (k : kind) : string :=
  match k with
  | KHist _ => "hist" | KInterp _ => "interp" | KIrr _ => "interp_irregular" | KMix _ => "mixmod"
  | KQuant _ _ => "quant" | KPacked _ _ _ => "packed_interp" | KSpline _ => "spline" | KSparse _ _ _ _ _ => "sparse" | KNorm => "norm"
  end.
Definition kind_own_meta (k : kind) : vdict R :=
  match k with
  | KHist bins => [add_meta "bins" (VArr (nd1 bins))]
  | KInterp xs => [add_meta "xvals" (VArr (nd1 xs))]
  | KQuant quants name =>
      [add_meta "quants" (VArr (nd1 quants)); add_meta "pdf_constructor_name" (VStr name);
       add_meta "check_input" (VNum n1)]
  | KPacked xs pt lf =>
      [add_meta "xvals" (VArr (nd1 xs)); add_meta "packing_type" (VNum (of_packing pt));
       add_meta "log_floor" (VNum lf)]
  | KSparse xs mu sig dims _ =>
      [add_meta "xvals" (VArr (nd1 xs)); add_meta "mu" (VArr (nd1 [fst mu; snd mu])); add_meta "sig" (VArr (nd1 [fst sig; snd sig]));
       add_meta "dims" (VByt (nd1 dims))]
  | KIrr _ | KMix _ | KSpline _ | KNorm => []
  end.
Definition kind_meta (k : kind) : vdict R := class_meta (kind_name k) ++ kind_own_meta k.
Definition kind_args (k : kind) : vdict R := map (fun kv => (fst kv, v_squeeze (snd kv))) (kind_own_meta k).
Definition kind_layout (k : kind) : layout :=
  match k with
  | KHist bins => [("pdfs", NumCol [pred (length bins)])]
  | KInterp xs => [("yvals", NumCol [length xs])]
  | KIrr n => [("xvals", NumCol [n]); ("yvals", NumCol [n])]
  | KMix n => [("weights", NumCol [n]); ("stds", NumCol [n]); ("means", NumCol [n])]
  | KQuant quants _ => [("locs", NumCol [length quants])]
  | KPacked xs _ _ => [("ypacked", ByteCol [length xs]); ("ymax", NumCol [1])]
  | KSpline n => [("splx", NumCol [n]); ("sply", NumCol [n]); ("spln", NumCol [1])]
  | KSparse _ _ _ _ n => [("sparse_indices", ByteCol [n])]
  | KNorm => [("loc", NumCol [1]); ("scale", NumCol [1])]
  end.
Definition cols (k : kind) (D : list row) : vdict R := columns (kind_layout k) D.

Definition good_kind (k : kind) : Prop :=
  match k with
  | KHist bins => increasing bins /\ (2 <= length bins)%nat
  | KInterp xs => increasing xs /\ (2 <= length xs)%nat
  | KIrr n => (2 <= n)%nat
  | KMix n => (0 < n)%nat
  | KQuant quants name => increasing quants /\ (3 <= length quants)%nat /\ nth0 0 quants = 0%R /\ nlast quants = 1%R /\
                          In name pdf_constructor_names
  | KPacked xs pt lf => increasing xs /\ (2 <= length xs)%nat /\ pt <> OtherPacking
  | KSpline n => (0 < n)%nat
  | KSparse xs mu sig dims n => increasing xs /\ (2 <= length xs)%nat /\ (0 < n)%nat /\ (3 <= length dims)%nat /\ List.Forall (Z.le 0) dims
  | KNorm => True
  end.
(** The sum of basis functions that the integers of a sparse PDF name, on the grid, with the default cut; and this sum
    divided by the area under it. *)
Definition sparse_sum (xs : list R) (mu sig : R * R) (dims : list Z) (line : list Z) : list R :=
  map (coded voigtR R_sqrt.sqrt xs mu sig (Z.to_nat (nth 0 dims 0%Z)) (Z.to_nat (nth 1 dims 0%Z)) (Z.to_nat (nth 2 dims 0%Z)) (nfrac 1 100000)
         (fst (decode_sparse line)) (snd (decode_sparse line))) (seq 0 (length xs)).
Definition sparse_values (xs : list R) (mu sig : R * R) (dims : list Z) (line : list Z) : list R :=
  map (fun v => v / trapezoid xs (sparse_sum xs mu sig dims line))%R (sparse_sum xs mu sig dims line).
(** the integers name functions of the dictionary that are not cut away altogether, and the sum is a density up to normalisation *)
Definition sparse_line_ok (xs : list R) (mu sig : R * R) (dims : list Z) (line : list Z) : Prop :=
  (forall b, In b (fst (decode_sparse (T := R) line)) -> (Z.of_nat b < nth 0 dims 0 * (nth 1 dims 0 * nth 2 dims 0))%Z) /\
  packable (sparse_sum xs mu sig dims line) /\
  (forall b, In b (fst (decode_sparse (T := R) line)) ->
     shown voigtR xs (nfrac 1 100000)
       (nth b (basis_params mu sig (Z.to_nat (nth 0 dims 0%Z)) (Z.to_nat (nth 1 dims 0%Z)) (Z.to_nat (nth 2 dims 0%Z))) (0, 0, 0)%R)).
(** The rows an object can hold: those that the constructor leaves as they are. *)
Definition num_at (j : nat) (d : row) : list R := nums (cell_at j d).
Definition good_row (k : kind) (d : row) : Prop :=
  row_fits (kind_layout k) d /\
  match k with
  | KHist bins => hist_norm_row (bin_widths bins) (num_at 0 d) = num_at 0 d
  | KInterp xs => inorm xs (num_at 0 d) = num_at 0 d
  | KIrr n => normalize_interp1d_row (num_at 0 d) (num_at 1 d) = num_at 1 d /\
              nlast (irr_cumul_row (num_at 0 d) (num_at 1 d)) = 1%R
  | KMix n => (forall i, (i < n)%nat -> 0 <= nth0 i (num_at 0 d))%R /\ nsum (num_at 0 d) = 1%R /\
              (forall i, (i < n)%nat -> 0 < nth0 i (num_at 1 d))%R
  | KSpline n => exists k : nat, (k <= 5)%nat /\ (2 * k + 2 <= n)%nat /\ num_at 2 d = [INR k]
  | KSparse xs mu sig dims n => sparse_line_ok xs mu sig dims (bytes (cell_at 0 d))
  | KNorm => (0 < nth0 0 (num_at 1 d))%R
  | KQuant _ _ | KPacked _ _ _ => True
  end.

Section Values.
  Variables (phi Phi : R -> R) (quad : list R -> list R -> R -> R -> R -> R)
            (cubic dspline : list R -> list R -> R -> R) (Phinv : R -> xnum R).
  Local Open Scope R_scope.
  (** The methods whose answer for a PDF depends on the row of that PDF only.  Not among them:
      the ppf of a mixture (its grid spans the whole ensemble) and the spline densities of a
      quantile ensemble (they answer for the first PDF).  The ppf of splines is not modelled. *)
  Definition methods (k : kind) : list method :=
    match k with
    | KMix _ | KSpline _ => [MPdf; MCdf]
    | KQuant _ name => if String.eqb name "piecewise_linear" || String.eqb name "piecewise_constant"
                       then [MPdf; MCdf; MPpf] else [MCdf; MPpf]
    | _ => [MPdf; MCdf; MPpf]
    end.
  Definition ends (Q : R -> R) (p : R) : xnum R := with_ends (fun _ => Q) 0 p.
  Definition interp_val (xs ys : list R) (m : method) (x : R) : xnum R :=
    match m with
    | MPdf => Fin (interp1d xs (inorm xs ys) 0 0 x)
    | MCdf => Fin (interp1d xs (icum xs ys) 0 1 x)
    | MPpf => ends (interp1d (icum xs ys) xs (nhead xs) (nlast xs)) x
    end.
  Definition unpacked (pt : packing) (lf : R) (d : row) : list R :=
    let m := nth0 0 (num_at 1 d) in
    map (match pt with LinearFromRowmax => linear_value m | _ => log_value pow10R lf m end) (bytes (cell_at 0 d)).
  Definition val (k : kind) (m : method) (d : row) (x : R) : xnum R :=
    match k with
    | KHist bins =>
        match m with
        | MPdf => Fin (hist_point bins [num_at 0 d] x 0)
        | MCdf => Fin (interp1d bins (hist_cdf_row (bin_widths bins) (num_at 0 d)) 0 1 x)
        | MPpf => ends (interp1d (hist_cdf_row (bin_widths bins) (num_at 0 d)) bins (nhead bins) (nlast bins)) x
        end
    | KInterp xs => interp_val xs (num_at 0 d) m x
    | KIrr n =>
        let c := irr_cumul_row (num_at 0 d) (num_at 1 d) in
        match m with
        | MPdf => Fin (interp1d (num_at 0 d) (num_at 1 d) 0 0 x)
        | MCdf => Fin (interp1d (num_at 0 d) c 0 1 x)
        | MPpf => ends (interp1d c (num_at 0 d) 0 0) x
        end
    | KMix n =>
        match m with
        | MPdf => Fin (rsum n (fun i => nth0 i (num_at 0 d) *
                   (phi ((x - nth0 i (num_at 2 d)) / nth0 i (num_at 1 d)) / nth0 i (num_at 1 d))))
        | _ => Fin (rsum n (fun i => nth0 i (num_at 0 d) * Phi ((x - nth0 i (num_at 2 d)) / nth0 i (num_at 1 d))))
        end
    | KQuant quants name =>
        match m with
        | MPdf => if String.eqb name "piecewise_linear"
                  then Fin (interp1d (adjusted_locations (num_at 0 d)) (cdf_derivatives quants (num_at 0 d)) 0 0 x)
                  else Fin (hist_multi_point [adjusted_locations (num_at 0 d)] [cdf_derivatives_0 quants (num_at 0 d)]
                              [cdf_2nd_derivatives quants (num_at 0 d)] x 0)
        | MCdf => Fin (quad (num_at 0 d) quants 0 1 x)
        | MPpf => ends (quad quants (num_at 0 d) 0 0) x
        end
    | KPacked xs pt lf => interp_val xs (unpacked pt lf d) m x
    | KSpline _ =>
        let k := Z.to_nat (nfloor (nth0 0 (num_at 2 d))) in
        match m with
        | MPdf => Fin (splev (num_at 0 d) (num_at 1 d) k x)
        | _ => Fin (splint (num_at 0 d) (num_at 1 d) k (nminimum (nhead (num_at 0 d)) (tl (num_at 0 d))) x)
        end
    | KSparse xs mu sig dims _ => interp_val xs (sparse_values xs mu sig dims (bytes (cell_at 0 d))) m x
    | KNorm =>
        let loc := nth0 0 (num_at 0 d) in let scale := nth0 0 (num_at 1 d) in
        match m with
        | MPdf => Fin (phi ((x - loc) / scale) / scale) | MCdf => Fin (Phi ((x - loc) / scale))
        | MPpf => match Phinv x with Fin z => Fin (loc + scale * z) | other => other end
        end
    end.

  (** A matrix of points with at least one line and one column. *)
  Definition rectangular (X : list (list R)) (w : nat) : Prop := (0 < w)%nat /\ X <> [] /\ forall l, In l X -> length l = w.
  (** A method answers row by row on matrices: one line of points per PDF (unless the number of distinct points is
      exactly the number of columns, see C06), any matrix for one PDF; on grids in any order for one PDF or with a
      repeated point; on the matrix that repeats one strictly increasing line.  [dom] restricts the points (probabilities inside (0,1) for ppf). *)
  Definition answers_mats (dom : R -> Prop) (e : points R -> res (tbl R)) (D : list row) (v : row -> R -> xnum R) : Prop :=
    (forall X w, rectangular X w -> length X = length D -> length D = 1%nat \/ w = 1%nat \/ distinct (concat X) <> w ->
       (forall x, In x (concat X) -> dom x) -> e (PMat X) = Ok (map2 (fun d l => map (v d) l) D X)) /\
    (forall X w d, rectangular X w -> D = [d] -> (forall x, In x (concat X) -> dom x) -> e (PMat X) = Ok (map (map (v d)) X)) /\
    (forall l, length D = 1%nat \/ ~ NoDup l -> (forall x, In x l -> dom x) -> e (PGrid l) = Ok (map (fun d => map (v d) l) D)) /\
    (forall l, increasing l -> (forall x, In x l -> dom x) -> e (PMat (repeat l (length D))) = Ok (map (fun d => map (v d) l) D)).
  Definition dom (m : method) (x : R) : Prop := match m with MPpf => 0 < x < 1 | _ => True end.
  (** A method answers row by row: for a single point, for a strictly increasing grid, and on matrices. *)
  Definition answers (dom : R -> Prop) (e : points R -> res (tbl R)) (D : list row) (v : row -> R -> xnum R) : Prop :=
    (forall t, e (PScalar t) = Ok (map (fun d => [v d t]) D)) /\
    (forall l, increasing l -> e (PGrid l) = Ok (map (fun d => map (v d) l) D)) /\
    answers_mats dom e D v.

  Definition classes := qp_classes phi Phi quad cubic dspline pow10R voigtR R_sqrt.sqrt Phinv.
  Definition kind_create (k : kind) : vdict R -> res (gobj R) := create_of classes (kind_name k).

  (** The object [g] holds the rows [D]. *)
  Definition holds (k : kind) (D : list row) (g : gobj R) : Prop :=
    g_name g = kind_name k /\ g_meta g = kind_meta k /\ g_data g = cols k D /\ g_shape g = [length D] /\
    forall m, In m (methods k) -> answers (dom m) (g_eval m g) D (val k m).
End Values.
