(** Model of qp/sparse_rep.py and qp/sparse_pdf.py: PDFs as sparse combinations of
    Voigt profiles.  A matrix with one basis function per column is the list of its
    columns.  The Voigt profile, the square root and the solution of the triangular
    systems are parameters. *)
From Coq Require Import List Arith ZArith Bool.
From Verif Require Import Num Py NdArray NumpyLib Utils ScipyWrap InterpPdf.
Import ListNotations.

(** ** Integer coding *)
(** sparse_rep.py 141-151 [combine_int].  SIMPLIFICATION: unbounded integers (the
    array holds 64-bit ones). *)
Definition combine_int (coef base : Z) : Z := Z.lor (Z.shiftl coef 16) base.
(** sparse_rep.py 154-164 [get_N] *)
Definition get_N (n : Z) : Z * Z := (Z.shiftr n 16, Z.land n (2 ^ 16 - 1)).

(** [l[i] = v] on a list *)
Fixpoint upd {A} (i : nat) (v : A) (l : list A) : list A :=
  match l, i with
  | [], _ => []
  | _ :: t, O => v :: t
  | a :: t, S k => a :: upd k v t
  end.
(** [a[[i, j]] = a[[j, i]]] *)
Definition swap {A} (d : A) (i j : nat) (l : list A) : list A :=
  upd j (nth i l d) (upd i (nth j l d) l).

Section Sparse.
  Context {T : Type} {N : Num T}.
  Local Open Scope num_scope.

  Definition dot (a b : list T) : T := nsum (map2 nmul a b).

  (** ** The dictionary *)
  (** sparse_rep.py 61-73: the parameters (mean, sigma, gamma) of column [kk], in the
      order of the three nested loops. *)
  Definition basis_params (mu sig : T * T) (nmu nsig nv : nat) : list (T * T * T) :=
    let means := np_linspace (fst mu) (snd mu) nmu in
    let sigs := np_linspace (fst sig) (snd sig) nsig in
    let gammas := np_linspace n0 nhalf nv in
    flat_map (fun i => flat_map (fun j => map (fun k => (nth0 i means, nth0 j sigs, nth0 k gammas))
      (seq 0 nv)) (seq 0 nsig)) (seq 0 nmu).
  Section Voigt.
    Variable voigt : T -> T -> T -> T.
    Variable sqrt : T -> T.
    Definition norm (v : list T) : T := sqrt (dot v v).
    (** sparse_rep.py 69-72, one column *)
    Definition basis_column (cut : T) (xs : list T) (p : T * T * T) : list T :=
      let '(m, s, g) := p in
      let pdft := map (fun x => let v := voigt (x - m) s g in if cut <=? v then v else n0) xs in
      map (fun v => v / norm pdft) pdft.
    (** sparse_rep.py 43-74 [create_voigt_basis] *)
    Definition create_voigt_basis (xs : list T) mu nmu sig nsig nv (cut : T) : list (list T) :=
      map (basis_column cut xs) (basis_params mu sig nmu nsig nv).

    (** ** Decoding *)
    (** sparse_rep.py 169-173 and 202-207, one PDF: weights with step 1/(ncoef-1), the
        first one replaced by 1. *)
    Definition decode_weights (ncoef : Z) (coefs : list Z) : list T :=
      match map (fun c => nofZ c * (n1 / nofZ (ncoef - 1))) coefs with
      | [] => []
      | _ :: t => n1 :: t
      end.
    (** sparse_rep.py 167-175 [decode_sparse_indices], one PDF *)
    Definition decode_sparse (inds : list Z) : list nat * list T :=
      let pairs := map get_N inds in
      (map (fun p => Z.to_nat (snd p)) pairs, decode_weights 32001 (map fst pairs)).
    (** sparse_rep.py 209-212: the parameters of a basis index.  ([np.array(D / n, int)] is
        a float division cut to an integer, exact for the sizes that fit in memory.) *)
    Definition index_shape (mu sig : T * T) (nmu nsig nv : nat) (d : nat) : T * T * T :=
      let means := np_linspace (fst mu) (snd mu) nmu in
      let sigs := np_linspace (fst sig) (snd sig) nsig in
      let gammas := np_linspace n0 nhalf nv in
      (nth0 (d / (nsig * nv)) means, nth0 ((d mod (nsig * nv)) / nv) sigs,
       nth0 ((d mod (nsig * nv)) mod nv) gammas).
    (** sparse_rep.py 178-214 [indices2shapes], one PDF *)
    Definition indices2shapes (mu sig : T * T) (nmu nsig nv : nat) (ncoef : Z) (inds : list Z)
      : list T * list (T * T * T) :=
      let pairs := map get_N inds in
      (decode_weights ncoef (map fst pairs),
       map (fun p => index_shape mu sig nmu nsig nv (Z.to_nat (snd p))) pairs).

    (** ** Evaluation *)
    (** [(A[:, indices] * vals).sum(axis=-1)], one PDF: for every point the weighted sum over
        the selected columns; an index outside the dictionary is an IndexError. *)
    Definition weighted_sum (A : list (list T)) (nx : nat) (inds : list nat) (vals : list T) : res (list T) :=
      if existsb (fun i => (length A <=? i)%nat) inds then Err IndexError
      else Ok (map (fun x => nsum (map2 (fun i v => nth0 x (nth i A []) * v) inds vals)) (seq 0 nx)).
    (** [scipy.integrate.trapezoid(y, x)] *)
    Definition trapezoid (xs ys : list T) : T :=
      nsum (map2 (fun d s => d * s / nofZ 2) (ndiff xs) (map2 nadd (tl ys) (removelast ys))).
    (** sparse_rep.py 298-306 [pdf_from_sparse], one PDF *)
    Definition pdf_from_sparse (A : list (list T)) (xs : list T) (cut : T) (inds : list Z) : res (list T) :=
      let '(ix, vals) := decode_sparse inds in
      let* y := weighted_sum A (length xs) ix vals in
      let y := map (fun v => if cut <=? v then v else n0) y in
      Ok (map (fun v => v / trapezoid xs y) y).
    (** sparse_pdf.py 34-56 [sparse_gen.__init__]: an interpolated ensemble of the normalised
        sums; only the stored columns differ from [interp_gen].  Freezing (64-74) hands on
        the values [yvals], so the new object does not take them from the basis again. *)
    Definition sparse_ctor (xs : list T) mu sig (nmu nsig nv : nat) (cut : T) (sparse : list (list Z)) : res (interp T) :=
      let A := create_voigt_basis xs mu nmu sig nsig nv cut in
      let* ys := mapM (fun inds => let '(ix, vals) := decode_sparse inds in
                                   weighted_sum A (length xs) ix vals) sparse in
      let ys := map (fun y => map (fun v => v / trapezoid xs y) y) ys in
      interp_ctor xs (nd2 (length xs) ys) true.

    (** ** Construction: orthogonal matching pursuit *)
    (** [chol cols alpha]: solution of (cols^T cols) g = alpha by the Cholesky factor
        (114-130); [dependent cols c]: the test [1 - v <= eps] of 121-124. *)
    Variable chol : list (list T) -> list T -> list T.
    Variable dependent : list (list T) -> list T -> bool.
    Definition machine_eps : T := nfrac 1 (2 ^ 52).

    Record pursuit := mkpursuit {
      p_dict : list (list T); p_alpha : list T; p_idx : list nat;
      p_res : list T; p_gamma : option (list T) }.

    (** [query - np.dot(dictionary[:, :n], gamma)] *)
    Definition residual (query : list T) (cols : list (list T)) (gamma : list T) : list T :=
      map (fun x => nth0 x query - nsum (map2 (fun c g => nth0 x c * g) cols gamma)) (seq 0 (length query)).

    (** sparse_rep.py 123-132, the update of one iteration *)
    Definition pursuit_step (query : list T) (n lam : nat) (s : pursuit) : pursuit :=
      let D := swap [] n lam (p_dict s) in
      let alpha := swap n0 n lam (p_alpha s) in
      let idx := swap 0%nat n lam (p_idx s) in
      let gamma := chol (firstn (S n) D) (firstn (S n) alpha) in
      mkpursuit D alpha idx (residual query (firstn (S n) D) gamma) (Some gamma).

    (** sparse_rep.py 102-134: the loop from iteration [n] on, [k] iterations left.
        The number returned is [n_active + 1] after the loop. *)
    Fixpoint pursuit_loop (query : list T) (tol : option T) (k n : nat) (s : pursuit) : nat * pursuit :=
      match k with
      | O => (n, s)
      | S k' =>
          let lam := np_argmax (map (fun c => nabs (dot c (p_res s))) (p_dict s)) in   (* 103 *)
          let a := nth0 lam (p_alpha s) in
          if (lam <? n)%nat || (a * a <? machine_eps) then (n, s)                      (* 104-106 *)
          else if (0 <? n)%nat && dependent (firstn n (p_dict s)) (nth lam (p_dict s) [])
          then (S n, s)                                                                (* 119-121 *)
          else
            let s' := pursuit_step query n lam s in
            let r := norm (p_res s') in
            if match tol with Some t => r * r <=? t | None => false end                (* 133-134 *)
            then (S n, s') else pursuit_loop query tol k' (S n) s'
      end.

    (** sparse_rep.py 77-138 [sparse_basis]: indices, coefficients, and the dictionary as it is
        left in the caller's array. *)
    Definition sparse_basis (D : list (list T)) (query : list T) (n_basis : nat) (tol : option T)
      : res (list nat * list T * list (list T)) :=
      if (n_basis =? 0)%nat then Err IndexError                                        (* 101 *)
      else if (length D =? 0)%nat then Err ValueError                                  (* argmax *)
      else
        let s0 := mkpursuit D (map (fun c => dot c query) D) (seq 0 (length D)) query None in
        let '(m, s) := pursuit_loop query tol n_basis 0 s0 in
        match p_gamma s with
        | None => Err UnboundLocalError                                                (* 135 *)
        | Some g =>
            if negb (Nat.eqb (length g) m || Nat.eqb (length g) 1) then Err ValueError (* 135 *)
            else Ok (firstn m (p_idx s), g, p_dict s)
        end.

    (** sparse_rep.py 278-287: the integers of one PDF *)
    Definition encode (dind : list nat) (dval : list T) : list Z :=
      let mx := nmaximum (nhead dval) (tl dval) in
      let da := n1 / nofZ 32000 in
      let index := if n0 <? mx then upd 0 (nround (nhead dval / da)) (map (fun v => nround (v / mx / da)) dval)
                   else map (fun _ => 0%Z) dind in
      map2 (fun c b => combine_int c (Z.of_nat b)) index dind.
    (** sparse_rep.py 291 [A[:, [Dind]] = A[:, [np.arange(len(Dind))]]] *)
    Definition swap_back (dind : list nat) (A : list (list T)) : list (list T) :=
      fold_left (fun B jd => upd (snd jd) (nth (fst jd) A []) B) (combine (seq 0 (length dind)) dind) A.
    (** sparse_rep.py 271-291, one PDF: its line of the array and the dictionary for the next.
        SIMPLIFICATION: the line holds only the assigned entries (the rest is 0). *)
    Definition build_one (nsparse : nat) (tol : T) (A : list (list T)) (pdf0 : list T)
      : res (list Z * list (list T)) :=
      let* r := sparse_basis A pdf0 nsparse (Some tol) in
      let '(dind, dval, A') := r in
      if (length dind <? 1)%nat then Ok ([], A')
      else Ok (encode dind dval, swap_back dind A').
    (** sparse_rep.py 217-295 [build_sparse_representation], with the dictionary given *)
    Fixpoint build_all (nsparse : nat) (tol : T) (A : list (list T)) (P : list (list T))
      : res (list (list Z) * list (list T)) :=
      match P with
      | [] => Ok ([], A)
      | pdf0 :: P' =>
          let* r := build_one nsparse tol A pdf0 in
          let* rs := build_all nsparse tol (snd r) P' in
          Ok (fst r :: fst rs, snd rs)
      end.
  End Voigt.
End Sparse.
