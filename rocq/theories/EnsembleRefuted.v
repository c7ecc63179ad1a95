(** Concrete calls (with rational numbers) for which claims about ensembles fail. *)
From Coq Require Import String List Arith ZArith QArith Bool.
From Verif Require Import Num Py NdArray NumpyLib ScipyWrap Values Ensemble Classes.
Import ListNotations.
Local Open Scope string_scope.
Local Open Scope list_scope.

(** The classes of qp with simple functions in place of those of scipy: a triangular bump and
    its ramp for the normal distribution, the linear interpolation for the splines, and the
    first point of the table for the derivative of a spline. *)
Definition ramp (x : Q) : Q := nclip ((x + 1) / 2)%Q 0%Q 1%Q.
Definition qpQ : string -> option (vdict Q -> res (gobj Q)) :=
  qp_classes (fun x => nmax 0 (1 - nabs x))%Q ramp interp1d (fun xs ys x => interp1d xs ys 0 0 x)%Q (fun xs ys x => nth0 0 xs)
    (fun x => x) (fun x _ _ => nmax 0 (1 - nabs x))%Q (fun x => x) (fun p => Fin (2 * p - 1)%Q).
Definition newQ (name : string) (d : vdict Q) (anc : option (vdict Q)) : res (ens Q) := ens_new (create_of qpQ name) d anc.

(** Two histograms with bins 0, 1, 2 *)
Definition bins3 : list Q := [0; 1; 2]%Q.
Definition two_hists : vdict Q := [("bins", VArr (nd1 bins3)); ("pdfs", VArr (nd2 2 [[1; 1]; [1; 3]]%Q))].
Definition one_hist : vdict Q := [("bins", VArr (nd1 bins3)); ("pdfs", VArr (nd2 2 [[0; 1]]%Q))].

(** Conditions on the value of a call *)
Definition yields {A} (r : res A) (P : A -> Prop) : Prop := match r with Ok a => P a | Err _ => False end.
Lemma yields_ok {A} (r : res A) P : yields r P -> exists a, r = Ok a /\ P a.
Proof. destruct r; [eauto|intros []]. Qed.

(** *** C21 *)
(** an integer key raises ValueError when a column of the ancillary table has two entries per PDF *)
Lemma c21_ancil_refuted : exists d anc, anc = [("z", VArr (nd2 2 [[1; 2]; [3; 4]]%Q))] /\
  yields (newQ "hist" d (Some anc)) (fun e => e_npdf e = 2%nat /\
    getitem qpQ e (KInt 0) = Err ValueError /\ yields (getitem qpQ e (KSlice 0 1)) (fun e' => e_npdf e' = 1%nat)).
Proof. exists two_hists, [("z", VArr (nd2 2 [[1; 2]; [3; 4]]%Q))]. split; [reflexivity|]. vm_compute. repeat split. Qed.
(** the entries left by an integer key cannot be indexed again: ens[0][0] raises IndexError *)
Lemma c21_twice_refuted : exists d anc,
  yields (newQ "hist" d (Some anc)) (fun e => yields (getitem qpQ e (KInt 0)) (fun e' =>
    e_npdf e' = 1%nat /\ getitem qpQ e' (KInt 0) = Err IndexError)).
Proof. exists two_hists, [("z", VArr (nd1 [1; 2]%Q))]. vm_compute. repeat split. Qed.
(** an empty selection of quantile PDFs raises ValueError, of histograms it works *)
Lemma c21_empty_refuted : exists d d',
  yields (newQ "quant" d None) (fun e => e_npdf e = 2%nat /\ getitem qpQ e (KSlice 1 1) = Err ValueError) /\
  yields (newQ "hist" d' None) (fun e => yields (getitem qpQ e (KSlice 1 1)) (fun p => e_npdf p = 0%nat)).
Proof.
  exists [("quants", VArr (nd1 [0; 1 # 2; 1]%Q)); ("locs", VArr (nd2 3 [[0; 1; 2]; [5; 6; 8]]%Q))], two_hists. vm_compute. repeat split.
Qed.
(** the density from the derivative of the cdf spline: PDF 1 answers with the density of PDF 0,
    taken out of the ensemble it answers with its own *)
Lemma c21_spline_refuted : exists d,
  yields (newQ "quant" d None) (fun e => ens_pdf e (PScalar 1%Q) = Ok [[Fin 0%Q]; [Fin 0%Q]] /\
    yields (getitem qpQ e (KInt 1)) (fun e' => ens_pdf e' (PScalar 1%Q) = Ok [[Fin 5%Q]])).
Proof.
  exists [("quants", VArr (nd1 [0; 1 # 4; 1 # 2; 1]%Q)); ("locs", VArr (nd2 4 [[0; 1; 2; 3]; [5; 6; 8; 9]]%Q)); ("pdf_constructor_name", VStr "cdf_spline_derivative")].
  vm_compute. repeat split.
Qed.
(** the ppf of a mixture is read off a grid spanning the whole ensemble, so the same PDF answers
    differently once it is alone *)
Lemma c21_mixture_refuted : exists d a b,
  yields (newQ "mixmod" d None) (fun e => ens_ppf e (PScalar (1 # 4)%Q) = Ok [[Fin a]; [Fin b]] /\
    yields (getitem qpQ e (KInt 0)) (fun e' => exists a', ens_ppf e' (PScalar (1 # 4)%Q) = Ok [[Fin a']] /\ ~ (a == a')%Q)).
Proof.
  exists [("means", VArr (nd2 1 [[0]; [4]]%Q)); ("stds", VArr (nd2 1 [[1]; [1 # 2]]%Q)); ("weights", VArr (nd2 1 [[1]; [1]]%Q))].
  do 2 eexists. vm_compute. split; [reflexivity|]. eexists. split; [reflexivity|]. discriminate.
Qed.

(** *** C22, C23 *)
(** bins that differ by less than the tolerance: the second ensemble silently gets the bins of the
    first, and its PDF is no longer what it was *)
Lemma c22_tolerance_refuted : exists d d' x,
  yields (newQ "hist" d None) (fun a => yields (newQ "hist" d' None) (fun b =>
    e_npdf a = 2%nat /\ e_npdf b = 1%nat /\
    yields (concatenate [a; b]) (fun c => match c with
      | None => False
      | Some c => ens_cdf b (PScalar x) = Ok [[Fin (100000 # 100001)%Q]] /\ ens_cdf c (PScalar x) = Ok [[Fin 1%Q]; [Fin 1%Q]; [Fin 1%Q]]
      end))).
Proof.
  exists two_hists, [("bins", VArr (nd1 [0; 1; 200001 # 100000]%Q)); ("pdfs", VArr (nd2 2 [[0; 1]]%Q))], 2%Q.
  vm_compute. repeat split.
Qed.
(** one ensemble without ancillary data makes the data of all others disappear *)
Lemma c22_dropped : exists d anc d',
  yields (newQ "hist" d (Some anc)) (fun a => yields (newQ "hist" d' None) (fun b =>
    anc <> [] /\ yields (concatenate [a; b]) (fun c => match c with None => False | Some c => e_npdf c = 3%nat /\ e_ancil c = None end))).
Proof. exists two_hists, [("z", VArr (nd1 [1; 2]%Q))], one_hist. vm_compute. repeat split. discriminate. Qed.

(** *** C24 *)
(** an ensemble of shape (2, 1): read back it has shape (2) *)
Lemma c24_shape_refuted : exists d,
  yields (newQ "hist" d None) (fun e => yields (from_tables qpQ (build_tables e)) (fun e' =>
    g_shape (e_obj e) = [2; 1]%nat /\ g_shape (e_obj e') = [2]%nat)).
Proof. exists [("bins", VArr (nd1 bins3)); ("pdfs", VArr (mknd [2; 1; 2]%nat [1; 1; 1; 3]%Q))]. vm_compute. repeat split. Qed.

(** *** C29, C30, C31 *)
Definition bad_column : vdict Q := [("z", VArr (nd1 [1; 2; 3; 4]%Q))].
(** update with a table that does not fit raises ValueError, but the PDFs are replaced: one PDF
    with a table of two rows, and [gridded] still answers for the old PDFs *)
Lemma c31_update_refuted : exists d anc d' bad,
  yields (newQ "hist" d (Some anc)) (fun e =>
    let e1 := snd (gridded e [1 # 2]%Q) in
    let e2 := snd (update e1 d' (Some bad)) in
    fst (update e1 d' (Some bad)) = Err ValueError /\
    e_npdf e = 2%nat /\ e_npdf e2 = 1%nat /\ e_ancil e2 = Some [("z", VArr (nd1 [1; 2]%Q))] /\
    ens_pdf e2 (PGrid [1 # 2]%Q) = Ok [[Fin 0%Q]] /\
    fst (gridded e2 [1 # 2]%Q) = Ok ([1 # 2]%Q, [[Fin (1 # 2)%Q]; [Fin (1 # 4)%Q]])).
Proof. exists two_hists, [("z", VArr (nd1 [1; 2]%Q))], one_hist, bad_column. vm_compute. repeat split. Qed.
(** The cache keeps the caller's grid, not a copy: [mutate_grid] is what writing into that array
    does to the ensemble.  (ensemble.py 341) *)
Definition mutate_grid (e : ens Q) (g : list Q) : ens Q :=
  match e_gridded e with
  | None => e
  | Some (_, v) => mkens (e_func e) (e_obj e) (e_ancil e) (Some (g, v))
  end.
Lemma c29_alias_refuted : exists d grid grid',
  yields (newQ "hist" d None) (fun e =>
    let e1 := mutate_grid (snd (gridded e grid)) grid' in
    ens_pdf e1 (PGrid grid') = Ok [[Fin (1 # 2)%Q]; [Fin (3 # 4)%Q]] /\
    fst (gridded e1 grid') = Ok (grid', [[Fin (1 # 2)%Q]; [Fin (1 # 4)%Q]])).
Proof. exists two_hists, [1 # 2]%Q, [3 # 2]%Q. vm_compute. repeat split. Qed.

(** *** C50 *)
(** an ensemble of a scipy class with scalar parameters: every index is accepted, the loop never ends *)
Definition scalar_norm : vdict Q := [("loc", VNum 0%Q); ("scale", VNum 1%Q)].
Lemma scalar_item i : forall e, newQ "norm" scalar_norm None = Ok e -> exists p, getitem qpQ e (KInt i) = Ok p.
Proof.
  intros e H. unfold newQ, ens_new, create_of in H. cbn in H. injection H as <-. eexists. reflexivity.
Qed.
Lemma c50_scalar_refuted : exists d, yields (newQ "norm" d None) (fun e =>
  e_npdf e = 1%nat /\ forall fuel, iterate_from qpQ e 0 fuel = None).
Proof.
  exists scalar_norm. destruct (newQ "norm" scalar_norm None) as [e|] eqn:E.
  - cbn [yields]. split; [unfold newQ, ens_new, create_of in E; cbn in E; injection E as <-; reflexivity|]. intros fuel. generalize 0%nat. induction fuel as [|fuel IH]; intros i; [reflexivity|].
    cbn [iterate_from]. destruct (scalar_item (Z.of_nat i) e E) as (p & ->). rewrite IH. reflexivity.
  - exfalso. unfold newQ, ens_new, create_of in E. cbn in E. discriminate.
Qed.
(** the entries of e[0] have no axis left: iterating over e[0] visits nothing *)
Lemma c50_single_refuted : exists d anc,
  yields (newQ "hist" d (Some anc)) (fun e => yields (getitem qpQ e (KInt 0)) (fun p =>
    e_npdf p = 1%nat /\ iterate_from qpQ p 0 10 = Some (Ok []))).
Proof. exists two_hists, [("z", VArr (nd1 [1; 2]%Q))]. vm_compute. repeat split. Qed.
(** *** C140 *)
(** the cut given to the constructor of sparse is not kept with the data: a selection is rebuilt with the default one *)
Lemma c140_cut_lost : exists d, vget d "cut" = Some (VNum (3 # 4)%Q) /\
  yields (newQ "sparse" d None) (fun e => e_npdf e = 2%nat /\ ens_pdf e (PScalar (1 # 2)%Q) = Ok [[Fin 0%Q]; [Fin 0%Q]] /\
    yields (getitem qpQ e (KInt 0)) (fun e' => exists v, ens_pdf e' (PScalar (1 # 2)%Q) = Ok [[Fin v]] /\ (0 < v)%Q)).
Proof.
  exists [("xvals", VArr (nd1 [0; 1 # 2; 1]%Q)); ("mu", VArr (nd1 [0; 1]%Q)); ("sig", VArr (nd1 [1; 2]%Q)); ("dims", VByt (nd1 [1; 1; 1; 32001; 1]%Z));
          ("sparse_indices", VByt (nd2 1 [[65536]; [65536]]%Z)); ("cut", VNum (3 # 4)%Q)].
  split; [reflexivity|]. vm_compute. repeat split. eexists. split; reflexivity.
Qed.
