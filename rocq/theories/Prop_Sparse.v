(** Sparse representations: C18-C20, C73-C76. *)
From Coq Require Import List Arith ZArith QArith Bool Sorted Lia Reals Lra.
From Coquelicot Require Import Coquelicot.
From Verif Require Import Num NumProofs Py NdArray NumpyLib Utils ScipyWrap Spec InterpPdf Packing Sparse
  InterpProofs GridTheorems PackingTheorems SparseTheorems.
Import ListNotations.
Local Open Scope R_scope.

(** C18 for basis indices that fit 16 bits. *)
Theorem C18_int_coding_partial : forall c b : Z, (0 <= b < 65536)%Z -> get_N (combine_int c b) = (c, b).
Proof. exact c18_partial. Qed.

(** C18 as stated is false: index 65536 spills into the coefficient. *)
Theorem C18_int_coding_refuted : exists c b : Z, (0 <= b)%Z /\ get_N (combine_int c b) <> (c, b) /\
  get_N (combine_int c b) = ((c + 1)%Z, 0%Z).
Proof. exact c18_refuted. Qed.

(** C73: the exact range; the coefficient may be any integer, also negative. *)
Theorem C73_int_coding_exact : forall c b : Z, get_N (combine_int c b) = (c, b) <-> (0 <= b < 2 ^ 16)%Z.
Proof. exact c73_iff. Qed.

Theorem C73_no_collision : forall c b c' b' : Z, (0 <= b < 65536)%Z -> (0 <= b' < 65536)%Z ->
  combine_int c b = combine_int c' b' -> c = c' /\ b = b'.
Proof. exact combine_injective. Qed.

Example C73_example : get_N (combine_int (-5) 65535) = ((-5)%Z, 65535%Z) /\ combine_int 1 0 <> combine_int 0 1.
Proof. vm_compute. split; congruence. Qed.

(** C19 for dictionaries of at most 65536 columns (and any number of coded pairs). *)
Theorem C19_basis_shapes_partial : forall (mu sig : R * R) nmu nsig nv ncoef (coefs : list Z) (bases : list nat),
  length coefs = length bases ->
  (forall b, In b bases -> (b < nmu * (nsig * nv))%nat /\ (Z.of_nat b < 65536)%Z) ->
  let inds := map2 (fun c b => combine_int c (Z.of_nat b)) coefs bases in
  snd (indices2shapes mu sig nmu nsig nv ncoef inds) =
  map (fun b => nth b (basis_params mu sig nmu nsig nv) (0, 0, 0)) bases.
Proof. exact c19_partial. Qed.

(** C19 as stated is false for larger dictionaries. *)
Theorem C19_basis_shapes_refuted : exists (mu sig : R * R) nmu nsig nv c b,
  (b < nmu * (nsig * nv))%nat /\
  snd (indices2shapes mu sig nmu nsig nv 32001 [combine_int c (Z.of_nat b)]) <>
  [nth b (basis_params mu sig nmu nsig nv) (0, 0, 0)].
Proof. exact c19_refuted. Qed.

Example C19_example : snd (indices2shapes (T := Q) (0, 3)%Q (1, 2)%Q 4 2 3 32001 [combine_int 9 22; combine_int 4 3]) =
  [nth 22 (basis_params (0, 3)%Q (1, 2)%Q 4 2 3) (0, 0, 0)%Q; nth 3 (basis_params (0, 3)%Q (1, 2)%Q 4 2 3) (0, 0, 0)%Q] /\
  (nth 22 (basis_params (T := Q) (0, 3)%Q (1, 2)%Q 4 2 3) (0, 0, 0)%Q <> nth 3 (basis_params (0, 3)%Q (1, 2)%Q 4 2 3) (0, 0, 0)%Q).
Proof. split; vm_compute; [reflexivity|congruence]. Qed.

(** C20 as far as it holds: if what every PDF selects, taken alone, includes all positions smaller than
    the number of selected columns, the batch gives every PDF what it gets alone and the dictionary is intact. *)
Theorem C20_same_dictionary_partial : forall sqrt chol dependent nsparse tol (D P : list (list R)) lines,
  (forall pdf, In pdf P -> forall dind dval D1,
     sparse_basis sqrt chol dependent D pdf nsparse (Some tol) = Ok (dind, dval, D1) ->
     forall p, (p < length dind)%nat -> In p dind) ->
  mapM (fun pdf => let* r := build_all sqrt chol dependent nsparse tol D [pdf] in Ok (nth 0 (fst r) [])) P = Ok lines ->
  build_all sqrt chol dependent nsparse tol D P = Ok (lines, D).
Proof. exact c20_partial. Qed.

Example C20_example : let D := [[1; 0; 0]; [0; 1; 0]; [0; 0; 1]]%Q in
  let P := [[1; 0; 0]; [1; 2; 0]; [2; 1; 0]]%Q in
  let build := build_all (fun x : Q => x) (fun _ a => a) (fun _ _ => false) 2 (1 # 100)%Q D in
  (forall pdf, In pdf P -> match sparse_basis (fun x : Q => x) (fun _ a => a) (fun _ _ => false) D pdf 2 (Some (1 # 100)%Q) with
     | Ok (dind, _, _) => forallb (fun p => existsb (Nat.eqb p) dind) (seq 0 (length dind)) = true | Err _ => False end) /\
  build P = Ok ([[combine_int 32000 0]; [combine_int 64000 1; combine_int 16000 0]; [combine_int 64000 0; combine_int 16000 1]], D).
Proof.
  cbv zeta. split; [|vm_compute; reflexivity].
  intros pdf [<-|[<-|[<-|[]]]]; vm_compute; reflexivity.
Qed.

(** C20 as stated is false: after a PDF that selects column 2, column 0 is overwritten and the next PDF
    cannot be coded at all. *)
Theorem C20_same_dictionary_refuted : exists (D : list (list Q)) (pdf0 pdf1 : list Q) (chol : list (list Q) -> list Q -> list Q) dep l0 l1 D',
  orthonormalQ D /\
  (forall cols a, orthonormalQ cols -> chol cols a = a) /\
  (* alone, each PDF is coded (it is a column of the dictionary) *)
  build_all (fun x => x) chol dep 1 (1 # 100) D [pdf0] = Ok ([l0], D') /\
  build_all (fun x => x) chol dep 1 (1 # 100) D [pdf1] = Ok ([l1], D) /\
  (* together the second one fails *)
  build_all (fun x => x) chol dep 1 (1 # 100) D [pdf0; pdf1] = Err UnboundLocalError /\
  (* because column 0 of the dictionary is gone *)
  nth 0 D' [] = nth 2 D [] /\ nth 0 D' [] <> nth 0 D [].
Proof. exact c20_refuted. Qed.

(** C75: what one PDF leaves of the dictionary: selected positions and positions from the number of
    selected columns on are intact; every other position p receives the p-th selected column. *)
Theorem C75_dictionary_effect : forall sqrt chol dependent nsparse tol (D : list (list R)) pdf line D',
  build_one sqrt chol dependent nsparse tol D pdf = Ok (line, D') ->
  exists dind dval D1, sparse_basis sqrt chol dependent D pdf nsparse (Some tol) = Ok (dind, dval, D1) /\
    length D' = length D /\
    NoDup dind /\ (forall d, In d dind -> (d < length D)%nat) /\
    (forall p, (p < length D)%nat -> In p dind \/ (length dind <= p)%nat -> nth p D' [] = nth p D []) /\
    (forall p, (p < length dind)%nat -> ~ In p dind -> nth p D' [] = nth (nth p dind 0%nat) D []).
Proof. exact c75_dictionary. Qed.

Example C75_example : let D := [[1; 0; 0]; [0; 1; 0]; [0; 0; 1]]%Q in
  build_one (fun x : Q => x) (fun _ a => a) (fun _ _ => false) 2 (1 # 100)%Q D [0; 1; 4]%Q =
  Ok ([combine_int 128000 2; combine_int 8000 1], [[0; 0; 1]; [0; 1; 0]; [0; 0; 1]]%Q).
Proof. vm_compute. reflexivity. Qed.

(** C74: the indices and all weights but the first are read back, to within half a step of the maximum;
    the first weight is read as 1, correct exactly when the first coefficient is the maximum. *)
Theorem C74_weights : forall (dind : list nat) (dval : list R),
  length dval = length dind -> dind <> [] -> (forall d, In d dind -> (Z.of_nat d < 65536)%Z) ->
  forall mx, is_max mx dval -> 0 < mx ->
  exists w, decode_sparse (encode dind dval) = (dind, w) /\ length w = length dval /\
    nth0 0 w = 1 /\
    (forall j, (0 < j)%nat -> (j < length dval)%nat -> Rabs (nth0 j w - nth0 j dval / mx) <= 1 / 64000) /\
    (nth0 0 dval = mx -> forall j, (j < length dval)%nat -> Rabs (nth0 j w - nth0 j dval / mx) <= 1 / 64000).
Proof. exact c74_weights. Qed.

(** The first coefficient is lost: (1, 2) is read back as (1, 1). *)
Theorem C74_first_weight_lost : exists (dind : list nat) (dval dval' : list Q),
  dval <> dval' /\
  decode_sparse (encode dind dval) = (dind, [1; 1]%Q) /\
  decode_sparse (encode dind dval') = (dind, [1; 1]%Q) /\ dval = [1; 2]%Q.
Proof. exact c74_first_refuted. Qed.

Example C74_example : decode_sparse (encode (T := Q) [7; 2; 90]%nat [4; 1; -3]%Q) = ([7; 2; 90]%nat, [1; 1 # 4; -3 # 4]%Q).
Proof. vm_compute. reflexivity. Qed.

(** C76: a sparse ensemble is the interpolated, normalised weighted sum of the columns its indices name. *)
Theorem C76_sparse_density : forall voigt sqrt xs mu sig nmu nsig nv cut (codes : list (list (Z * nat))),
  increasing xs -> (2 <= length xs)%nat -> codes <> [] ->
  (forall c, In c codes -> c <> [] /\ forall z b, In (z, b) c -> (b < nmu * (nsig * nv))%nat /\ (Z.of_nat b < 65536)%Z) ->
  (forall c z b, In c codes -> In (z, b) c -> shown voigt xs cut (nth b (basis_params mu sig nmu nsig nv) (0, 0, 0))) ->
  let bases := fun c : list (Z * nat) => map snd c in
  let weights := fun c : list (Z * nat) => decode_weights (T := R) 32001 (map fst c) in
  let y := fun r => coded voigt sqrt xs mu sig nmu nsig nv cut (bases (nth r codes [])) (weights (nth r codes [])) in
  (forall r, (r < length codes)%nat ->
     (forall j, (j < length xs)%nat -> 0 <= y r j) /\ exists j, (j < length xs)%nat /\ 0 < y r j) ->
  exists i, sparse_ctor voigt sqrt xs mu sig nmu nsig nv cut
              (map (map (fun zb => combine_int (fst zb) (Z.of_nat (snd zb)))) codes) = Ok i /\
  exists f, evaluates (interp_ens_pdf i) (length codes) f /\
    forall r, (r < length codes)%nat ->
      (forall x, 0 <= f r x) /\ is_RInt (f r) (nth0 0 xs) (nlast xs) 1 /\ (forall x, x < nth0 0 xs \/ nlast xs < x -> f r x = 0) /\
      (exists k, 0 < k /\ forall j, (j < length xs)%nat -> f r (nth0 j xs) = k * y r j) /\
      (forall j x, (S j < length xs)%nat -> nth0 j xs <= x <= nth0 (S j) xs ->
         f r x * (nth0 (S j) xs - nth0 j xs) = f r (nth0 j xs) * (nth0 (S j) xs - x) + f r (nth0 (S j) xs) * (x - nth0 j xs)).
Proof. exact c76_sparse. Qed.

Example C76_example : exists voigt sqrt xs mu sig codes,
  increasing xs /\ (2 <= length xs)%nat /\ codes <> [] /\
  (forall c, In c codes -> c <> [] /\ forall z b, In (z, b) c -> (b < 1 * (1 * 1))%nat /\ (Z.of_nat b < 65536)%Z) /\
  (forall c z b, In c codes -> In (z, b) c -> shown voigt xs (1 / 100000) (nth b (basis_params mu sig 1 1 1) (0, 0, 0))) /\
  forall r, (r < length codes)%nat ->
     let y := coded voigt sqrt xs mu sig 1 1 1 (1 / 100000) (map snd (nth r codes [])) (decode_weights 32001 (map fst (nth r codes []))) in
     (forall j, (j < length xs)%nat -> 0 <= y j) /\ exists j, (j < length xs)%nat /\ 0 < y j.
Proof. exact c76_example. Qed.

Print Assumptions C20_same_dictionary_partial.
Print Assumptions C75_dictionary_effect.
Print Assumptions C76_sparse_density.

Print Assumptions C18_int_coding_partial.
Print Assumptions C18_int_coding_refuted.
Print Assumptions C73_int_coding_exact.
Print Assumptions C73_no_collision.
Print Assumptions C19_basis_shapes_partial.
Print Assumptions C19_basis_shapes_refuted.
Print Assumptions C20_same_dictionary_refuted.
Print Assumptions C74_weights.
Print Assumptions C74_first_weight_lost.
