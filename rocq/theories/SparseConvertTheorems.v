(** Conversion to the sparse representation (C128). *)
From Coq Require Import String List Arith ZArith Bool Lia Reals Lra.
From Coquelicot Require Import Coquelicot.
From Verif Require Import FreezeProofs Num NumProofs Py NdArray NumpyLib Utils ScipyWrap Spec Values Ensemble Classes InterpPdf Convert SampleConvert
  SortProofs BinProofs EvalProofs NdProofs InterpProofs IntegralProofs HistProofs MixmodTheorems Kinds KindProofs EnsembleProofs KindInputs
  ReachProofs EnsembleTheorems RowProofs IntegrateTheorems RbpeMath Packing PackingTheorems ConvertTheorems SplineXyTheorems Sparse SparseTheorems SparseConvert HistTheorems.
Import ListNotations.
Local Open Scope string_scope.
Local Open Scope list_scope.
Local Open Scope R_scope.

(** ** Sources *)
Lemma c128_sources : forall X voigt sqrt chol dependent M e kw, fill_outside X -> made X M e -> g_name (e_obj e) <> "interp" ->
  sparse_convert voigt sqrt chol dependent e kw = Err KeyError.
Proof.
  intros X voigt sqrt chol dependent M e kw HX He Hname. destruct (made_rep X M e HX He) as (k & D & HD & _).
  destruct (rep_meta X k D e HD) as (Hm & Ho & Hk). rewrite Hk in Hname.
  assert (E : vget (objdata e) "yvals" = None \/ vget (metadata e) "xvals" = None).
  { rewrite Hm, Ho. destruct k; cbn [kind_name] in Hname; try congruence; (left; reflexivity) || (right; reflexivity). }
  unfold sparse_convert, extract_sparse_from_xy. destruct E as [E|E]; rewrite E; [reflexivity|].
  destruct (vget (objdata e) "yvals"); reflexivity.
Qed.

(** ** The grid, the widths and the number of basis functions *)
(** [n] equally spaced points *)
Definition spaced (a b : R) (n : nat) : list R := map (fun i => a + INR i * ((b - a) / INR (n - 1))) (seq 0 n).
Lemma linspace_spaced a b n : (2 <= n)%nat -> np_linspace a b n = spaced a b n.
Proof.
  intros H. destruct n as [|[|n]]; try lia. unfold np_linspace, spaced. replace (S (S n) - 1)%nat with (S n) by lia.
  apply map_ext. intros i. cbn [nofZ RNum]. rewrite <- !INR_IZR_INZ. reflexivity.
Qed.
(** the range of widths *)
Definition widths (a b : R) (n : nat) : R * R := ((b - a) / INR (n - 1) / 6, (b - a) / 12).
Definition n_widths (n : nat) : nat := ((n + 2) / 6)%nat.
Lemma n_widths_least : forall n, (3 <= n)%nat -> (n - 3 <= 6 * n_widths n)%nat /\ forall k, (n - 3 <= 6 * k)%nat -> (n_widths n <= k)%nat.
Proof.
  intros n Hn. unfold n_widths. pose proof (Nat.div_mod (n + 2) 6 ltac:(lia)). pose proof (Nat.mod_upper_bound (n + 2) 6 ltac:(lia)).
  split; [lia|]. intros k Hk. apply Nat.lt_succ_r. apply Nat.div_lt_upper_bound; lia.
Qed.
Lemma plan_linspace a b n : a < b -> (2 <= n)%nat ->
  basis_plan (np_linspace a b n) None None None None = Ok ((a, b), n, widths a b n, n_widths n).
Proof.
  intros Hab Hn. destruct n as [|[|n]]; try lia.
  pose proof (linspace_inc a b n Hab) as Hs. pose proof (linspace_length a b (S (S n))) as L.
  pose proof (linspace_first a b n) as F. pose proof (linspace_last a b n) as La.
  pose proof (linspace_nth a b n 1 ltac:(lia)) as F1. simpl (INR 1) in F1.
  destruct (np_linspace a b (S (S n))) as [|x0 [|x1 t]] eqn:E; cbn [length] in L; try lia.
  set (l := x0 :: x1 :: t) in *.
  assert (Hin : forall v, In v l -> a <= v <= b).
  { intros v Hv. destruct (In_nth l v 0 Hv) as (i & Hi & <-). rewrite <- F, <- La. rewrite nlast_nth0. fold (nth0 i l).
    assert (Hle : forall i j, (i <= j)%nat -> (j < length l)%nat -> nth0 i l <= nth0 j l).
    { intros p q Hpq Hq. destruct (Nat.eq_dec p q) as [->|]; [lra|]. left. apply inc_lt; auto; lia. }
    split; apply Hle; lia. }
  assert (Ha : In a l) by (rewrite <- F; unfold nth0; apply nth_In; cbn; lia).
  assert (Hb : In b l) by (rewrite <- La, nlast_nth0; unfold nth0; apply nth_In; cbn; lia).
  assert (Emin : nminimum x0 (x1 :: t) = a) by (apply (least_eq l a Ha); intros v Hv; apply Hin; auto).
  assert (Emax : nmaximum x0 (x1 :: t) = b) by (apply (greatest_eq l b Hb); intros v Hv; apply Hin; auto).
  assert (Hx0 : x0 = a) by exact F. assert (Hx1 : x1 = a + (b - a) / INR (S n)) by (etransitivity; [exact F1|ring]).
  assert (Hd : x1 - x0 = (b - a) / INR (S n)) by lra.
  assert (Hpos : 0 < INR (S n)) by (apply lt_0_INR; lia).
  assert (Hdx : 0 < (b - a) / INR (S n)) by (apply Rdiv_lt_0_compat; lra).
  unfold basis_plan, l. rewrite Emin, Emax. cbn [nsub RNum]. unfold widths. replace (S (S n) - 1)%nat with (S n) by lia.
  change (nsub x1 x0) with (x1 - x0). rewrite Hd.
  assert (E0 : neqb ((b - a) / INR (S n)) n0 = false).
  { destruct (neqb_reflect ((b - a) / INR (S n)) n0) as [C|C]; [|reflexivity]. change n0 with 0 in C. lra. }
  rewrite E0.
  assert (Ez : nceil (nmul (nofZ 2) (nsub (ndiv (b - a) (nofZ 12)) (ndiv ((b - a) / INR (S n)) (nofZ 6))) / ((b - a) / INR (S n)))%num = Z.of_nat (n_widths (S (S n)))).
  { unfold nceil. cbn [nfloor nsub n0 ndiv nmul nofZ RNum].
    replace (0 - 2 * ((b - a) / 12 - (b - a) / INR (S n) / 6) / ((b - a) / INR (S n))) with (- ((INR n - 1) / 6)) by (rewrite S_INR in *; field; lra).
    rewrite <- (Int_part_at (- ((INR n - 1) / 6)) (- Z.of_nat (n_widths (S (S n))))); [apply Z.opp_involutive|].
    rewrite opp_IZR, <- INR_IZR_INZ. unfold n_widths.
    pose proof (Nat.div_mod (S (S n) + 2) 6 ltac:(lia)) as Q1. pose proof (Nat.mod_upper_bound (S (S n) + 2) 6 ltac:(lia)) as Q2.
    set (q := ((S (S n) + 2) / 6)%nat) in *. assert (A1 : (n <= 6 * q + 1)%nat) by lia. assert (A2 : (6 * q <= n + 4)%nat) by lia.
    apply le_INR in A1, A2. rewrite plus_INR, mult_INR in A1. rewrite mult_INR, plus_INR in A2. simpl in A1, A2. lra. }
  match goal with |- context [nceil ?v] => change v with (nmul (nofZ 2) (nsub (ndiv (b - a) (nofZ 12)) (ndiv ((b - a) / INR (S n)) (nofZ 6))) / ((b - a) / INR (S n)))%num end.
  rewrite Ez. destruct (Z.ltb_spec (Z.of_nat (n_widths (S (S n)))) 0) as [C|_]; [lia|]. rewrite Nat2Z.id. cbn [bind].
  cbn [length] in L |- *. rewrite L. reflexivity.
Qed.
(** all basis numbers fit in the sixteen bits of the code exactly up to 363 points *)
Lemma c128_bases : forall n, (Z.of_nat (3 * n * n_widths n) <= 65536)%Z <-> (n <= 363)%nat.
Proof.
  intros n. unfold n_widths. pose proof (Nat.div_mod (n + 2) 6 ltac:(lia)) as Q1. pose proof (Nat.mod_upper_bound (n + 2) 6 ltac:(lia)) as Q2.
  set (q := ((n + 2) / 6)%nat) in *. split; intros H.
  - destruct (Nat.le_gt_cases n 363) as [|C]; auto. assert (61 <= q)%nat by (unfold q; change 61%nat with (366 / 6)%nat; apply Nat.div_le_mono; lia). nia.
  - assert (q <= 60)%nat by (unfold q; change 60%nat with (365 / 6)%nat; apply Nat.div_le_mono; lia). nia.
Qed.

(** ** Extraction *)
(** the last grid point at which some PDF is positive *)
Definition highest (xs : list R) (n : nat) (f : nat -> R -> R) (top : R) : Prop :=
  In top xs /\ (exists r, (r < n)%nat /\ 0 < f r top) /\ forall r x, (r < n)%nat -> In x xs -> 0 < f r x -> x <= top.
Definition with_nvals (nvals : option nat) : vdict R := match nvals with Some m => [("nvals", VNum (INR m))] | None => [] end.
Definition points_asked (nvals : option nat) : nat := match nvals with Some m => m | None => 300 end.

Lemma positive_columns_in (rows : list (list R)) j : In j (positive_columns rows) <-> exists row, In row rows /\ (j < length row)%nat /\ 0 < nth0 j row.
Proof.
  unfold positive_columns. rewrite in_flat_map. split.
  - intros (row & Hr & Hj). exists row. split; [exact Hr|]. apply in_map_iff in Hj. destruct Hj as ((i, y) & Ej & Hj). cbn [fst] in Ej. subst i.
    apply filter_In in Hj. destruct Hj as (Hc & Hp). cbn [snd] in Hp.
    destruct (In_nth _ _ (0%nat, 0) Hc) as (p & Hp1 & Hp2). rewrite combine_length, seq_length, Nat.min_id in Hp1.
    rewrite combine_nth in Hp2 by apply seq_length. rewrite seq_nth in Hp2 by exact Hp1. injection Hp2 as Ej Ey. simpl in Ej. subst p.
    split; [exact Hp1|]. unfold nth0. change n0 with 0. rewrite Ey. destruct (nltb_reflect n0 y) as [H|H]; [exact H|discriminate].
  - intros (row & Hr & Hj & Hp). exists row. split; [exact Hr|]. apply in_map_iff. exists (j, nth0 j row). split; [reflexivity|]. apply filter_In. split.
    + unfold nth0. replace (j, nth j row n0) with (nth j (combine (seq 0 (length row)) row) (0%nat, n0)); [apply nth_In; rewrite combine_length, seq_length, Nat.min_id; exact Hj|].
      rewrite combine_nth by apply seq_length. rewrite seq_nth by exact Hj. reflexivity.
    + cbn [snd]. destruct (nltb_reflect n0 (nth0 j row)) as [H|H]; [reflexivity|contradiction].
Qed.
Lemma sorted_grid_inc xs : increasing xs -> sorted_grid xs = true.
Proof.
  intros Hs. unfold sorted_grid. apply forallb_forall. intros d Hd. destruct (In_nth _ _ 0 Hd) as (i & Hi & <-). rewrite ndiff_length in Hi. change (nth i (ndiff xs) 0) with (nth0 i (ndiff xs)). rewrite ndiff_nth by lia.
  match goal with |- nltb ?a ?b = _ => destruct (nltb_reflect a b) as [|C]; [reflexivity|] end. exfalso. apply C. change (0 < nth0 (S i) xs - nth0 i xs). pose proof (inc_lt xs i (S i) Hs ltac:(lia)). lra.
Qed.

Section Extract.
  Variable X : scipy.
  Hypothesis HX : fill_outside X.
  Variables (voigt : R -> R -> R -> R) (sqrt : R -> R) (chol : list (list R) -> list R -> list R) (dependent : list (list R) -> list R -> bool).

  (** the integers written for PDFs with densities [f]: the pursuit of C75 on [n] equally spaced points *)
  Definition pursued (a b : R) (n : nat) (P : list (list R)) : res (list (list Z)) :=
    let* r := build_all sqrt chol dependent 20 (/ 10 ^ 10) (create_voigt_basis voigt sqrt (spaced a b n) (a, b) n (widths a b n) (n_widths n) 3 (/ 10 ^ 5)) P in
    Ok (fst r).
  Definition sparse_dict (a b : R) (n : nat) (lines : list (list Z)) : vdict R :=
    [("xvals", VArr (nd1 (spaced a b n))); ("mu", VArr (nd1 [a; b])); ("sig", VArr (nd1 [fst (widths a b n); snd (widths a b n)]));
     ("dims", VByt (nd1 [Z.of_nat n; Z.of_nat (n_widths n); 3; 32001; 20]%Z)); ("sparse_indices", VByt (nd2 20 (map (pad 20) lines)))].

  Lemma c128_extract : forall M e xs nvals, made X M e -> g_name (e_obj e) = "interp" -> vget (metadata e) "xvals" = Some (VArr (mknd [1; length xs]%nat xs)) ->
    exists f, densities e (e_npdf e) f /\
      ((forall r x, (r < e_npdf e)%nat -> In x xs -> f r x <= 0) -> extract_sparse_from_xy voigt sqrt chol dependent e (with_nvals nvals) = Err ValueError) /\
      forall top, highest xs (e_npdf e) f top ->
        ((points_asked nvals < 2)%nat -> extract_sparse_from_xy voigt sqrt chol dependent e (with_nvals nvals) = Err IndexError) /\
        ((2 <= points_asked nvals)%nat -> top = nth0 0 xs -> extract_sparse_from_xy voigt sqrt chol dependent e (with_nvals nvals) = Err ValueError) /\
        ((2 <= points_asked nvals)%nat -> nth0 0 xs < top -> extract_sparse_from_xy voigt sqrt chol dependent e (with_nvals nvals) =
          let* lines := pursued (nth0 0 xs) top (points_asked nvals) (at_grid f (spaced (nth0 0 xs) top (points_asked nvals)) (e_npdf e)) in
          Ok (sparse_dict (nth0 0 xs) top (points_asked nvals) lines)).
  Proof using HX.
    intros M e xs nvals He Hname Hb. destruct (made_rep X M e HX He) as (k & D & HD & _).
    pose proof (own_grid X k D e xs HD Hname Hb) as ->. pose proof HD as ((Hs & Hn) & Hne & HG & _ & (_ & _ & _ & Hsh & _)).
    destruct (rep_meta X _ D e HD) as (Hm & Ho & _). rewrite (rep_npdf' X _ D e HD).
    set (f := fun r => pdf_of X (KInterp xs) (nth r D [])). set (rows := map (num_at 0) D).
    assert (Lr : forall row, In row rows -> length row = length xs).
    { intros row Hr. unfold rows in Hr. apply in_map_iff in Hr. destruct Hr as (d & <- & Hd). rewrite Forall_forall in HG. destruct (HG d Hd) as [Hfit _]. apply (one_cell _ _ _ Hfit). }
    assert (Hf : forall r x, (r < length D)%nat -> f r x = interp1d xs (nth r rows []) 0 0 x).
    { intros r x Hr. unfold f, pdf_of. cbn [val interp_val]. rewrite Forall_forall in HG. destruct (HG _ (nth_In D [] Hr)) as [_ Hnorm]. rewrite Hnorm. unfold rows. rewrite (nth_map_in _ D r _ []) by exact Hr. reflexivity. }
    assert (Hg : forall r j, (r < length D)%nat -> (j < length xs)%nat -> f r (nth0 j xs) = nth0 j (nth r rows [])) by (intros r j Hr Hj; rewrite Hf by exact Hr; apply interp1d_knot; auto).
    exists f. split; [exact (rep_densities X _ _ e HD ltac:(discriminate))|].
    assert (E1 : vget (objdata e) "yvals" = Some (VArr (nd2 (length xs) rows))).
    { rewrite Ho. unfold rows, nd2. cbn [cols columns kind_layout columns_from col_value]. unfold vget. cbn [dget String.eqb Ascii.eqb Bool.eqb]. rewrite ?map_map. unfold rows_nd. rewrite ?map_length. reflexivity. }
    assert (ER : rows_of (nd2 (length xs) rows) = rows) by (apply rows_of_nd2; exact Lr).
    assert (EX : rows_of (mknd [1; length xs]%nat xs) = [xs]).
    { replace (mknd [1; length xs]%nat xs) with (nd2 (length xs) [xs]) by (unfold nd2; cbn [concat length]; rewrite app_nil_r; reflexivity). apply rows_of_nd2. intros r [<-|[]]. reflexivity. }
    set (N := points_asked nvals).
    assert (EN : keyword (with_nvals nvals) "nvals" (VNum (nofZ 300)) = VNum (INR N)).
    { unfold N. destruct nvals; [reflexivity|]. cbn [with_nvals points_asked]. unfold keyword. cbn [vget dget]. cbn [nofZ RNum]. rewrite INR_IZR_INZ. reflexivity. }
    assert (EF : nfloor (INR N) = Z.of_nat N).
    { cbn [nfloor RNum]. symmetry. apply Int_part_at. rewrite <- INR_IZR_INZ. lra. }
    assert (EI : neqb (nofZ (Z.of_nat N)) (INR N) = true).
    { cbn [nofZ RNum]. destruct (neqb_reflect (IZR (Z.of_nat N)) (INR N)) as [|C]; [reflexivity|]. exfalso. apply C. symmetry. apply INR_IZR_INZ. }
    assert (EK : keyword (with_nvals nvals) "yvals" (VArr (nd2 (length xs) rows)) = VArr (nd2 (length xs) rows) /\ keyword (with_nvals nvals) "xvals" (VArr (nd1 xs)) = VArr (nd1 xs)) by (destruct nvals; split; reflexivity).
    destruct EK as [EK1 EK2].
    assert (EE : extract_sparse_from_xy voigt sqrt chol dependent e (with_nvals nvals) =
      match map (fun j => nth0 j xs) (positive_columns rows) with
      | [] => Err ValueError
      | p0 :: ps =>
          let newx := np_linspace (nth0 0 xs) (nmaximum p0 ps) N in
          let* r := build_sparse_representation voigt sqrt chol dependent newx (map (fun row => map (interp1d xs row n0 n0) newx) rows) None None None None 3 20 (nfrac 1 10000000000) in
          let '(lines, (mu, sig, dims)) := r in
          Ok [("xvals", VArr (nd1 newx)); ("mu", VArr (nd1 [fst mu; snd mu])); ("sig", VArr (nd1 [fst sig; snd sig]));
              ("dims", VByt (nd1 dims)); ("sparse_indices", VByt (mknd [length lines; 20%nat] (concat lines)))]
      end).
    { unfold extract_sparse_from_xy. rewrite E1. cbn [bind]. rewrite Hb. rewrite EX. cbn [nth bind]. rewrite EK1, EK2, EN, EF, EI, ER.
      change (shp (nd1 xs)) with [length xs]. change (dat (nd1 xs)) with xs. rewrite (sorted_grid_inc xs Hs).
      unfold nd2 at 1 2. cbn [shp length last andb negb Nat.eqb].
      destruct xs as [|x0 t]; [cbn in Hn; lia|].
      assert (EJ : existsb (fun j => (length (x0 :: t) <=? j)%nat) (positive_columns rows) = false).
      { destruct (existsb _ _) eqn:EJ; [|reflexivity]. apply existsb_exists in EJ. destruct EJ as (j & Hj & C). apply Nat.leb_le in C. apply positive_columns_in in Hj. destruct Hj as (row & Hr & Hj & _). rewrite (Lr row Hr) in Hj. lia. }
      cbn [length] in EJ |- *. cbv beta iota zeta. rewrite EJ. destruct (map _ (positive_columns rows)) as [|p0 ps]; [reflexivity|].
      destruct (Z.ltb_spec (Z.of_nat N) 0) as [C|_]; [lia|]. rewrite Nat2Z.id. rewrite Nat.eqb_refl. cbn [negb].
      assert (Emin : nminimum x0 t = nth0 0 (x0 :: t)).
      { apply (least_eq (x0 :: t) x0); [left; reflexivity|]. intros v Hv. destruct (In_nth _ v 0 Hv) as (i & Hi & <-). destruct i; [cbn; lra|]. left. apply (inc_lt (x0 :: t) 0 (S i)); auto; lia. }
      rewrite Emin. reflexivity. }
    split.
    { intros Hnp. rewrite EE. destruct (positive_columns rows) as [|j js] eqn:EJ; [reflexivity|]. exfalso.
      assert (Hj : In j (positive_columns rows)) by (rewrite EJ; left; reflexivity). apply positive_columns_in in Hj. destruct Hj as (row & Hr & Hj & Hp).
      destruct (In_nth _ _ [] Hr) as (r & Hr1 & <-). assert (Hr2 : (r < length D)%nat) by (unfold rows in Hr1; rewrite map_length in Hr1; exact Hr1).
      rewrite (Lr _ Hr) in Hj. specialize (Hnp r (nth0 j xs) Hr2 (nth_In xs 0 Hj)). rewrite Hg in Hnp by auto. lra. }
    intros top (Ht1 & (r0 & Hr0 & Ht2) & Ht3).
    assert (EM : exists p0 ps, map (fun j => nth0 j xs) (positive_columns rows) = p0 :: ps /\ nmaximum p0 ps = top).
    { assert (Hin : In top (map (fun j => nth0 j xs) (positive_columns rows))).
      { destruct (In_nth _ _ 0 Ht1) as (j & Hj & Ej). apply in_map_iff. exists j. split; [exact Ej|]. apply positive_columns_in. exists (nth r0 rows []).
        assert (Hi : In (nth r0 rows []) rows) by (apply nth_In; unfold rows; rewrite map_length; exact Hr0). split; [exact Hi|]. rewrite (Lr _ Hi). split; [exact Hj|].
        rewrite <- Hg by auto. unfold nth0. change n0 with 0. rewrite Ej. exact Ht2. }
      assert (Hle : forall v, In v (map (fun j => nth0 j xs) (positive_columns rows)) -> v <= top).
      { intros v Hv. apply in_map_iff in Hv. destruct Hv as (j & <- & Hj). apply positive_columns_in in Hj. destruct Hj as (row & Hr & Hj & Hp).
        destruct (In_nth _ _ [] Hr) as (r & Hr1 & <-). assert (Hr2 : (r < length D)%nat) by (unfold rows in Hr1; rewrite map_length in Hr1; exact Hr1).
        rewrite (Lr _ Hr) in Hj. apply (Ht3 r); [exact Hr2|apply nth_In; exact Hj|]. rewrite Hg by auto. exact Hp. }
      pose proof (greatest_eq _ _ Hin Hle) as G. destruct (map _ (positive_columns rows)) as [|p0 ps]; [destruct Hin|]. exists p0, ps. split; [reflexivity|exact G]. }
    destruct EM as (p0 & ps & EM1 & EM2). rewrite EE, EM1. cbv zeta. rewrite EM2.
    split; [|split].
    - intros HN. destruct N as [|[|N']]; try lia; reflexivity.
    - intros HN ->. destruct N as [|[|N']]; try lia.
      assert (EL : np_linspace (nth0 0 xs) (nth0 0 xs) (S (S N')) = map (fun _ => nth0 0 xs) (seq 0 (S (S N')))).
      { unfold np_linspace. apply map_ext. intros i. numR. cbn [nofZ RNum]. unfold Rdiv. ring. }
      unfold build_sparse_representation. replace (basis_plan (np_linspace (nth0 0 xs) (nth0 0 xs) (S (S N'))) None None None None) with (Err (A := R * R * nat * (R * R) * nat) ValueError); [reflexivity|].
      rewrite EL. cbn [seq map basis_plan]. set (a := nth0 0 xs).
      assert (Hall : forall v, In v (a :: a :: map (fun _ => a) (seq 2 N')) -> v = a) by (intros v [<-|[<-|Hv]]; auto; apply in_map_iff in Hv; destruct Hv as (? & <- & _); reflexivity).
      assert (M1 : nminimum a (a :: map (fun _ => a) (seq 2 N')) = a) by apply Hall, nminimum_in.
      assert (M2 : nmaximum a (a :: map (fun _ => a) (seq 2 N')) = a) by apply Hall, nmaximum_in.
      rewrite M1, M2. assert (Z0 : neqb (nsub a a) n0 = true) by (destruct (neqb_reflect (nsub a a) n0) as [|C]; [reflexivity|]; exfalso; apply C; cbn; ring).
      rewrite Z0. reflexivity.
    - intros HN Hat. unfold build_sparse_representation. rewrite (plan_linspace _ _ _ Hat HN). cbn [bind]. rewrite (linspace_spaced _ _ _ HN).
      assert (ET : map (fun row => map (interp1d xs row n0 n0) (spaced (nth0 0 xs) top N)) rows = at_grid f (spaced (nth0 0 xs) top N) (length D)).
      { unfold at_grid, rows. rewrite map_map. rewrite (map_rows (fun d => map (interp1d xs (num_at 0 d) n0 n0) (spaced (nth0 0 xs) top N)) D). apply map_ext_in. intros r Hr. apply in_seq in Hr. apply map_ext. intros x.
        rewrite Hf by lia. unfold rows. rewrite (nth_map_in _ D r _ []) by lia. reflexivity. }
      rewrite ET. unfold pursued. assert (C1 : nfrac (T := R) 1 10000000000 = / 10 ^ 10) by (unfold nfrac; cbn [ndiv nofZ RNum]; lra).
      assert (C2 : nfrac (T := R) 1 100000 = / 10 ^ 5) by (unfold nfrac; cbn [ndiv nofZ RNum]; lra). rewrite C1, C2.
      destruct (build_all _ _ _ _ _ _ _) as [r|]; [|reflexivity]. cbn [bind]. unfold sparse_dict, nd2. rewrite map_length. reflexivity.
  Qed.

  (** ** The ensemble that is created *)
  (** what is written for one PDF: at most twenty pairs, with basis numbers below the number of basis functions *)
  Lemma loop_count query tol k n s : (fst (pursuit_loop sqrt chol dependent query tol k n s) <= n + k)%nat.
  Proof using.
    revert n s. induction k as [|k IH]; intros n s; cbn [pursuit_loop]; [cbn; lia|].
    destruct (_ || _)%bool; [cbn; lia|]. destruct (_ && _)%bool; [cbn; lia|]. cbv zeta. destruct (match tol with Some t => _ | None => _ end); [cbn; lia|]. eapply Nat.le_trans; [apply IH|]. lia.
  Qed.
  Lemma basis_count D pdf nb tol dind dval D1 : sparse_basis sqrt chol dependent D pdf nb tol = Ok (dind, dval, D1) -> (length dind <= nb)%nat.
  Proof using.
    unfold sparse_basis. destruct (nb =? 0)%nat; [discriminate|]. destruct (length D =? 0)%nat; [discriminate|].
    match goal with |- context [pursuit_loop ?a ?b ?c ?d ?e ?f ?g ?h] => pose proof (loop_count d e f g h) as H; destruct (pursuit_loop a b c d e f g h) as [m s] end. cbn [fst] in H.
    destruct (p_gamma s) as [g|]; [|discriminate]. destruct (negb _); [discriminate|]. intros E. injection E as <- _ _. rewrite firstn_length. lia.
  Qed.
  Definition pairs (nb : nat) (l : list Z) (c : list (Z * nat)) : Prop :=
    l = map (fun zb => combine_int (fst zb) (Z.of_nat (snd zb))) c /\ forall z b, In (z, b) c -> (b < nb)%nat.
  Lemma encode_pairs nb dind (dval : list R) : (forall d, In d dind -> (d < nb)%nat) -> exists c, pairs nb (encode dind dval) c /\ (length c <= length dind)%nat.
  Proof using.
    intros H. unfold encode. set (ix := if nltb _ _ then _ else _). clearbody ix.
    exists (combine ix dind). split; [split|].
    - revert ix. induction dind as [|d l IH]; intros [|i ix]; try reflexivity. cbn [map2 combine map fst snd]. f_equal. apply IH. intros x Hx. apply H. right. exact Hx.
    - intros z b Hzb. apply in_combine_r in Hzb. apply H, Hzb.
    - rewrite combine_length. lia.
  Qed.
  Lemma pad_pairs nb l c : (0 < nb)%nat -> pairs nb l c -> (length c <= 20)%nat -> exists c', pairs nb (pad 20 l) c' /\ length c' = 20%nat.
  Proof using.
    intros Hnb [-> Hc] Hl. exists (c ++ repeat (0%Z, 0%nat) (20 - length c)). split; [split|].
    - unfold pad. rewrite map_length, map_app. f_equal. generalize (20 - length c)%nat. induction n as [|n IH]; cbn [repeat map]; [reflexivity|]. f_equal. exact IH.
    - intros z b H. apply in_app_or in H. destruct H as [H|H]; [exact (Hc z b H)|]. apply repeat_spec in H. injection H as -> ->. exact Hnb.
    - rewrite app_length, repeat_length. lia.
  Qed.
  Lemma all_pairs nb tol P : forall D lines D', length D = nb -> build_all sqrt chol dependent 20 tol D P = Ok (lines, D') ->
    length lines = length P /\ forall l, In l lines -> exists c, pairs nb l c /\ (length c <= 20)%nat.
  Proof using.
    induction P as [|pdf P IH]; intros D lines D' HD E; cbn [build_all] in E; [injection E as <- <-; split; [reflexivity|intros l []]|].
    destruct (build_one sqrt chol dependent 20 tol D pdf) as [[line D1]|] eqn:E1; [|discriminate]. cbn [bind fst snd] in E.
    destruct (build_all sqrt chol dependent 20 tol D1 P) as [[ls D2]|] eqn:E2; [|discriminate]. cbn [bind fst snd] in E. injection E as <- <-.
    destruct (c75_dictionary sqrt chol dependent 20 tol D pdf line D1 E1) as (dind & dval & D3 & Eb & L & _ & Hd & _).
    destruct (IH D1 ls D2 (eq_trans L HD) E2) as [H1 H2]. split; [cbn [length]; congruence|]. intros l [<-|Hl]; [|apply H2; exact Hl].
    unfold build_one in E1. rewrite Eb in E1. cbn [bind] in E1. destruct (length dind <? 1)%nat.
    - injection E1 as <- _. exists []. split; [split; [reflexivity|intros z b []]|cbn; lia].
    - injection E1 as <- _. destruct (encode_pairs nb dind dval) as (c & Hc & Lc); [intros d H; rewrite <- HD; apply Hd, H|]. exists c. split; [exact Hc|].
      pose proof (basis_count _ _ _ _ _ _ _ Eb). lia.
  Qed.
  Lemma mapM_len {A B} (f : A -> res B) : forall l r, mapM f l = Ok r -> length r = length l.
  Proof using.
    induction l as [|x l IH]; intros r E; cbn [mapM] in E; [injection E as <-; reflexivity|]. destruct (f x) as [y|]; [|discriminate E]. cbn [bind] in E.
    destruct (mapM f l) as [r'|]; [|discriminate E]. cbn [bind] in E. injection E as <-. cbn. f_equal. apply IH. reflexivity.
  Qed.
  Lemma decode_pairs nb l c : (Z.of_nat nb <= 65536)%Z -> pairs nb l c -> decode_sparse (T := R) l = (map snd c, decode_weights 32001 (map fst c)).
  Proof using.
    intros Hnb [-> Hc]. unfold decode_sparse.
    assert (EG : map get_N (map (fun zb : Z * nat => combine_int (fst zb) (Z.of_nat (snd zb))) c) = map (fun zb => (fst zb, Z.of_nat (snd zb))) c).
    { rewrite map_map. apply map_ext_in. intros (z, b) Hzb. cbn [fst snd]. apply c18_partial. specialize (Hc z b Hzb). lia. }
    rewrite EG, !map_map. cbn [fst snd]. f_equal. apply map_ext. intros (z, b). apply Nat2Z.id.
  Qed.

  (** the sum of basis functions coded by the integers of one line, at the grid points *)
  Definition line_sum (a b : R) (n : nat) (line : list Z) : nat -> R :=
    coded voigt sqrt (spaced a b n) (a, b) (widths a b n) n (n_widths n) 3 (/ 10 ^ 5) (fst (decode_sparse line)) (snd (decode_sparse line)).
  Definition density_of_sum (a b : R) (n : nat) (y : nat -> R) (g : R -> R) : Prop :=
    (forall x, 0 <= g x) /\ is_RInt g a b 1 /\ (forall x, x < a \/ b < x -> g x = 0) /\
    (exists k, 0 < k /\ forall j, (j < n)%nat -> g (nth0 j (spaced a b n)) = k * y j) /\
    forall j x, (S j < n)%nat -> nth0 j (spaced a b n) <= x <= nth0 (S j) (spaced a b n) ->
      g x * (nth0 (S j) (spaced a b n) - nth0 j (spaced a b n)) =
      g (nth0 j (spaced a b n)) * (nth0 (S j) (spaced a b n) - x) + g (nth0 (S j) (spaced a b n)) * (x - nth0 j (spaced a b n)).
  (** every basis function of the dictionary reaches the cut at some point of the grid *)
  Definition all_shown (a b : R) (n : nat) : Prop :=
    forall p, In p (basis_params (a, b) (widths a b n) n (n_widths n) 3) -> shown voigt (spaced a b n) (/ 10 ^ 5) p.
  Lemma create_result a b n P lines : all_shown a b n -> a < b -> (4 <= n <= 363)%nat -> P <> [] -> pursued a b n P = Ok lines ->
    length lines = length P /\
    ((forall r, (r < length P)%nat -> (forall j, (j < n)%nat -> 0 <= line_sum a b n (pad 20 (nth r lines [])) j) /\ exists j, (j < n)%nat /\ 0 < line_sum a b n (pad 20 (nth r lines [])) j) ->
     exists e' g, ens_new (sparse_create voigt sqrt) (sparse_dict a b n lines) None = Ok e' /\ e_npdf e' = length P /\ g_name (e_obj e') = "sparse" /\
       evaluates (ens_pdf e') (length P) g /\
       forall r, (r < length P)%nat -> density_of_sum a b n (line_sum a b n (pad 20 (nth r lines []))) (g r)).
  Proof using.
    intros HV Hab Hn HP E. unfold pursued in E. set (nb := (n * (n_widths n * 3))%nat).
    assert (Hw : (1 <= n_widths n)%nat) by (unfold n_widths; apply Nat.div_le_lower_bound; lia).
    assert (Hnb : (0 < nb)%nat) by (unfold nb; nia).
    assert (Hnb' : (Z.of_nat nb <= 65536)%Z) by (replace nb with (3 * n * n_widths n)%nat by (unfold nb; lia); apply c128_bases; lia).
    match type of E with (let* r := build_all _ _ _ _ _ ?D0 _ in _) = _ => set (D := D0) in E end.
    assert (LD : length D = nb) by (unfold D, create_voigt_basis; rewrite map_length; apply params_length).
    destruct (build_all sqrt chol dependent 20 (/ 10 ^ 10) D P) as [[ls D']|] eqn:EB; [|discriminate]. cbn [bind fst] in E. injection E as ->.
    destruct (all_pairs nb _ P D lines D' LD EB) as [HL Hp]. split; [exact HL|]. intros Hy.
    assert (HC : exists codes, length codes = length lines /\ forall r, (r < length lines)%nat -> pairs nb (pad 20 (nth r lines [])) (nth r codes []) /\ length (nth r codes []) = 20%nat).
    { clear - Hp Hnb. induction lines as [|l ls IH]; [exists []; split; [reflexivity|]; intros r Hr; cbn in Hr; lia|].
      destruct IH as (cs & L & H). { intros x Hx. apply Hp. right. exact Hx. }
      destruct (Hp l (or_introl eq_refl)) as (c & Hc & Lc). destruct (pad_pairs nb l c Hnb Hc Lc) as (c' & Hc' & Lc').
      exists (c' :: cs). split; [cbn; congruence|]. intros [|r] Hr; [split; assumption|]. apply H. cbn in Hr. lia. }
    destruct HC as (codes & LC & HC).
    assert (EL : map (pad 20) lines = map (map (fun zb => combine_int (fst zb) (Z.of_nat (snd zb)))) codes).
    { apply (nth_ext _ _ [] []); [rewrite !map_length; congruence|]. rewrite map_length. intros r Hr. rewrite (nth_map_in _ lines r _ []) by exact Hr. rewrite (nth_map_in _ codes r _ []) by lia. apply HC, Hr. }
    assert (LS : length (spaced a b n) = n) by (unfold spaced; rewrite map_length, seq_length; reflexivity).
    pose proof (linspace_spaced a b n ltac:(lia)) as ES.
    assert (Hs : increasing (spaced a b n)) by (rewrite <- ES; destruct n as [|[|n']]; try lia; apply linspace_inc; exact Hab).
    assert (H0 : nth0 0 (spaced a b n) = a) by (rewrite <- ES; destruct n as [|[|n']]; try lia; apply linspace_first).
    assert (H1 : nlast (spaced a b n) = b) by (rewrite <- ES; destruct n as [|[|n']]; try lia; apply linspace_last).
    assert (EY : forall r, (r < length lines)%nat -> line_sum a b n (pad 20 (nth r lines [])) =
      coded voigt sqrt (spaced a b n) (a, b) (widths a b n) n (n_widths n) 3 (/ 10 ^ 5) (map snd (nth r codes [])) (decode_weights 32001 (map fst (nth r codes [])))).
    { intros r Hr. unfold line_sum. rewrite (decode_pairs nb _ (nth r codes []) Hnb' (proj1 (HC r Hr))). reflexivity. }
    destruct (c76_sparse voigt sqrt (spaced a b n) (a, b) (widths a b n) n (n_widths n) 3 (/ 10 ^ 5) codes) as (i & Ei & g & Eg & Hg); auto.
    { rewrite LS. lia. }
    { intros ->. cbn in LC. destruct P; [congruence|]. cbn in HL. lia. }
    { intros c Hc. destruct (In_nth _ _ [] Hc) as (r & Hr & <-). rewrite LC in Hr. destruct (HC r Hr) as [[_ Hb] Lc]. split; [intros E; rewrite E in Lc; discriminate|].
      intros z v Hzv. specialize (Hb z v Hzv). unfold nb in *. split; [exact Hb|]. lia. }
    { intros c z v Hc Hzv. apply HV, nth_In. rewrite params_length. destruct (In_nth _ _ [] Hc) as (r & Hr & <-). rewrite LC in Hr. destruct (HC r Hr) as [[_ Hb] _]. exact (Hb z v Hzv). }
    { rewrite LC, HL, LS. intros r Hr. rewrite <- EY by lia. apply Hy, Hr. }
    assert (Erow : rows_of (nd2 20 (map (pad 20) lines)) = map (pad 20) lines).
    { apply rows_of_nd2. intros l Hl. rewrite EL in Hl. apply in_map_iff in Hl. destruct Hl as (c & <- & Hc). rewrite map_length. destruct (In_nth _ _ [] Hc) as (r & Hr & <-). apply HC. lia. }
    assert (EC : sparse_create voigt sqrt (sparse_dict a b n lines) = Ok (sparse_obj i (spaced a b n) (VArr (nd1 [a; b])) (VArr (nd1 [fst (widths a b n); snd (widths a b n)]))
      (VByt (nd1 [Z.of_nat n; Z.of_nat (n_widths n); 3; 32001; 20]%Z)) (VByt (nd2 20 (map (pad 20) lines))))).
    { unfold sparse_create, sparse_dict.
      cbn [arg vget dget String.eqb Ascii.eqb Bool.eqb bind known forallb keys map fst existsb orb andb negb opt_arg as_scalar as_grid as_pair as_bytes nd1 shp dat length Nat.eqb].
      destruct (Z.ltb_spec (Z.of_nat n) 0) as [C|_]; [lia|]. destruct (Z.ltb_spec (Z.of_nat (n_widths n)) 0) as [C|_]; [lia|]. cbn [orb Z.ltb Z.compare].
      assert (SH : exists m, shp (nd2 20 (map (pad 20) lines)) = [S m; 20%nat]) by (cbn [nd2 shp]; rewrite map_length, HL; destruct P as [|p0 P0]; [congruence|exists (length P0); reflexivity]).
      destruct SH as (m & SH). rewrite SH.
      rewrite !Nat2Z.id. rewrite Erow, EL. assert (C2 : nfrac (T := R) 1 100000 = / 10 ^ 5) by (unfold nfrac; cbn [ndiv nofZ RNum]; lra). rewrite C2.
      change (Z.to_nat 3) with 3%nat. destruct (widths a b n) as [w1 w2]. cbn [fst snd]. rewrite Ei. reflexivity. }
    exists (mkens (sparse_create voigt sqrt) (sparse_obj i (spaced a b n) (VArr (nd1 [a; b])) (VArr (nd1 [fst (widths a b n); snd (widths a b n)]))
      (VByt (nd1 [Z.of_nat n; Z.of_nat (n_widths n); 3; 32001; 20]%Z)) (VByt (nd2 20 (map (pad 20) lines)))) None None), g.
    split; [unfold ens_new; rewrite EC; reflexivity|]. rewrite LC, HL in *.
    split.
    { unfold e_npdf, g_npdf. cbn [e_obj g_shape sparse_obj]. unfold sparse_ctor in Ei.
      match type of Ei with (let* ys := ?m in _) = _ => destruct m as [ys|] eqn:EM; [|discriminate] end. cbn [bind] in Ei.
      pose proof (mapM_len _ _ _ EM) as LM. rewrite map_length in LM.
      destruct (interp_ctor_count _ _ _ _ Ei) as [_ ->]. cbn [nd2 shp removelast].
      unfold prod. cbn. rewrite map_length. lia. }
    split; [reflexivity|]. split; [exact Eg|]. intros r Hr. specialize (Hg r Hr). rewrite H0, H1, LS in Hg. rewrite EY by lia. exact Hg.
  Qed.
End Extract.

(** ** The conversion as a whole *)
Section Whole.
  Variable X : scipy.
  Hypothesis HX : fill_outside X.
  Variables (voigt : R -> R -> R -> R) (sqrt : R -> R) (chol : list (list R) -> list R -> list R) (dependent : list (list R) -> list R -> bool).

  Lemma same_highest xs n f h top : (forall r x, (r < n)%nat -> f r x = h r x) -> highest xs n f top -> highest xs n h top.
  Proof using.
    intros E (H1 & (r & Hr & H2) & H3). split; [exact H1|]. split; [exists r; split; [exact Hr|]; rewrite <- E by exact Hr; exact H2|].
    intros r' x Hr' Hx Hp. apply (H3 r'); auto. rewrite E by exact Hr'. exact Hp.
  Qed.
  Lemma same_at_grid (f h : nat -> R -> R) xs n : (forall r x, (r < n)%nat -> f r x = h r x) -> at_grid f xs n = at_grid h xs n.
  Proof using. intros E. unfold at_grid. apply map_ext_in. intros r Hr. apply in_seq in Hr. apply map_ext. intros x. apply E. lia. Qed.
  (** fewer than four points: no width, an empty dictionary *)
  Lemma pursued_few a b n P : (n < 4)%nat -> P <> [] -> pursued voigt sqrt chol dependent a b n P = Err ValueError.
  Proof using.
    intros Hn HP. assert (E : create_voigt_basis voigt sqrt (spaced a b n) (a, b) n (widths a b n) (n_widths n) 3 (/ 10 ^ 5) = []).
    { apply length_zero_iff_nil. unfold create_voigt_basis. rewrite map_length, params_length. replace (n_widths n) with 0%nat; [lia|]. destruct n as [|[|[|[|n]]]]; try lia; reflexivity. }
    unfold pursued. rewrite E. destruct P as [|p P]; [congruence|]. reflexivity.
  Qed.

  Lemma c128_fails : forall M e xs nvals f, made X M e -> g_name (e_obj e) = "interp" -> vget (metadata e) "xvals" = Some (VArr (mknd [1; length xs]%nat xs)) ->
    evaluates (ens_pdf e) (e_npdf e) f ->
    ((forall r x, (r < e_npdf e)%nat -> In x xs -> f r x <= 0) -> sparse_convert voigt sqrt chol dependent e (with_nvals nvals) = Err ValueError) /\
    (forall top, highest xs (e_npdf e) f top ->
      ((points_asked nvals < 2)%nat -> sparse_convert voigt sqrt chol dependent e (with_nvals nvals) = Err IndexError) /\
      ((2 <= points_asked nvals)%nat -> top = nth0 0 xs \/ (points_asked nvals < 4)%nat -> sparse_convert voigt sqrt chol dependent e (with_nvals nvals) = Err ValueError)).
  Proof using HX.
    intros M e xs nvals f He Hn Hb Hf. destruct (c128_extract X HX voigt sqrt chol dependent M e xs nvals He Hn Hb) as (h & (Hp & _ & Hh & _) & H1 & H2).
    pose proof (evaluates_unique _ _ _ _ Hf Hh) as E. unfold sparse_convert. split.
    - intros Hnp. rewrite H1; [reflexivity|]. intros r x Hr Hx. rewrite <- E by exact Hr. apply Hnp; auto.
    - intros top Ht. destruct (H2 top (same_highest _ _ _ _ _ E Ht)) as (A & B & C). split; [intros N; rewrite A by exact N; reflexivity|].
      intros N Hor. assert (Hle : nth0 0 xs <= top).
      { destruct (made_rep X M e HX He) as (k & D & HD & _). pose proof (own_grid X k D e xs HD Hn Hb) as ->. pose proof HD as ((Hs & _) & _).
        destruct Ht as (Hin & _). destruct (In_nth _ _ 0 Hin) as (i & Hi & <-). destruct i; [apply Rle_refl|]. left. apply (inc_lt xs 0 (S i) Hs). lia. }
      destruct (Req_dec top (nth0 0 xs)) as [Et|Et]; [rewrite B by auto; reflexivity|]. destruct Hor as [Et'|Hor]; [contradiction|].
      rewrite C by (auto; lra). rewrite pursued_few; [reflexivity|exact Hor|]. unfold at_grid. destruct (e_npdf e); [lia|discriminate].
  Qed.

  Lemma c128_convert : forall M e xs nvals f top, made X M e -> g_name (e_obj e) = "interp" -> vget (metadata e) "xvals" = Some (VArr (mknd [1; length xs]%nat xs)) ->
    evaluates (ens_pdf e) (e_npdf e) f -> highest xs (e_npdf e) f top -> nth0 0 xs < top -> (4 <= points_asked nvals <= 363)%nat ->
    all_shown voigt (nth0 0 xs) top (points_asked nvals) ->
    let a := nth0 0 xs in let n := points_asked nvals in
    match pursued voigt sqrt chol dependent a top n (at_grid f (spaced a top n) (e_npdf e)) with
    | Err x => sparse_convert voigt sqrt chol dependent e (with_nvals nvals) = Err x
    | Ok lines =>
        length lines = e_npdf e /\
        ((forall r, (r < e_npdf e)%nat -> (forall j, (j < n)%nat -> 0 <= line_sum voigt sqrt a top n (pad 20 (nth r lines [])) j) /\
                                         exists j, (j < n)%nat /\ 0 < line_sum voigt sqrt a top n (pad 20 (nth r lines [])) j) ->
         exists e' g, sparse_convert voigt sqrt chol dependent e (with_nvals nvals) = Ok e' /\ e_npdf e' = e_npdf e /\ g_name (e_obj e') = "sparse" /\
           evaluates (ens_pdf e') (e_npdf e') g /\
           forall r, (r < e_npdf e)%nat -> density_of_sum a top n (line_sum voigt sqrt a top n (pad 20 (nth r lines []))) (g r))
    end.
  Proof using HX.
    intros M e xs nvals f top He Hn Hb Hf Ht Hlt HN HV a n.
    destruct (c128_extract X HX voigt sqrt chol dependent M e xs nvals He Hn Hb) as (h & (Hp & _ & Hh & _) & _ & H2).
    pose proof (evaluates_unique _ _ _ _ Hf Hh) as E. destruct (H2 top (same_highest _ _ _ _ _ E Ht)) as (_ & _ & C). fold a n in C. specialize (C ltac:(fold n in HN; lia) Hlt).
    rewrite <- (same_at_grid f h _ _ E) in C. unfold sparse_convert. rewrite C.
    destruct (pursued _ _ _ _ _ _ _ _) as [lines|x] eqn:EP; [|reflexivity]. cbn [bind].
    assert (HP0 : at_grid f (spaced a top n) (e_npdf e) <> []) by (unfold at_grid; destruct (e_npdf e); [lia|discriminate]).
    destruct (create_result voigt sqrt chol dependent a top n _ lines HV Hlt HN HP0 EP) as [HL HR].
    assert (LP : length (at_grid f (spaced a top n) (e_npdf e)) = e_npdf e) by (unfold at_grid; rewrite map_length, seq_length; reflexivity). rewrite LP in *.
    split; [exact HL|]. intros Hy. destruct (HR Hy) as (e' & g & R1 & R2 & R3 & R4 & R5). exists e', g. rewrite R2. auto.
  Qed.

  (** beyond the last point with a positive value some density is positive, and the result is 0 *)
  Lemma c128_tail : forall M e xs f top, made X M e -> g_name (e_obj e) = "interp" -> vget (metadata e) "xvals" = Some (VArr (mknd [1; length xs]%nat xs)) ->
    evaluates (ens_pdf e) (e_npdf e) f -> highest xs (e_npdf e) f top -> top < nlast xs ->
    exists r d, (r < e_npdf e)%nat /\ 0 < d /\ forall x, top <= x < top + d -> 0 < f r x.
  Proof using HX.
    intros M e xs f top He Hname Hb Hf (Ht1 & (r & Hr & Hp) & Ht3) Hlt. destruct (made_rep X M e HX He) as (k & D & HD & _).
    pose proof (own_grid X k D e xs HD Hname Hb) as ->. pose proof HD as ((Hs & Hn) & Hne & HG & _ & (_ & _ & _ & Hsh & _)).
    pose proof (rep_npdf' X _ D e HD) as HN. rewrite HN in *. destruct (rep_densities X _ _ e HD ltac:(discriminate)) as (_ & _ & Hh & _).
    assert (E : forall x, f r x = interp1d xs (num_at 0 (nth r D [])) 0 0 x).
    { intros x. rewrite (evaluates_unique _ _ _ _ Hf Hh r x Hr). unfold pdf_of. cbn [val interp_val]. rewrite Forall_forall in HG. destruct (HG _ (nth_In D [] Hr)) as [_ Hnorm]. rewrite Hnorm. reflexivity. }
    destruct (In_nth _ _ 0 Ht1) as (i & Hi & Ei). change (nth i xs 0) with (nth0 i xs) in Ei.
    assert (Hi' : (S i < length xs)%nat).
    { destruct (Nat.eq_dec (S i) (length xs)) as [C|C]; [|lia]. exfalso. rewrite <- Ei, nlast_nth0, <- C in Hlt. cbn [pred] in Hlt. lra. }
    set (ya := nth0 i (num_at 0 (nth r D []))). set (yb := nth0 (S i) (num_at 0 (nth r D []))).
    assert (Ya : 0 < ya) by (unfold ya; rewrite <- (interp1d_knot xs _ 0 0 i Hs Hi), Ei, <- E; exact Hp).
    pose proof (inc_lt xs i (S i) Hs ltac:(lia)) as Hd.
    assert (Yb : yb <= 0).
    { destruct (Rle_lt_dec yb 0) as [|C]; [assumption|]. exfalso. assert (H : 0 < f r (nth0 (S i) xs)) by (rewrite E, interp1d_knot by auto; exact C).
      specialize (Ht3 r (nth0 (S i) xs) Hr (nth_In xs 0 Hi') H). rewrite Ei in Hd. lra. }
    exists r, ((nth0 (S i) xs - top) * (ya / (ya - yb))). split; [exact Hr|].
    assert (Hq : 0 < ya / (ya - yb) <= 1) by (split; [apply Rdiv_lt_0_compat; lra|apply (Rmult_le_reg_r (ya - yb)); [lra|]; unfold Rdiv; rewrite Rmult_assoc, Rinv_l by lra; lra]).
    rewrite Ei in Hd. split; [apply Rmult_lt_0_compat; lra|]. intros x Hx. rewrite E.
    rewrite (interp1d_seg xs _ 0 0 x i); [|apply inc_nd; exact Hs|exact Hi'|rewrite Ei; nra]. rewrite Ei. fold ya yb. unfold seg.
    set (w := nth0 (S i) xs - top) in *. assert (Hw : 0 < w) by (unfold w; lra).
    assert (H1 : x - top < w * (ya / (ya - yb))) by lra.
    apply (Rmult_lt_reg_r w); [exact Hw|]. rewrite Rmult_0_l. replace (((yb - ya) / w * (x - top) + ya) * w) with ((yb - ya) * (x - top) + ya * w) by (field; lra).
    assert (H2 : (x - top) * (ya - yb) < w * ya).
    { replace (w * ya) with (w * (ya / (ya - yb)) * (ya - yb)) by (field; lra). apply Rmult_lt_compat_r; lra. }
    lra.
  Qed.
End Whole.

(** given widths without their number: [max_sig] is not assigned *)
Lemma c128_unbound : forall voigt sqrt chol dependent (x0 x1 : R) t P mu nmu sig nv nsparse tol,
  build_sparse_representation voigt sqrt chol dependent (x0 :: x1 :: t) P mu nmu (Some sig) None nv nsparse tol = Err UnboundLocalError.
Proof. reflexivity. Qed.
