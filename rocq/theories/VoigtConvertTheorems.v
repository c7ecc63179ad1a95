(** The extraction functions for Voigt and sparse parameters (C150). *)
From Coq Require Import String List Arith ZArith Bool Lia Reals Lra.
From Coquelicot Require Import Coquelicot.
From Verif Require Import FreezeProofs Num NumProofs Py NdArray NumpyLib Utils ScipyWrap Spec Values Ensemble Classes InterpPdf Convert SampleConvert
  SortProofs BinProofs EvalProofs NdProofs InterpProofs InterpPdfProofs IntegralProofs HistProofs MixmodTheorems Kinds KindProofs EnsembleProofs KindInputs
  ReachProofs EnsembleTheorems RowProofs IntegrateTheorems RbpeMath Packing PackingTheorems Registry ConvertTheorems SplineXyTheorems Sparse SparseTheorems SparseShapes SparseShapesTheorems
  SparseConvert HistTheorems SparseConvertTheorems SparseConvertExamples VoigtConvert.
Import ListNotations.
Local Open Scope string_scope.
Local Open Scope list_scope.
Local Open Scope R_scope.

(** ** Voigt parameters of a mixture *)
Definition zeros (v : value R) : value R := match v with VArr a => VArr (mknd (shp a) (repeat 0 (length (dat a)))) | other => other end.
Lemma c150_mixture : forall X M e, fill_outside X -> made X M e -> g_name (e_obj e) = "mixmod" ->
  exists m s w, vget (objdata e) "means" = Some (VArr m) /\ vget (objdata e) "stds" = Some (VArr s) /\ vget (objdata e) "weights" = Some (VArr w) /\
    extract_voigt_mixmod e [] = Ok [("means", VArr m); ("stds", VArr s); ("weights", VArr w); ("gammas", zeros (VArr m))].
Proof.
  intros X M e HX He Hname. destruct (made_rep X M e HX He) as (k & D & HD & _). destruct (rep_meta X k D e HD) as (_ & Ho & Hk). rewrite Hk in Hname.
  assert (E : exists m s w, vget (objdata e) "means" = Some (VArr m) /\ vget (objdata e) "stds" = Some (VArr s) /\ vget (objdata e) "weights" = Some (VArr w)).
  { rewrite Ho. destruct k; cbn [kind_name] in Hname; try discriminate Hname. do 3 eexists. repeat split; reflexivity. }
  destruct E as (m & s & w & E1 & E2 & E3). exists m, s, w. split; [exact E1|]. split; [exact E2|]. split; [exact E3|].
  unfold extract_voigt_mixmod, item. rewrite E1, E2, E3. cbn [bind]. unfold dict_with. cbn [keys map existsb app zeros_like zeros]. do 6 f_equal.
  assert (R : forall l : list R, map (fun _ => n0) l = repeat 0 (length l)) by (induction l as [|? ? IH]; [reflexivity|]; cbn; f_equal; exact IH). rewrite R. reflexivity.
Qed.
Lemma c150_not_mixture : forall X M e kw, fill_outside X -> made X M e -> g_name (e_obj e) <> "mixmod" -> extract_voigt_mixmod e kw = Err KeyError.
Proof.
  intros X M e kw HX He Hname. destruct (made_rep X M e HX He) as (k & D & HD & _). destruct (rep_meta X k D e HD) as (_ & Ho & Hk). rewrite Hk in Hname.
  assert (E : vget (objdata e) "means" = None) by (rewrite Ho; destruct k; cbn [kind_name] in Hname; try congruence; reflexivity).
  unfold extract_voigt_mixmod, item. rewrite E. reflexivity.
Qed.

Section Sparse.
  Variables (voigt : R -> R -> R -> R) (sqrt : R -> R) (chol : list (list R) -> list R -> list R) (dependent : list (list R) -> list R -> bool).
  Notation xy_sparse := (extract_xy_sparse voigt sqrt chol dependent).

  (** ** [extract_xy_sparse] *)
  Lemma built_without_z x P lines meta A : build_all_of voigt sqrt chol dependent x P = Ok (lines, meta, A) -> item meta "z" = Err KeyError.
  Proof using.
    unfold build_all_of. destruct (basis_plan x None None None None) as [[[[mu nmu] sig] nsig]|]; [|discriminate]. cbn [bind].
    destruct (build_all _ _ _ _ _ _ _) as [r|]; [|discriminate]. cbn [bind]. intros E. injection E as _ <- _. reflexivity.
  Qed.
  Lemma c150_never : forall e kw, exists x, xy_sparse e kw = Err x.
  Proof using.
    intros e kw. unfold extract_xy_sparse. destruct (item (objdata e) "yvals") as [y|x]; [|exists x; reflexivity]. cbn [bind].
    destruct (own_points e) as [dx|x]; [|exists x; reflexivity]. cbn [bind].
    destruct (rebin _ _ _) as [[nx P]|x]; [|exists x; reflexivity]. cbn [bind fst snd].
    destruct (build_all_of _ _ _ _ nx P) as [[[lines meta] A]|x] eqn:EB; [|exists x; reflexivity]. cbn [bind].
    destruct (length lines =? 0)%nat; [exists IndexError; reflexivity|].
    destruct (mapM _ lines) as [ys|x]; [|exists x; reflexivity]. cbn [bind]. rewrite (built_without_z _ _ _ _ _ EB). exists KeyError. reflexivity.
  Qed.
  Lemma same_rebin e kw : vget kw "yvals" = None ->
    extract_sparse_from_xy voigt sqrt chol dependent e kw =
    let* y := item (objdata e) "yvals" in let* dx := own_points e in
    let* r := rebin y (keyword kw "xvals" dx) (keyword kw "nvals" (VNum (nofZ 300))) in
    let* s := build_all_of voigt sqrt chol dependent (fst r) (snd r) in
    Ok [("xvals", VArr (nd1 (fst r))); ("mu", match vget (snd (fst s)) "mu" with Some v => v | None => VNone end);
        ("sig", match vget (snd (fst s)) "sig" with Some v => v | None => VNone end); ("dims", match vget (snd (fst s)) "dims" with Some v => v | None => VNone end);
        ("sparse_indices", VByt (mknd [length (fst (fst s)); 20%nat] (concat (fst (fst s)))))].
  Proof using.
    intros Hy. unfold extract_sparse_from_xy, item, own_points, keyword. rewrite Hy. destruct (vget (objdata e) "yvals") as [y|]; [|reflexivity]. cbn [bind].
    match goal with |- context [match vget (metadata e) "xvals" with _ => _ end] => destruct (match vget (metadata e) "xvals" with Some (VArr a) => Ok (VArr (nd1 (nth 0 (rows_of a) []))) | Some _ => Err NotModelled | None => Err KeyError end) as [dx|x] end; [|reflexivity].
    cbn [bind]. unfold rebin. destruct y as [y| | | | |]; try reflexivity.
    destruct (match vget kw "xvals" with Some v => v | None => dx end) as [xa| | | | |]; try reflexivity.
    destruct (match vget kw "nvals" with Some v => v | None => VNum (nofZ 300) end) as [| | |nt| |]; try reflexivity.
    destruct (negb _); [reflexivity|]. destruct (dat xa) as [|x0 t]; [reflexivity|]. cbv zeta. destruct (existsb _ _); [reflexivity|].
    destruct (map _ (positive_columns _)) as [|p0 ps]; [reflexivity|]. destruct (nfloor nt <? 0)%Z; [reflexivity|]. destruct (negb _); [reflexivity|].
    cbn [bind fst snd]. unfold build_sparse_representation, build_all_of. destruct (basis_plan _ None None None None) as [[[[mu nmu] sig] nsig]|]; [|reflexivity]. cbn [bind].
    destruct (build_all _ _ _ _ _ _ _) as [r|]; [|reflexivity]. cbn [bind fst snd]. reflexivity.
  Qed.
  Lemma built_lines x P lines meta A : build_all_of voigt sqrt chol dependent x P = Ok (lines, meta, A) -> P <> [] ->
    length lines = length P /\ forall l, In l lines -> existsb (fun i => (length A <=? i)%nat) (fst (decode_sparse (T := R) l)) = false.
  Proof using.
    intros E HP. unfold build_all_of in E. destruct (basis_plan x None None None None) as [[[[mu nmu] sig] nsig]|]; [|discriminate]. cbn [bind] in E.
    set (D := create_voigt_basis _ _ _ _ _ _ _ _ _) in E. clearbody D. destruct (build_all sqrt chol dependent 20 _ D P) as [[ls A']|] eqn:EB; [|discriminate]. cbn [bind fst snd] in E. injection E as <- _ <-.
    assert (LA : length A' = length D /\ (0 < length D)%nat).
    { revert EB. generalize (nfrac (T := R) 1 10000000000). intros tol EB. assert (G : forall P D ls A', build_all sqrt chol dependent 20 tol D P = Ok (ls, A') -> length A' = length D).
      { clear. induction P as [|p P IH]; intros D ls A' E; cbn [build_all] in E; [injection E as _ <-; reflexivity|].
        destruct (build_one sqrt chol dependent 20 tol D p) as [[l D1]|] eqn:E1; [|discriminate]. cbn [bind fst snd] in E. destruct (build_all sqrt chol dependent 20 tol D1 P) as [[l2 D2]|] eqn:E2; [|discriminate]. cbn [bind fst snd] in E. injection E as _ <-.
        destruct (c75_dictionary sqrt chol dependent 20 tol D p l D1 E1) as (? & ? & ? & _ & L & _). rewrite (IH _ _ _ E2). exact L. }
      split; [exact (G _ _ _ _ EB)|]. destruct P as [|p P]; [congruence|]. cbn [build_all] in EB. destruct (build_one sqrt chol dependent 20 tol D p) as [[l D1]|] eqn:E1; [|discriminate].
      unfold build_one, sparse_basis in E1. cbn [Nat.eqb] in E1. destruct (length D =? 0)%nat eqn:E0; [discriminate E1|]. apply Nat.eqb_neq in E0. lia. }
    destruct LA as [LA LD]. destruct (all_pairs sqrt chol dependent (length D) _ P D ls A' eq_refl EB) as [HL Hp]. split; [rewrite map_length; exact HL|].
    intros l Hl. apply in_map_iff in Hl. destruct Hl as (l0 & <- & Hl0). destruct (Hp l0 Hl0) as (c & Hc & Lc). destruct (pad_pairs (length D) l0 c LD Hc Lc) as (c' & [-> Hc'] & _).
    destruct (existsb _ _) eqn:EX; [|reflexivity]. exfalso. apply existsb_exists in EX. destruct EX as (i & Hi & Hle). apply Nat.leb_le in Hle. unfold decode_sparse in Hi. cbn [fst] in Hi. rewrite !map_map in Hi. apply in_map_iff in Hi.
    destruct Hi as ((z, b) & <- & Hzb). cbn [fst snd] in Hle. specialize (Hc' z b Hzb). rewrite LA in Hle. unfold combine_int, get_N in Hle. cbn [snd] in Hle.
    replace (2 ^ 16 - 1)%Z with (Z.ones 16) in Hle by reflexivity. rewrite Z.land_lor_distr_l in Hle. rewrite !Z.land_ones in Hle by lia.
    rewrite Z.shiftl_mul_pow2 in Hle by lia. rewrite Z.mod_mul in Hle by lia. rewrite Z.lor_0_l in Hle.
    pose proof (Z.mod_le (Z.of_nat b) (2 ^ 16) ltac:(lia) ltac:(lia)) as Hm. pose proof (Z.mod_pos_bound (Z.of_nat b) (2 ^ 16) ltac:(lia)). lia.
  Qed.
  (** Whenever the same data convert to the sparse class, [extract_xy_sparse] ends with a KeyError. *)
  Lemma c150_key : forall X M e kw d, fill_outside X -> made X M e -> vget kw "yvals" = None ->
    extract_sparse_from_xy voigt sqrt chol dependent e kw = Ok d -> xy_sparse e kw = Err KeyError.
  Proof using.
    intros X M e kw d HX He Hy E. rewrite same_rebin in E by exact Hy. unfold extract_xy_sparse.
    destruct (item (objdata e) "yvals") as [y|] eqn:E1; [|discriminate]. cbn [bind] in E |- *.
    destruct (own_points e) as [dx|] eqn:E2; [|discriminate]. cbn [bind] in E |- *.
    destruct (rebin y (keyword kw "xvals" dx) (keyword kw "nvals" (VNum (nofZ 300)))) as [[nx P]|] eqn:E3; [|discriminate]. cbn [bind fst snd] in E |- *.
    destruct (build_all_of voigt sqrt chol dependent nx P) as [[[lines meta] A]|] eqn:EB; [|discriminate]. cbn [bind].
    assert (HP : P <> []).
    { destruct (made_rep X M e HX He) as (k & D & HD & _). destruct (rep_meta X k D e HD) as (Hm & Ho & _).
      unfold item in E1. unfold own_points in E2. rewrite Ho in E1. rewrite Hm in E2. pose proof HD as (_ & Hne & _).
      unfold rebin in E3. destruct y as [y| | | | |]; try discriminate E3. destruct (keyword kw "xvals" dx) as [xa| | | | |]; try discriminate E3. destruct (keyword kw "nvals" _) as [| | |nt| |]; try discriminate E3.
      destruct (negb _); [discriminate|]. destruct (dat xa) as [|x0 t]; [discriminate|]. cbv zeta in E3. destruct (existsb _ _); [discriminate|].
      destruct (positive_columns (rows_of y)) as [|p0 ps] eqn:EP; [discriminate|]. cbn [map] in E3. destruct (nfloor nt <? 0)%Z; [discriminate|]. destruct (negb _); [discriminate|]. injection E3 as _ <-.
      destruct (rows_of y); [discriminate EP|discriminate]. }
    destruct (built_lines _ _ _ _ _ EB HP) as [HL Hd]. destruct (length lines =? 0)%nat eqn:E0; [apply Nat.eqb_eq in E0; destruct P; [congruence|]; cbn in HL; lia|].
    assert (EM : exists ys, mapM (fun inds => let '(ix, vals) := decode_sparse (T := R) inds in weighted_sum A (length nx) ix vals) lines = Ok ys).
    { clear - Hd. induction lines as [|l ls IH]; [exists []; reflexivity|]. destruct IH as (ys & IH); [intros l0 H0; apply Hd; right; exact H0|]. cbn [mapM]. specialize (Hd l (or_introl eq_refl)).
      destruct (decode_sparse l) as [ix vals]. cbn [fst] in Hd. unfold weighted_sum at 1. rewrite Hd. cbn [bind]. rewrite IH. cbn [bind]. eexists. reflexivity. }
    destruct EM as (ys & EM). rewrite EM. cbn [bind]. rewrite (built_without_z _ _ _ _ _ EB). reflexivity.
  Qed.
  Lemma c150_sources : forall X M e kw, fill_outside X -> made X M e -> g_name (e_obj e) <> "interp" ->
    xy_sparse e kw = Err KeyError /\ extract_voigt_xy voigt sqrt chol dependent e kw = Err KeyError.
  Proof using.
    intros X M e kw HX He Hname. destruct (made_rep X M e HX He) as (k & D & HD & _). destruct (rep_meta X k D e HD) as (Hm & Ho & Hk). rewrite Hk in Hname.
    assert (E : vget (objdata e) "yvals" = None \/ vget (metadata e) "xvals" = None).
    { rewrite Hm, Ho. destruct k; cbn [kind_name] in Hname; try congruence; (left; reflexivity) || (right; reflexivity). }
    unfold extract_xy_sparse, extract_voigt_xy, extract_voigt_xy_sparse, item, own_points. destruct E as [E|E]; rewrite E; [split; reflexivity|].
    destruct (vget (objdata e) "yvals"); split; reflexivity.
  Qed.
End Sparse.
Definition qp_tables (X : scipy) (hs mf : extractor (T := R)) (q : which) (c : nat) : dict (option string) (mfunc (T := R)) :=
  match q with
  | Creation => [(None, CreateFun (create_of (qp X) (nth (c - 1) class_names "")))]
  | Extraction => match c with
    | 1 => [(None, ExtractFun extract_hist_values); (Some "samples", ExtractFun hs)]
    | 2 => [(None, ExtractFun extract_vals_at_x)]
    | 3 => [(None, ExtractFun extract_xy_vals)]
    | 4 => [(None, ExtractFun mf)]
    | 5 => [(None, ExtractFun extract_quantiles)]
    | 6 => [(None, ExtractFun (extract_and_pack log10R pow10R))]
    | _ => [] end
  | _ => []
  end.
(** The conversions of qp do not call the function registered second for the irregular class. *)
Lemma c150_unused : forall X hs mf xy xy' e name kw,
  factory_convert (QH X hs mf xy) (QW X hs mf xy) e name kw = factory_convert (QH X hs mf xy') (QW X hs mf xy') e name kw.
Proof.
  intros X hs mf xy xy' e name kw.
  assert (ET : forall q c, In c [7; 1; 2; 3; 4; 5; 6]%nat -> forall z, tables_of (QH X hs mf z) (QW X hs mf z) c q = qp_tables X hs mf q c).
  { intros q c Hc z. cbn [In] in Hc. destruct q; repeat (destruct Hc as [<-|Hc]; [cbn [qp_tables nth]; reflexivity|]); destruct Hc. }
  unfold factory_convert. rewrite !QW_registry.
  destruct (dget String.eqb _ name) as [c|] eqn:E; [|reflexivity].
  assert (Hc : In c [7; 1; 2; 3; 4; 5; 6]%nat).
  { revert E. cbn [dget]. repeat match goal with |- context [if String.eqb ?a ?b then _ else _] => destruct (String.eqb a b); [intros E; injection E as <-; cbn; tauto|] end. discriminate. }
  destruct (method_key kw) as [m|]; [|cbn [bind]; reflexivity]. cbn [bind]. unfold method_of. rewrite !ET by exact Hc.
  destruct (get_val_or_default _ m) as [x|]; [|reflexivity]. destruct (call_extract x e (vremove kw "method")) as [d|]; [|cbn [bind]; reflexivity]. cbn [bind].
  unfold factory_create. rewrite !QW_registry, E. unfold method_of. rewrite !ET by exact Hc. reflexivity.
Qed.

(** ** Voigt parameters of gridded data *)
Section Grid.
  Variable X : scipy.
  Hypothesis HX : fill_outside X.
  Variables (voigt : R -> R -> R -> R) (sqrt : R -> R) (chol : list (list R) -> list R -> list R) (dependent : list (list R) -> list R -> bool).

  Lemma rebin_interp M e xs n f top : made X M e -> g_name (e_obj e) = "interp" -> vget (metadata e) "xvals" = Some (VArr (mknd [1; length xs]%nat xs)) ->
    evaluates (ens_pdf e) (e_npdf e) f -> highest xs (e_npdf e) f top -> (2 <= n)%nat ->
    exists y, item (objdata e) "yvals" = Ok y /\ own_points e = Ok (VArr (nd1 xs)) /\ (0 < e_npdf e)%nat /\
      rebin y (VArr (nd1 xs)) (VNum (INR n)) = Ok (spaced (nth0 0 xs) top n, at_grid f (spaced (nth0 0 xs) top n) (e_npdf e)).
  Proof using HX.
    intros He Hname Hb Hev0 Htop Hn2. destruct (made_rep X M e HX He) as (k & D & HD & _).
    pose proof (own_grid X k D e xs HD Hname Hb) as ->. pose proof HD as ((Hs & Hn) & Hne & HG & _ & (_ & _ & _ & Hsh & _)).
    destruct (rep_meta X _ D e HD) as (Hm & Ho & _). pose proof (rep_npdf' X _ D e HD) as EN. rewrite EN in *.
    set (g := fun r => pdf_of X (KInterp xs) (nth r D [])). set (rows := map (num_at 0) D).
    assert (Hev : forall r x, (r < length D)%nat -> f r x = g r x).
    { pose proof (rep_densities X _ _ e HD ltac:(discriminate)) as (_ & _ & [Hc _]). intros r x Hr. exact (evaluates_unique _ _ _ _ Hev0 Hc r x Hr). }
    assert (Lr : forall row, In row rows -> length row = length xs).
    { intros row Hr. unfold rows in Hr. apply in_map_iff in Hr. destruct Hr as (d & <- & Hd). rewrite Forall_forall in HG. destruct (HG d Hd) as [Hfit _]. apply (one_cell _ _ _ Hfit). }
    assert (Hf : forall r x, (r < length D)%nat -> f r x = interp1d xs (nth r rows []) 0 0 x).
    { intros r x Hr. rewrite Hev by exact Hr. unfold g, pdf_of. cbn [val interp_val]. rewrite Forall_forall in HG. destruct (HG _ (nth_In D [] Hr)) as [_ Hnorm]. rewrite Hnorm. unfold rows. rewrite (nth_map_in _ D r _ []) by exact Hr. reflexivity. }
    assert (Hg : forall r j, (r < length D)%nat -> (j < length xs)%nat -> f r (nth0 j xs) = nth0 j (nth r rows [])) by (intros r j Hr Hj; rewrite Hf by exact Hr; apply interp1d_knot; auto).
    exists (VArr (nd2 (length xs) rows)).
    assert (E1 : vget (objdata e) "yvals" = Some (VArr (nd2 (length xs) rows))).
    { rewrite Ho. unfold rows, nd2. cbn [cols columns kind_layout columns_from col_value]. unfold vget. cbn [dget String.eqb Ascii.eqb Bool.eqb]. rewrite ?map_map. unfold rows_nd. rewrite ?map_length. reflexivity. }
    assert (ER : rows_of (nd2 (length xs) rows) = rows) by (apply rows_of_nd2; exact Lr).
    assert (EX : rows_of (mknd [1; length xs]%nat xs) = [xs]).
    { replace (mknd [1; length xs]%nat xs) with (nd2 (length xs) [xs]) by (unfold nd2; cbn [concat length]; rewrite app_nil_r; reflexivity). apply rows_of_nd2. intros r [<-|[]]. reflexivity. }
    split; [unfold item; rewrite E1; reflexivity|]. split; [unfold own_points; rewrite Hb, EX; reflexivity|]. split; [destruct D; [congruence|cbn; lia]|].
    assert (EF : nfloor (INR n) = Z.of_nat n) by (cbn [nfloor RNum]; symmetry; apply Int_part_at; rewrite <- INR_IZR_INZ; lra).
    assert (EI : neqb (nofZ (Z.of_nat n)) (INR n) = true) by (cbn [nofZ RNum]; destruct (neqb_reflect (IZR (Z.of_nat n)) (INR n)) as [|C]; [reflexivity|]; exfalso; apply C; symmetry; apply INR_IZR_INZ).
    destruct Htop as (Ht1 & (r0 & Hr0 & Ht2) & Ht3).
    assert (EM : exists p0 ps, map (fun j => nth0 j xs) (positive_columns rows) = p0 :: ps /\ nmaximum p0 ps = top).
    { assert (Hin : In top (map (fun j => nth0 j xs) (positive_columns rows))).
      { destruct (In_nth _ _ 0 Ht1) as (j & Hj & Ej). apply in_map_iff. exists j. split; [exact Ej|]. apply positive_columns_in. exists (nth r0 rows []).
        assert (Hi : In (nth r0 rows []) rows) by (apply nth_In; unfold rows; rewrite map_length; exact Hr0). split; [exact Hi|]. rewrite (Lr _ Hi). split; [exact Hj|].
        rewrite <- Hg by auto. unfold nth0. change n0 with 0. rewrite Ej. exact Ht2. }
      assert (Hle : forall v, In v (map (fun j => nth0 j xs) (positive_columns rows)) -> v <= top).
      { intros v Hv. apply in_map_iff in Hv. destruct Hv as (j & <- & Hj). apply positive_columns_in in Hj. destruct Hj as (row & Hr & Hj & Hp).
        destruct (In_nth _ _ [] Hr) as (r & Hr1 & <-). assert (Hr2 : (r < length D)%nat) by (unfold rows in Hr1; rewrite map_length in Hr1; exact Hr1).
        rewrite (Lr _ Hr) in Hj. apply (Ht3 r); [exact Hr2|apply nth_In; exact Hj|]. rewrite Hg by auto. exact Hp. }
      pose proof (greatest_eq _ _ Hin Hle) as G. destruct (map _ (positive_columns rows)) as [|p0 ps]; [destruct Hin|]. exists p0, ps. split; [reflexivity|exact G]. }
    destruct EM as (p0 & ps & EM1 & EM2).
    unfold rebin. rewrite EF, EI, ER. change (shp (nd1 xs)) with [length xs]. change (dat (nd1 xs)) with xs. rewrite (sorted_grid_inc xs Hs).
    unfold nd2 at 1 2. cbn [shp length last andb negb Nat.eqb].
    destruct xs as [|x0 t]; [cbn in Hn; lia|].
    assert (EJ : existsb (fun j => (length (x0 :: t) <=? j)%nat) (positive_columns rows) = false).
    { destruct (existsb _ _) eqn:EJ; [|reflexivity]. apply existsb_exists in EJ. destruct EJ as (j & Hj & C). apply Nat.leb_le in C. apply positive_columns_in in Hj. destruct Hj as (row & Hr & Hj & _). rewrite (Lr row Hr) in Hj. lia. }
    cbn [length] in EJ |- *. cbv beta iota zeta. rewrite EJ, EM1, EM2.
    destruct (Z.ltb_spec (Z.of_nat n) 0) as [C|_]; [lia|]. rewrite Nat2Z.id. rewrite Nat.eqb_refl. cbn [negb].
    assert (Emin : nminimum x0 t = nth0 0 (x0 :: t)).
    { apply (least_eq (x0 :: t) x0); [left; reflexivity|]. intros v Hv. destruct (In_nth _ v 0 Hv) as (i & Hi & <-). destruct i; [cbn; lra|]. left. apply (inc_lt (x0 :: t) 0 (S i)); auto; lia. }
    rewrite Emin, (linspace_spaced _ _ _ Hn2). f_equal. f_equal.
    unfold at_grid, rows. rewrite map_map. rewrite (map_rows (fun d => map (interp1d (x0 :: t) (num_at 0 d) n0 n0) (spaced (nth0 0 (x0 :: t)) top n)) D). apply map_ext_in. intros r Hr. apply in_seq in Hr. apply map_ext. intros x.
    rewrite Hf by lia. unfold rows. rewrite (nth_map_in _ D r _ []) by lia. reflexivity.
  Qed.

  Definition with_nz (nz : option nat) : vdict R := match nz with Some m => [("nz", VNum (INR m))] | None => [] end.
  (** the density divided by its trapezium sum on the points *)
  Definition rescaled (f : nat -> R -> R) (pts : list R) (r : nat) (x : R) : R := f r x / trapezium (f r) pts.
  (** the columns of parameters coded by pairs (coefficient, number of the basis function) *)
  Definition shape_at (a b : R) (n : nat) (i : nat) : R * R * R := nth i (basis_params (a, b) (widths a b n) n (n_widths n) 3) (0, 0, 0).
  Definition means_of a b n (c : list (Z * nat)) : list R := map (fun p => fst (fst (shape_at a b n (snd p)))) c.
  Definition stds_of a b n (c : list (Z * nat)) : list R := map (fun p => snd (fst (shape_at a b n (snd p)))) c.
  Definition gammas_of a b n (c : list (Z * nat)) : list R := map (fun p => snd (shape_at a b n (snd p))) c.
  Definition weights_of (c : list (Z * nat)) : list R := match c with [] => [] | _ :: t => 1 :: map (fun p => IZR (fst p) / 32000) t end.

  Lemma trapezoid_trapezium g pts : trapezoid pts (map g pts) = trapezium g pts.
  Proof using.
    rewrite trapezoid_area by (rewrite map_length; reflexivity). unfold area, trapezium, trap. apply rsum_ext. intros i Hi. unfold nth0. rewrite !(nth_indep (map g pts) n0 (g n0)) by (rewrite map_length; lia). rewrite !map_nth. reflexivity.
  Qed.
  Lemma codes_of_lines nb lines : (0 < nb)%nat -> (forall l, In l lines -> exists c, pairs nb l c /\ (length c <= 20)%nat) ->
    exists codes, length codes = length lines /\ map (pad 20) lines = map (map (fun zb => combine_int (fst zb) (Z.of_nat (snd zb)))) codes /\
      forall c, In c codes -> length c = 20%nat /\ forall z b, In (z, b) c -> (b < nb)%nat.
  Proof using.
    intros Hnb Hp. induction lines as [|l ls IH]; [exists []; split; [reflexivity|split; [reflexivity|intros c []]]|].
    destruct IH as (cs & L & E & H). { intros x Hx. apply Hp. right. exact Hx. }
    destruct (Hp l (or_introl eq_refl)) as (c & Hc & Lc). destruct (pad_pairs nb l c Hnb Hc Lc) as (c' & [E' Hc'] & Lc').
    exists (c' :: cs). split; [cbn; congruence|]. split; [cbn [map]; congruence|]. intros c0 [<-|H0]; [split; assumption|apply H; exact H0].
  Qed.
  Lemma weights_decoded c : decode_weights (T := R) 32001 (map fst c) = weights_of c.
  Proof using.
    unfold decode_weights, weights_of. destruct c as [|p c]; [reflexivity|]. cbn [map]. f_equal. rewrite map_map. apply map_ext. intros q. unfold nmul, ndiv, n1, nofZ. cbn. change (IZR (32001 - 1)) with 32000. lra.
  Qed.
  Lemma c150_grid : forall M e xs nz f top, made X M e -> g_name (e_obj e) = "interp" -> vget (metadata e) "xvals" = Some (VArr (mknd [1; length xs]%nat xs)) ->
    evaluates (ens_pdf e) (e_npdf e) f -> highest xs (e_npdf e) f top -> nth0 0 xs < top -> (4 <= points_asked nz <= 363)%nat ->
    let a := nth0 0 xs in let n := points_asked nz in let pts := spaced a top n in
    (forall r, (r < e_npdf e)%nat -> trapezium (f r) pts <> 0) ->
    match pursued voigt sqrt chol dependent a top n (at_grid (rescaled f pts) pts (e_npdf e)) with
    | Err x => extract_voigt_xy voigt sqrt chol dependent e (with_nz nz) = Err x
    | Ok lines =>
        exists codes, length codes = e_npdf e /\ map (pad 20) lines = map (map (fun zb => combine_int (fst zb) (Z.of_nat (snd zb)))) codes /\
          (forall c, In c codes -> length c = 20%nat /\ forall z b, In (z, b) c -> (b < 3 * n * n_widths n)%nat) /\
          extract_voigt_xy voigt sqrt chol dependent e (with_nz nz) =
            Ok [("means", VArr (nd2 20 (map (means_of a top n) codes))); ("stds", VArr (nd2 20 (map (stds_of a top n) codes)));
                ("weights", VArr (nd2 20 (map weights_of codes))); ("gammas", VArr (nd2 20 (map (gammas_of a top n) codes)))]
    end.
  Proof using HX.
    intros M e xs nz f top He Hname Hb Hev Htop Hat Hn. cbv zeta. intros Hz.
    destruct (rebin_interp M e xs (points_asked nz) f top He Hname Hb Hev Htop ltac:(lia)) as (y & Ey & Ep & Hpos & Er).
    set (a := nth0 0 xs) in *. set (n := points_asked nz) in *. set (pts := spaced a top n) in *.
    assert (EK : keyword (with_nz nz) "xvals" (VArr (nd1 xs)) = VArr (nd1 xs)) by (destruct nz; reflexivity).
    assert (EN : keyword (with_nz nz) "nz" (VNum (nofZ 300)) = VNum (INR n)).
    { unfold n. destruct nz; [reflexivity|]. cbn [with_nz points_asked]. unfold keyword. cbn [vget dget]. cbn [nofZ RNum]. rewrite INR_IZR_INZ. reflexivity. }
    assert (EV : extract_voigt_xy_sparse voigt sqrt chol dependent e (with_nz nz) =
      let* s := build_all_of voigt sqrt chol dependent pts (at_grid (rescaled f pts) pts (e_npdf e)) in Ok (fst (fst s), snd (fst s))).
    { unfold extract_voigt_xy_sparse. rewrite Ey. cbn [bind]. rewrite Ep. cbn [bind]. rewrite EK, EN, Er. cbn [bind fst snd].
      destruct (existsb _ (at_grid f pts (e_npdf e))) eqn:EZ.
      { exfalso. apply existsb_exists in EZ. destruct EZ as (row & Hr & EZ). unfold at_grid in Hr. apply in_map_iff in Hr. destruct Hr as (r & <- & Hr). apply in_seq in Hr. rewrite trapezoid_trapezium in EZ.
        destruct (neqb_reflect (trapezium (f r) pts) n0) as [C|C]; [|discriminate]. apply (Hz r ltac:(lia)). exact C. }
      f_equal. f_equal. unfold at_grid. rewrite map_map. apply map_ext. intros r. rewrite map_map. apply map_ext. intros x. rewrite trapezoid_trapezium. reflexivity. }
    unfold extract_voigt_xy. rewrite EV. clear EV Er. unfold build_all_of. 
    assert (EPl : basis_plan pts None None None None = Ok ((a, top), n, widths a top n, n_widths n)) by (unfold pts; rewrite <- linspace_spaced by lia; apply plan_linspace; [exact Hat|lia]).
    rewrite EPl. cbn [bind].
    unfold pursued. assert (C1 : nfrac (T := R) 1 10000000000 = / 10 ^ 10) by (unfold nfrac; cbn [ndiv nofZ RNum]; lra).
    assert (C2 : nfrac (T := R) 1 100000 = / 10 ^ 5) by (unfold nfrac; cbn [ndiv nofZ RNum]; lra). rewrite C1, C2. fold pts.
    set (P := at_grid (rescaled f pts) pts (e_npdf e)). set (A := create_voigt_basis _ _ _ _ _ _ _ _ _).
    assert (LP : length P = e_npdf e) by (unfold P, at_grid; rewrite map_length, seq_length; reflexivity).
    assert (Hw : (1 <= n_widths n)%nat) by (unfold n_widths; apply Nat.div_le_lower_bound; lia).
    set (nb := (n * (n_widths n * 3))%nat). assert (LA : length A = nb) by (unfold A, create_voigt_basis; rewrite map_length; apply params_length).
    assert (Hnb : (0 < nb)%nat) by (unfold nb; nia).
    assert (Hnb' : (Z.of_nat nb <= 65536)%Z) by (replace nb with (3 * n * n_widths n)%nat by (unfold nb; lia); apply c128_bases; lia).
    clearbody A P. destruct (build_all sqrt chol dependent 20 (/ 10 ^ 10) A P) as [[lines A']|x] eqn:EB; [|reflexivity]. cbn [bind fst snd].
    destruct (all_pairs sqrt chol dependent nb _ P A lines A' LA EB) as [HL Hp]. destruct (codes_of_lines nb lines Hnb Hp) as (codes & LC & EL & HC).
    exists codes. split; [congruence|]. split; [exact EL|]. split.
    { intros c Hc. destruct (HC c Hc) as [L H]. split; [exact L|]. intros z b Hzb. specialize (H z b Hzb). unfold nb in H. lia. }
    rewrite EL. rewrite map_length. unfold item, vget. cbn [dget String.eqb Ascii.eqb Bool.eqb bind as_pair as_bytes nd1 dat map app].
    assert (ES : mapM (indices2shapes_meta (mkmeta [] false (a, top) (widths a top n) [Z.of_nat n; Z.of_nat (n_widths n); Z.of_nat 3; 32001; 20]%Z)) (map (map (fun zb => combine_int (fst zb) (Z.of_nat (snd zb)))) codes) =
      Ok (map (fun c => (weights_of c, means_of a top n c, stds_of a top n c, gammas_of a top n c)) codes)).
    { clear EL LC. induction codes as [|c cs IH]; [reflexivity|]. cbn [map mapM]. rewrite IH by (intros c0 H0; apply HC; right; exact H0). destruct (HC c (or_introl eq_refl)) as [Lc Hc].
      assert (E1 : indices2shapes_meta (mkmeta [] false (a, top) (widths a top n) [Z.of_nat n; Z.of_nat (n_widths n); Z.of_nat 3; 32001; 20]%Z) (map (fun zb => combine_int (fst zb) (Z.of_nat (snd zb))) c) =
        Ok (weights_of c, means_of a top n c, stds_of a top n c, gammas_of a top n c)).
      { unfold indices2shapes_meta. cbn [m_dims m_mu m_sig]. rewrite !Nat2Z.id.
        destruct (Z.ltb_spec (Z.of_nat n) 0) as [?|_]; [lia|]. destruct (Z.ltb_spec (Z.of_nat (n_widths n)) 0) as [?|_]; [lia|]. change (Z.of_nat 3 <? 0)%Z with false. change (32001 =? 1)%Z with false. cbn [orb].
        destruct (Z.eqb_spec (Z.of_nat (n_widths n) * Z.of_nat 3) 0) as [?|_]; [lia|]. rewrite map_length, Lc. cbn [Nat.eqb].
        assert (GN : forall zb, In zb c -> get_N (combine_int (fst zb) (Z.of_nat (snd zb))) = (fst zb, Z.of_nat (snd zb))).
        { intros (z, b) Hzb. cbn [fst snd]. apply c18_partial. specialize (Hc z b Hzb). lia. }
        destruct (existsb _ _) eqn:EX.
        { exfalso. apply existsb_exists in EX. destruct EX as (i & Hi & EX). apply in_map_iff in Hi. destruct Hi as (zb & <- & Hzb). rewrite (GN zb Hzb) in EX. cbn [snd] in EX. apply Z.leb_le in EX.
          destruct zb as [z b]. specialize (Hc z b Hzb). cbn [snd] in EX. unfold nb in Hc. assert (Z.of_nat b < Z.of_nat n * (Z.of_nat (n_widths n) * Z.of_nat 3))%Z by lia.
          pose proof (Z.div_lt_upper_bound (Z.of_nat b) (Z.of_nat (n_widths n) * Z.of_nat 3) (Z.of_nat n) ltac:(lia) ltac:(lia)). lia. }
        rewrite (surjective_pairing (indices2shapes _ _ _ _ _ _ _)).
        assert (W : fst (indices2shapes (a, top) (widths a top n) n (n_widths n) 3 32001 (map (fun zb => combine_int (fst zb) (Z.of_nat (snd zb))) c)) = weights_of c).
        { unfold indices2shapes. cbn [fst]. rewrite !map_map. rewrite (map_ext_in _ fst) by (intros zb Hzb; rewrite (GN zb Hzb); reflexivity). apply weights_decoded. }
        assert (S : snd (indices2shapes (a, top) (widths a top n) n (n_widths n) 3 32001 (map (fun zb => combine_int (fst zb) (Z.of_nat (snd zb))) c)) = map (fun p => shape_at a top n (snd p)) c).
        { unfold indices2shapes. cbn [snd]. rewrite !map_map. apply map_ext_in. intros zb Hzb. rewrite (GN zb Hzb). cbn [snd]. rewrite Nat2Z.id. unfold shape_at. symmetry. apply params_nth. destruct zb as [z b]. exact (Hc z b Hzb). }
        rewrite W, S. rewrite !map_map. reflexivity. }
      rewrite E1. reflexivity. }
    cbn [nth] in *. rewrite <- !surjective_pairing. replace [fst (widths a top n); snd (widths a top n)] with [fst (widths a top n); snd (widths a top n)] by reflexivity.
    cbv zeta. rewrite ES. cbn [bind]. destruct (length codes =? 0)%nat eqn:E0; [apply Nat.eqb_eq in E0; lia|]. rewrite !map_map. reflexivity.
  Qed.
End Grid.

(** ** Examples *)
(** An ensemble whose conversion to the sparse class succeeds *)
Lemma c150_key_example : exists X voigt sqrt chol dependent M e kw d, fill_outside X /\ made X M e /\ vget kw "yvals" = None /\
  extract_sparse_from_xy voigt sqrt chol dependent e kw = Ok d.
Proof.
  destruct c128_example as (X & voigt & sqrt & chol & dependent & M & e & xs & nvals & f & top & lines & HX & He & Hname & Hx & Hf & Ht & H1 & _ & H2 & H3 & H4 & H5).
  exists X, voigt, sqrt, chol, dependent, M, e, (with_nvals nvals).
  pose proof (c128_convert X HX voigt sqrt chol dependent M e xs nvals f top He Hname Hx Hf Ht H1 H2 H3) as C. cbv zeta in C. rewrite H4 in C. destruct C as (_ & C). destruct (C H5) as (e' & g & C1 & _).
  unfold sparse_convert in C1. destruct (extract_sparse_from_xy voigt sqrt chol dependent e (with_nvals nvals)) as [d|] eqn:E; [|discriminate]. exists d.
  split; [exact HX|]. split; [exact He|]. split; [destruct nvals; reflexivity|]. reflexivity.
Qed.
(** One PDF on the grid 0, 1, 2, 4, four points, flat basis functions *)
Lemma c150_grid_example : exists X voigt sqrt chol dependent M e xs nz f top lines, fill_outside X /\
  made X M e /\ g_name (e_obj e) = "interp" /\ vget (metadata e) "xvals" = Some (VArr (mknd [1; length xs]%nat xs)) /\
  evaluates (ens_pdf e) (e_npdf e) f /\ highest xs (e_npdf e) f top /\ nth0 0 xs < top /\ (4 <= points_asked nz <= 363)%nat /\
  (forall r, (r < e_npdf e)%nat -> trapezium (f r) (spaced (nth0 0 xs) top (points_asked nz)) <> 0) /\
  pursued voigt sqrt chol dependent (nth0 0 xs) top (points_asked nz) (at_grid (rescaled f (spaced (nth0 0 xs) top (points_asked nz))) (spaced (nth0 0 xs) top (points_asked nz)) (e_npdf e)) = Ok lines /\
  length lines = 1%nat.
Proof.
  destruct tail_facts as (e & f & Hm & Hname & Hx & HN & Hf & Ef).
  assert (Hinc : increasing [0; 1; 2; 4]) by (repeat constructor; lra).
  assert (Kn : forall i, (i < 4)%nat -> f 0%nat (nth0 i [0; 1; 2; 4]) = nth0 i [1 / 4; 1 / 2; 1 / 4; 0]) by (intros i Hi; rewrite Ef; apply interp1d_knot; auto).
  pose proof (Kn 0%nat ltac:(lia)) as K0. pose proof (Kn 2%nat ltac:(lia)) as K2. pose proof (Kn 3%nat ltac:(lia)) as K3. unfold nth0 in K0, K2, K3. cbn [nth] in K0, K2, K3.
  assert (V1 : f 0%nat (2 / 3) = 5 / 12) by (rewrite Ef, (interp1d_seg _ _ 0 0 _ 0); [unfold seg, nth0; cbn [nth]; lra|apply inc_nd, Hinc|cbn; lia|unfold nth0; cbn [nth]; lra]).
  assert (V2 : f 0%nat (4 / 3) = 5 / 12) by (rewrite Ef, (interp1d_seg _ _ 0 0 _ 1); [unfold seg, nth0; cbn [nth]; lra|apply inc_nd, Hinc|cbn; lia|unfold nth0; cbn [nth]; lra]).
  assert (ES : spaced 0 2 4 = [0; 2 / 3; 4 / 3; 2]) by (unfold spaced; cbn [Nat.sub seq map INR]; repeat (apply (f_equal2 cons); [lra|]); reflexivity).
  assert (TZ : trapezium (f 0%nat) [0; 2 / 3; 4 / 3; 2] = 13 / 18) by (unfold trapezium, nth0; cbn [length pred rsum nth]; rewrite K0, V1, V2, K2; lra).
  exists scipy1, flat, unit_root, first_guess, never, [MPdf; MCdf; MPpf], e, [0; 1; 2; 4], (Some 4%nat), f, 2.
  change (nth0 0 [0; 1; 2; 4]) with 0. change (points_asked (Some 4%nat)) with 4%nat. rewrite HN. rewrite ES.
  set (q := map (rescaled f [0; 2 / 3; 4 / 3; 2] 0%nat) [0; 2 / 3; 4 / 3; 2]).
  assert (Hq : dot [1; 1; 1; 1] q = 24 / 13) by (unfold q; cbn [map]; unfold rescaled; rewrite TZ, K0, V1, V2, K2; unfold dot; cbn; lra).
  exists [[combine_int (nround (dot [1; 1; 1; 1] q / (1 / 32000))) 0]].
  split; [apply scipy1_fill|]. split; [exact Hm|]. split; [exact Hname|]. split; [exact Hx|]. split; [exact Hf|].
  split.
  { split; [right; right; left; reflexivity|]. split; [exists 0%nat; split; [lia|]; rewrite K2; lra|].
    intros r x Hr [<-|[<-|[<-|[<-|[]]]]] Hp; try lra. replace r with 0%nat in Hp by lia. rewrite K3 in Hp. lra. }
  split; [lra|]. split; [lia|]. split; [intros r Hr; replace r with 0%nat by lia; rewrite TZ; lra|]. split; [|reflexivity].
  unfold pursued. rewrite flat_dictionary, ES. change (4 * (n_widths 4 * 3))%nat with (S 11). unfold at_grid. cbn [seq map]. change (map (rescaled f [0; 2 / 3; 4 / 3; 2] 0%nat) [0; 2 / 3; 4 / 3; 2]) with q.
  unfold build_all. match goal with |- context [build_one _ _ _ _ _ _ ?l] => change l with q end. rewrite flat_pursuit by lra. reflexivity.
Qed.
(** Mixtures *)
Lemma c150_mixture_example : exists X M e, fill_outside X /\ made X M e /\ g_name (e_obj e) = "mixmod".
Proof.
  assert (Hok : KindInputs.input_ok (IMix 2 [[0; 1]; [3; 5]] [[1; 2]; [1; 1]] [[1; 3]; [2; 0]])) by exact mix_input_example.
  destruct (created scipy1 _ scipy1_fill Hok) as (e & _ & Hm & _ & _ & Hname & _). exists scipy1. eexists. exists e. split; [apply scipy1_fill|]. split; [exact Hm|exact Hname].
Qed.
