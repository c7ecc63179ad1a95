(** Conversions to spline (C127). *)
From Coq Require Import String List Arith ZArith Bool Lia Reals Lra.
From Coquelicot Require Import Coquelicot.
From Verif Require Import Num NumProofs Py NdArray NumpyLib Utils ScipyWrap Spec Values Ensemble Classes SplinePdf SplineXy
  Registry RegistryTheorems Convert SampleConvert Packing PackingTheorems PackedTheorems
  SortProofs BinProofs EvalProofs NdProofs InterpProofs IntegralProofs HistProofs MixmodTheorems SplineProofs SplineMath Voigt Kinds KindProofs EnsembleProofs KindInputs
  ReachProofs EnsembleTheorems RowProofs IntegrateTheorems ConvertTheorems SplineTheorems SplineXyTheorems SplineExamples ConvertExamples SplineConvert.
Import ListNotations.
Local Open Scope string_scope.
Local Open Scope list_scope.
Local Open Scope R_scope.

(** a conversion looks at the registry for its name and at the tables of that class only *)
Lemma same_convert (H1 H2 : hierarchy (mfunc (T := R))) W1 W2 e name kw : dget String.eqb (w_registry W1) name = dget String.eqb (w_registry W2) name ->
  (forall c q m, dget String.eqb (w_registry W2) name = Some c -> method_of H1 W1 q c m = method_of H2 W2 q c m) ->
  factory_convert H1 W1 e name kw = factory_convert H2 W2 e name kw.
Proof.
  intros Hn Hm. unfold factory_convert, factory_create. rewrite Hn. destruct (dget String.eqb (w_registry W2) name) as [c|]; [|reflexivity].
  destruct (method_key kw) as [m|]; [|reflexivity]. cbn [bind]. rewrite !(Hm c) by reflexivity. reflexivity.
Qed.

Section Qp.
  Variable X : scipy.
  Variables (hs mf xy : extractor (T := R)).
  Variables (splrep : list R -> list R -> res (list R * list R * nat)) (quad : (R -> R) -> R -> R -> R) (kde : list R -> res (R -> R)).
  Variable rvs : ens R -> value R -> value R -> res (list (list R)).
  Definition SH := full_hierarchy (s_phi X) (s_Phi X) (s_quad X) (s_cubic X) (s_dspline X) log10R pow10R voigtR R_sqrt.sqrt (s_Phinv X) hs mf xy splrep quad kde rvs.
  Definition SW := full_world (s_phi X) (s_Phi X) (s_quad X) (s_cubic X) (s_dspline X) log10R pow10R voigtR R_sqrt.sqrt (s_Phinv X) hs mf xy splrep quad kde rvs.
  Lemma SW_registry : w_registry SW = [("norm", 7); ("hist", 1); ("interp", 2); ("spline", 8); ("interp_irregular", 3); ("mixmod", 4); ("quant", 5); ("packed_interp", 6)]%nat.
  Proof using. reflexivity. Qed.
  Lemma SW_tables c q : In c [1; 2; 3; 4; 5; 6; 7]%nat -> tables_of SH SW c q = tables_of (QH X hs mf xy) (QW X hs mf xy) c q.
  Proof using.
    intros H. cbn [In] in H.
    destruct q; repeat (destruct H as [<-|H]; [lazy -[create_of qp_classes extract_hist_values extract_vals_at_x extract_xy_vals extract_quantiles extract_samples spline_from_xy spline_from_samples
      extract_and_pack]; reflexivity|]); destruct H.
  Qed.
  Lemma SW_methods c q m : In c [1; 2; 3; 4; 5; 6; 7]%nat -> method_of SH SW q c m = method_of (QH X hs mf xy) (QW X hs mf xy) q c m.
  Proof using. intros H. unfold method_of. rewrite (SW_tables c q H). reflexivity. Qed.
  (** the other classes are converted to as before *)
  Lemma c127_others : forall e name kw, name <> "spline" -> factory_convert SH SW e name kw = factory_convert (QH X hs mf xy) (QW X hs mf xy) e name kw.
  Proof using.
    intros e name kw Hn. apply same_convert.
    - rewrite SW_registry, QW_registry. cbn [dget]. destruct (String.eqb_spec name "spline") as [E|_]; [congruence|].
      repeat match goal with |- context [String.eqb ?a ?b] => destruct (String.eqb a b); try reflexivity end.
    - intros c q m Hc. apply SW_methods. rewrite QW_registry in Hc. apply dget_in in Hc.
      cbn [In] in Hc |- *. repeat (destruct Hc as [Hc|Hc]; [injection Hc as _ <-; tauto|]). destruct Hc.
  Qed.
  Lemma SW_spline : tables_of SH SW 8 Extraction = [(Some "xy", ExtractFun (T := R) extract_xy_vals); (Some "samples", ExtractFun (extract_samples rvs))].
  Proof using. lazy -[create_of qp_classes extract_xy_vals extract_samples spline_from_xy spline_from_samples]. reflexivity. Qed.
  Lemma SW_spline_c : tables_of SH SW 8 Creation = [(None, CreateFun (create_of (qp X) "spline")); (Some "xy", CreateFun (T := R) (spline_from_xy splrep quad)); (Some "samples", CreateFun (spline_from_samples splrep quad kde))].
  Proof using. unfold qp. lazy -[create_of qp_classes extract_xy_vals extract_samples spline_from_xy spline_from_samples]. reflexivity. Qed.
  (** there is no default: a method must be named *)
  Lemma c127_default : forall e kw m, method_key kw = Ok m -> m <> Some "xy" -> m <> Some "samples" -> factory_convert SH SW e "spline" kw = Err KeyError.
  Proof using.
    intros e kw m Hm H1 H2. unfold factory_convert. rewrite SW_registry. cbn [dget String.eqb Ascii.eqb Bool.eqb]. rewrite Hm. cbn [bind].
    unfold method_of. rewrite SW_spline. unfold get_val_or_default. destruct m as [s|]; [|reflexivity].
    cbn [dget okey_eqb]. destruct (String.eqb_spec s "xy"); [congruence|]. destruct (String.eqb_spec s "samples"); [congruence|]. reflexivity.
  Qed.
  (** by values on a grid *)
  Lemma c127_xy : forall e n f xs N (Ts Cs : nat -> list R) (Ks : nat -> nat) lo hi, densities e n f -> increasing xs ->
    (forall r, (r < n)%nat -> interpolant splrep xs (map (f r) xs) (Ts r) (Cs r) (Ks r)) -> (forall r, (r < n)%nat -> length (Ts r) = N) ->
    quad_exact quad -> least_of lo [xs] -> greatest_of hi [xs] -> (forall r, (r < n)%nat -> RInt (splev (Ts r) (Cs r) (Ks r)) lo hi <> 0) ->
    exists e' g G, factory_convert SH SW e "spline" [("method", VStr "xy"); ("xvals", VArr (nd1 xs))] = Ok e' /\
      e_npdf e' = n /\ g_name (e_obj e') = "spline" /\ computes (ens_pdf e') n g /\ computes (ens_cdf e') n G /\
      forall r, (r < n)%nat ->
        (exists I, I <> 0 /\ is_RInt (splev (Ts r) (Cs r) (Ks r)) lo hi I /\ forall x, In x xs -> g r x = f r x / I) /\
        is_RInt (g r) lo hi 1 /\ is_base_integral (Ts r) (Ks r) (g r) (G r) /\
        (first_knot (Ts r) (Ks r) = lo -> last_knot (Ts r) (Ks r) = hi -> forall x, hi <= x -> G r x = 1).
  Proof using.
    intros e n f xs N Ts Cs Ks lo hi Hden Hs HI HN Hq [Hlo1 Hlo2] [Hhi1 Hhi2] HI0. cbn [concat] in *. rewrite app_nil_r in *.
    pose proof Hden as (Hpos & _). set (xr := map (fun _ : nat => xs) (seq 0 n)). set (yr := at_grid f xs n).
    assert (Lx : length xr = n) by (unfold xr; rewrite map_length, seq_length; reflexivity).
    assert (Ly : length yr = n) by (unfold yr, at_grid; rewrite map_length, seq_length; reflexivity).
    assert (Hx : forall r, (r < n)%nat -> nth r xr [] = xs).
    { intros r Hr. unfold xr. rewrite (nth_map_in _ (seq 0 n) r _ 0%nat) by (rewrite seq_length; auto). reflexivity. }
    assert (Hy : forall r, (r < n)%nat -> nth r yr [] = map (f r) xs) by (intros; apply at_grid_nth; auto).
    assert (Hin : forall v, In v (concat xr) <-> In v xs).
    { intros v. rewrite in_concat. split.
      - intros (l & Hl & Hv). unfold xr in Hl. apply in_map_iff in Hl. destruct Hl as (r & <- & _). exact Hv.
      - intros Hv. exists xs. split; [|exact Hv]. rewrite <- (Hx 0%nat Hpos). apply nth_In. lia. }
    assert (Hm : (0 < length xs)%nat) by (destruct xs; [destruct Hlo1|cbn; lia]).
    destruct (c116_xy splrep quad (length xs) N xr yr Ts Cs Ks lo hi) as (e' & g & G & E & En & Ename & Eg & EG & Er); auto.
    { intros E. rewrite E in Lx. cbn in Lx. lia. }
    { congruence. }
    { intros l Hl. unfold xr in Hl. apply in_map_iff in Hl. destruct Hl as (r & <- & _). reflexivity. }
    { intros l Hl. unfold yr, at_grid in Hl. apply in_map_iff in Hl. destruct Hl as (r & <- & _). apply map_length. }
    { rewrite Lx. intros r Hr. rewrite Hx, Hy by exact Hr. apply HI, Hr. }
    { rewrite Lx. exact HN. }
    { split; [apply Hin, Hlo1|]. intros v Hv. apply Hlo2, Hin, Hv. }
    { split; [apply Hin, Hhi1|]. intros v Hv. apply Hhi2, Hin, Hv. }
    { rewrite Lx. exact HI0. }
    rewrite Lx in *. exists e', g, G. split.
    { unfold factory_convert. rewrite SW_registry. cbn [dget String.eqb Ascii.eqb Bool.eqb method_key vget bind]. unfold method_of. rewrite SW_spline.
      change (get_val_or_default [(Some "xy", ExtractFun (T := R) extract_xy_vals); (Some "samples", ExtractFun (extract_samples rvs))] (Some "xy")) with (Some (ExtractFun (T := R) extract_xy_vals)).
      cbv iota. cbn [call_extract]. change (vremove [("method", VStr (T := R) "xy"); ("xvals", VArr (nd1 xs))] "method") with [("xvals", VArr (nd1 xs))].
      rewrite (extract_xy e n f xs Hden Hs). cbn [bind]. unfold factory_create. rewrite SW_registry. cbn [dget String.eqb Ascii.eqb Bool.eqb].
      unfold method_of. rewrite SW_spline_c. exact E. }
    split; [exact En|]. split; [exact Ename|]. split; [exact Eg|]. split; [exact EG|]. intros r Hr. destruct (Er r Hr) as ((I & HI1 & HI2 & HI3) & _ & H1 & H2 & H3).
    split; [|split; [exact H1|split; [exact H2|exact H3]]]. exists I. split; [exact HI1|]. split; [exact HI2|]. intros x Hxin. destruct (In_nth xs x 0 Hxin) as (i & Hi & <-).
    specialize (HI3 i Hi). rewrite Hx, Hy in HI3 by exact Hr. rewrite nth0_map in HI3 by exact Hi. exact HI3.
  Qed.
  (** by way of random samples and a density estimate *)
  Lemma c127_samples : forall e size w N x ss (D : nat -> R -> R) (Ts Cs : nat -> list R) (Ks : nat -> nat) lo hi,
    rvs e (match size with Some v => v | None => VNum 1000 end) VNone = Ok ss ->
    ss <> [] -> (forall l, In l ss -> length l = w) -> (forall r, (r < length ss)%nat -> kde (nth r ss []) = Ok (D r)) ->
    (forall r, (r < length ss)%nat -> interpolant splrep x (map (D r) x) (Ts r) (Cs r) (Ks r)) -> (forall r, (r < length ss)%nat -> length (Ts r) = N) ->
    quad_exact quad -> least_of lo [x] -> greatest_of hi [x] -> (forall r, (r < length ss)%nat -> RInt (splev (Ts r) (Cs r) (Ks r)) lo hi <> 0) ->
    exists e' g G, factory_convert SH SW e "spline" ([("method", VStr "samples"); ("xvals", VArr (nd1 x))] ++ match size with Some v => [("size", v)] | None => [] end) = Ok e' /\
      e_npdf e' = length ss /\ g_name (e_obj e') = "spline" /\ computes (ens_pdf e') (length ss) g /\ computes (ens_cdf e') (length ss) G /\
      forall r, (r < length ss)%nat ->
        (exists I, I <> 0 /\ is_RInt (splev (Ts r) (Cs r) (Ks r)) lo hi I /\ forall v, In v x -> g r v = D r v / I) /\
        is_RInt (g r) lo hi 1 /\ is_base_integral (Ts r) (Ks r) (g r) (G r) /\
        (first_knot (Ts r) (Ks r) = lo -> last_knot (Ts r) (Ks r) = hi -> forall v, hi <= v -> G r v = 1).
  Proof using.
    intros e size w N x ss D Ts Cs Ks lo hi Hss Hne Hw HD HI HN Hq Hlo Hhi HI0.
    assert (Hx : x <> []) by (intros ->; destruct Hlo as [[] _]).
    destruct (c117_samples splrep quad kde w N x ss D Ts Cs Ks lo hi Hx Hne Hw HD HI HN Hq Hlo Hhi HI0) as (e' & g & G & E & En & Ename & Eg & EG & Er).
    exists e', g, G. split.
    { unfold factory_convert. rewrite SW_registry. cbn [dget String.eqb Ascii.eqb Bool.eqb].
      assert (Em : method_key ([("method", VStr (T := R) "samples"); ("xvals", VArr (nd1 x))] ++ match size with Some v => [("size", v)] | None => [] end) = Ok (Some "samples")) by (destruct size; reflexivity).
      rewrite Em. cbn [bind]. unfold method_of. rewrite SW_spline.
      change (get_val_or_default [(Some "xy", ExtractFun (T := R) extract_xy_vals); (Some "samples", ExtractFun (extract_samples rvs))] (Some "samples")) with (Some (ExtractFun (T := R) (extract_samples rvs))).
      cbv iota. cbn [call_extract].
      assert (Ee : extract_samples rvs e (vremove ([("method", VStr (T := R) "samples"); ("xvals", VArr (nd1 x))] ++ match size with Some v => [("size", v)] | None => [] end) "method") =
        Ok [("samples", VArr (nd2 w ss)); ("xvals", VArr (nd1 x)); ("yvals", VNone)]).
      { assert (Hl : length (nth 0 ss []) = w) by (apply Hw, nth_In; destruct ss; [congruence|cbn; lia]).
        unfold extract_samples. replace (rvs e _ VNone) with (Ok (A := list (list R)) ss) by (rewrite <- Hss; destruct size; reflexivity).
        cbn [bind]. rewrite Hl. destruct size; reflexivity. }
      rewrite Ee. cbn [bind]. unfold factory_create. rewrite SW_registry. cbn [dget String.eqb Ascii.eqb Bool.eqb]. unfold method_of. rewrite SW_spline_c. exact E. }
    split; [exact En|]. split; [exact Ename|]. split; [exact Eg|]. split; [exact EG|]. intros r Hr. destruct (Er r Hr) as ((I & HI1 & HI2 & HI3) & _ & H1 & H2 & H3).
    split; [|split; [exact H1|split; [exact H2|exact H3]]]. exists I. split; [exact HI1|]. split; [exact HI2|]. intros v Hv. destruct (In_nth x v 0 Hv) as (i & Hi & <-). apply HI3, Hi.
  Qed.
  (** both need a grid *)
  Lemma c127_grid : forall e kw, vget (vremove kw "method") "xvals" = None ->
    (method_key kw = Ok (Some "xy") -> factory_convert SH SW e "spline" kw = Err ValueError) /\
    (method_key kw = Ok (Some "samples") -> (exists ss, forall s, rvs e s VNone = Ok ss) -> factory_convert SH SW e "spline" kw = Err KeyError).
  Proof using.
    intros e kw Hx. unfold factory_convert. rewrite SW_registry. cbn [dget String.eqb Ascii.eqb Bool.eqb].
    split; intros Hm; rewrite Hm; cbn [bind]; unfold method_of; rewrite SW_spline; unfold get_val_or_default; cbn [dget okey_eqb String.eqb Ascii.eqb Bool.eqb call_extract].
    - unfold extract_xy_vals, grid_arg. rewrite Hx. reflexivity.
    - intros (ss & Hr). unfold extract_samples. rewrite Hr. cbn [bind]. rewrite Hx. reflexivity.
  Qed.
End Qp.

(** Two logistic distributions converted on four points *)
Definition no_extractor : extractor (T := R) := fun _ _ => Err NotModelled.
Definition rvs4 (e : ens R) (size state : value R) : res (list (list R)) := Ok (map (fun _ => [1; 2]) (seq 0 (e_npdf e))).
Lemma c127_example : exists X no splrep quad kde rvs e e' f g G, densities e 2 f /\ (forall r x, (r < 2)%nat -> 0 < f r x) /\
  factory_convert (SH X no no no splrep quad kde rvs) (SW X no no no splrep quad kde rvs) e "spline" [("method", VStr "xy"); ("xvals", VArr (nd1 [0; 1; 2; 3]))] = Ok e' /\
  computes (ens_pdf e') 2 g /\ computes (ens_cdf e') 2 G /\
  forall r, (r < 2)%nat -> g r 2 * (3 / 8 * (f r 0 + 3 * f r 1 + 3 * f r 2 + f r 3)) = f r 2 /\ G r 3 = 1.
Proof.
  destruct norm1_facts as (e & f & F & Q & _ & Hf & _ & _ & Hp & _).
  set (Cs := fun r : nat => [f r 0; (-5 * f r 0 + 18 * f r 1 - 9 * f r 2 + 2 * f r 3) / 6; (2 * f r 0 - 9 * f r 1 + 18 * f r 2 - 5 * f r 3) / 6; f r 3; 0; 0; 0; 0]).
  assert (J : forall r, is_RInt (splev knots4 (Cs r) 3) 0 3 (3 / 8 * (f r 0 + 3 * f r 1 + 3 * f r 2 + f r 3))).
  { intros r. pose proof (bezier_integral 0 3 (f r 0) ((-5 * f r 0 + 18 * f r 1 - 9 * f r 2 + 2 * f r 3) / 6) ((2 * f r 0 - 9 * f r 1 + 18 * f r 2 - 5 * f r 3) / 6) (f r 3) ltac:(lra)) as J.
    match type of J with is_RInt _ _ _ ?v => replace v with (3 / 8 * (f r 0 + 3 * f r 1 + 3 * f r 2 + f r 3)) in J by field end. exact J. }
  assert (P : forall r, (r < 2)%nat -> 0 < 3 / 8 * (f r 0 + 3 * f r 1 + 3 * f r 2 + f r 3)) by (intros r Hr; pose proof (Hp r 0 Hr); pose proof (Hp r 1 Hr); pose proof (Hp r 2 Hr); pose proof (Hp r 3 Hr); lra).
  destruct (c127_xy scipy1 no_extractor no_extractor no_extractor splrep4 quadR kde4 rvs4 e 2 f [0; 1; 2; 3] 8 (fun _ => knots4) Cs (fun _ => 3%nat) 0 3)
    as (e' & g & G & E & _ & _ & Eg & EG & Er).
  - exact Hf.
  - repeat constructor; lra.
  - intros r _. apply points_interpolant; lra.
  - reflexivity.
  - apply quadR_exact.
  - split; [cbn; auto|]. intros v Hv. cbn in Hv. intuition lra.
  - split; [cbn; auto 10|]. intros v Hv. cbn in Hv. intuition lra.
  - intros r Hr. rewrite (is_RInt_unique (V := R_CompleteNormedModule) _ _ _ _ (J r)). specialize (P r Hr). lra.
  - exists scipy1, no_extractor, splrep4, quadR, kde4, rvs4, e, e', f, g, G. split; [exact Hf|]. split; [exact Hp|]. split; [exact E|]. split; [exact Eg|]. split; [exact EG|].
    intros r Hr. destruct (Er r Hr) as ((I & I0 & I1 & I2) & _ & _ & I3).
    split; [|apply I3; try reflexivity; lra].
    assert (EI : I = 3 / 8 * (f r 0 + 3 * f r 1 + 3 * f r 2 + f r 3)).
    { apply (is_RInt_unique (V := R_CompleteNormedModule)) in I1. pose proof (is_RInt_unique (V := R_CompleteNormedModule) _ _ _ _ (J r)) as J'. congruence. }
    rewrite <- EI, (I2 2) by (cbn; auto). field. exact I0.
Qed.
(** The same, by way of samples *)
Lemma c127_samples_example : exists X no splrep quad kde rvs e e' g G, e_npdf e = 2%nat /\
  factory_convert (SH X no no no splrep quad kde rvs) (SW X no no no splrep quad kde rvs) e "spline" [("method", VStr "samples"); ("xvals", VArr (nd1 [0; 1; 2; 3])); ("size", VNum 2)] = Ok e' /\
  computes (ens_pdf e') 2 g /\ computes (ens_cdf e') 2 G /\ g 1%nat 1 = 4 / 9 /\ G 1%nat 3 = 1.
Proof.
  destruct (created scipy1 _ scipy1_fill norm1_ok) as (e & _ & Hm & HD & Hsh & Hname & _).
  pose proof (rep_npdf' scipy1 _ _ e HD) as Hn. change (e_npdf e = 2%nat) in Hn.
  set (c := [0; 3; 3; 0; 0; 0; 0; 0]). set (D := fun (_ : nat) (x : R) => x * (3 - x)).
  assert (J : is_RInt (splev knots4 c 3) 0 3 (9 / 2)) by (replace (9 / 2) with ((3 - 0) * (0 + 3 + 3 + 0) / 4) by field; apply bezier_integral; lra).
  pose proof (is_RInt_unique (V := R_CompleteNormedModule) _ _ _ _ J) as J'.
  destruct (c127_samples scipy1 no_extractor no_extractor no_extractor splrep4 quadR kde4 rvs4 e (Some (VNum 2)) 2 8 [0; 1; 2; 3] [[1; 2]; [1; 2]] D (fun _ => knots4) (fun _ => c) (fun _ => 3%nat) 0 3)
    as (e' & g & G & E & _ & _ & Eg & EG & Er).
  - unfold rvs4. rewrite Hn. reflexivity.
  - discriminate.
  - intros l Hl. cbn in Hl. intuition subst; reflexivity.
  - intros r Hr. cbn [length] in Hr. do 2 (destruct r as [|r]; [reflexivity|]). lia.
  - intros r _. cbn [map]. unfold D. replace (0 * (3 - 0)) with 0 by ring. replace (3 * (3 - 3)) with 0 by ring. apply points_interpolant; lra.
  - reflexivity.
  - apply quadR_exact.
  - split; [cbn; auto|]. intros v Hv. cbn in Hv. intuition lra.
  - split; [cbn; auto 10|]. intros v Hv. cbn in Hv. intuition lra.
  - intros r _. rewrite J'. lra.
  - exists scipy1, no_extractor, splrep4, quadR, kde4, rvs4, e, e', g, G. split; [exact Hn|]. split; [exact E|]. split; [exact Eg|]. split; [exact EG|].
    destruct (Er 1%nat ltac:(cbn; lia)) as ((I0 & _ & I1 & I2) & _ & _ & I3). apply (is_RInt_unique (V := R_CompleteNormedModule)) in I1. assert (I0 = 9 / 2) as -> by congruence.
    split; [rewrite (I2 1 ltac:(cbn; auto)); unfold D; lra|]. apply I3; try reflexivity; lra.
Qed.
