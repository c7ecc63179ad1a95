(** Sparse ensembles made from non-negative coefficients: they exist, are reachable, and hold the normalised mixtures. *)
From Coq Require Import String List Arith ZArith Bool Lia Reals Lra Psatz.
From Coquelicot Require Import Coquelicot.
From Verif Require Import Num NumProofs Py NdArray NumpyLib Utils ScipyWrap Spec Values Ensemble Classes InterpPdf Packing Sparse SparseShapes Voigt
  SortProofs EvalProofs NdProofs InterpProofs IntegralProofs BinProofs HistProofs HistTheorems TableProofs InterpPdfProofs
  GridTheorems MixmodTheorems PackingTheorems PackedTheorems SparseTheorems SparseShapesTheorems
  Kinds KindProofs EnsembleProofs KindInputs ReachProofs EnsembleTheorems RowProofs IntegrateTheorems ConvertTheorems ConvertExamples.
Import ListNotations.
Local Open Scope string_scope.
Local Open Scope list_scope.
Local Open Scope R_scope.

(** ** Vocabulary *)
(** The integers of one PDF: sixteen bits of coefficient, sixteen bits of basis number. *)
Definition as_integers (code : list (Z * Z)) : list Z := map (fun cb => combine_int (fst cb) (snd cb)) code.
(** The keywords of the constructor. *)
Definition sparse_keywords (xs : list R) (mu sig : R * R) (dims : list Z) (n : nat) (codes : list (list (Z * Z))) : vdict R :=
  [("xvals", VArr (nd1 xs)); ("mu", VArr (nd1 [fst mu; snd mu])); ("sig", VArr (nd1 [fst sig; snd sig])); ("dims", VByt (nd1 dims));
   ("sparse_indices", VByt (nd2 n (map as_integers codes)))].
(** A code that the constructor can use: coefficients not negative, basis numbers of the dictionary that fit in sixteen bits. *)
Definition usable (n : nat) (nmu nsig nv : Z) (code : list (Z * Z)) : Prop :=
  length code = n /\ forall c b, In (c, b) code -> (0 <= c)%Z /\ (0 <= b < nmu * (nsig * nv))%Z /\ (b < 65536)%Z.
(** [f] goes in straight lines through the values at the points and is 0 outside. *)
Definition broken_line (xs : list R) (y : nat -> R) (f : R -> R) : Prop :=
  (forall j, (j < length xs)%nat -> f (nth0 j xs) = y j) /\
  (forall j x, (S j < length xs)%nat -> nth0 j xs <= x <= nth0 (S j) xs ->
     f x = y j + (y (S j) - y j) * ((x - nth0 j xs) / (nth0 (S j) xs - nth0 j xs))) /\
  (forall x, x < nth0 0 xs \/ nlast xs < x -> f x = 0).

(** ** The sum is a density up to normalisation *)
Lemma rsum_pos_one n f i : (forall k, (k < n)%nat -> 0 <= f k) -> (i < n)%nat -> 0 < f i -> 0 < rsum n f.
Proof.
  intros H. induction n as [|n IH]; intros Hi Hp; [lia|]. cbn [rsum]. assert (0 <= rsum n f) by (apply rsum_nonneg; intros; apply H; lia).
  assert (0 <= f n) by (apply H; lia). destruct (Nat.eq_dec i n) as [-> |E]; [lra|]. assert (0 < rsum n f) by (apply IH; auto; lia). lra.
Qed.
Section Sum.
  Variables (xs : list R) (mu sig : R * R) (nmu nsig nv : Z) (rest : list Z) (cut : R) (code : list (Z * Z)) (len : nat).
  Hypothesis Hcut : 0 < cut.
  Hypothesis Hlen : (0 < len)%nat.
  Hypothesis Hu : usable len nmu nsig nv code.
  Notation x := (fun i => nth0 i xs).
  Notation n := (length xs).
  Hypothesis Hv : visible voigtR x n cut mu sig nmu nsig nv code.
  Notation Y := (mixture voigtR R_sqrt.sqrt x n cut mu sig nmu nsig nv code).

  Lemma clip_nonneg v : 0 <= clip cut v.
  Proof using Hcut. unfold clip. destruct (Rle_dec cut v); lra. Qed.
  Lemma profile_nonneg m s g j : (exists i, (i < n)%nat /\ cut <= voigtR (x i - m) s g) -> 0 <= profile voigtR R_sqrt.sqrt x n cut m s g j.
  Proof using Hcut.
    intros (i & Hi & C). unfold profile. apply Rmult_le_pos; [apply clip_nonneg|]. left. apply Rinv_0_lt_compat, sqrt_lt_R0.
    apply (rsum_pos_one n _ i); auto.
    - intros k Hk. apply Rle_0_sqr.
    - unfold clip. destruct (Rle_dec _ _); [|lra]. apply Rmult_lt_0_compat; lra.
  Qed.
  Lemma profile_pos m s g j : (j < n)%nat -> cut <= voigtR (x j - m) s g -> 0 < profile voigtR R_sqrt.sqrt x n cut m s g j.
  Proof using Hcut.
    intros Hj C. unfold profile. assert (P : 0 < clip cut (voigtR (x j - m) s g)) by (unfold clip; destruct (Rle_dec _ _); lra).
    apply Rdiv_lt_0_compat; [exact P|]. apply sqrt_lt_R0.
    apply (rsum_pos_one n _ j); auto; [intros k Hk; apply Rle_0_sqr|apply Rmult_lt_0_compat; exact P].
  Qed.
  Lemma term_nonneg t j : (t < length code)%nat -> 0 <= (let '(c, b) := nth t code (0, 0)%Z in
      (if (t =? 0)%nat then 1 else IZR c / 32000) *
      profile voigtR R_sqrt.sqrt x n cut (grid_at mu nmu (b / (nsig * nv))) (grid_at sig nsig ((b mod (nsig * nv)) / nv)) (grid_at (0, 1 / 2) nv (b mod nv)) j).
  Proof using Hcut Hu Hv.
    intros Ht. pose proof (nth_In code (0, 0)%Z Ht) as Hin. destruct (nth t code (0, 0)%Z) as (c, b).
    destruct (proj2 Hu c b Hin) as (C & _). apply Rmult_le_pos; [|apply profile_nonneg; apply (Hv c b Hin)].
    destruct (t =? 0)%nat; [lra|]. apply IZR_le in C. lra.
  Qed.
  Lemma sum_packable : (forall j, 0 <= Y j) /\ exists j, (j < n)%nat /\ 0 < Y j.
  Proof using Hcut Hlen Hu Hv.
    split.
    - intros j. unfold mixture. apply rsum_nonneg. intros t Ht. apply (term_nonneg t j Ht).
    - destruct code as [|(c, b) rest'] eqn:E; [destruct Hu as [L _]; simpl in L; lia|]. rewrite <- E in *.
      assert (Hin : In (c, b) code) by (rewrite E; left; reflexivity). destruct (Hv c b Hin) as (j & Hj & C).
      exists j. split; [exact Hj|]. unfold mixture. apply (rsum_pos_one (length code) _ 0%nat).
      + intros t Ht. apply (term_nonneg t j Ht).
      + rewrite E. simpl. lia.
      + rewrite E at 1. cbn [nth Nat.eqb]. rewrite Rmult_1_l. apply profile_pos; auto.
  Qed.
End Sum.

Section Made.
  Variables (X : scipy) (xs : list R) (mu sig : R * R) (nmu nsig nv : Z) (rest : list Z) (n : nat) (codes : list (list (Z * Z))).
  Notation dims := (nmu :: nsig :: nv :: rest).
  Notation cut := (/ 100000).
  Notation Y := (mixture voigtR R_sqrt.sqrt (fun i => nth0 i xs) (length xs) cut mu sig nmu nsig nv).
  Hypothesis HX : fill_outside X.
  Hypothesis Hs : increasing xs.
  Hypothesis Hx : (2 <= length xs)%nat.
  Hypothesis Hn : (0 < n)%nat.
  Hypothesis Hr : (2 <= length rest)%nat.
  Hypothesis Hd : List.Forall (Z.le 0) dims.
  Hypothesis Hne : codes <> [].
  Hypothesis Hu : forall code, In code codes -> usable n nmu nsig nv code.
  Hypothesis Hv : forall code, In code codes -> visible voigtR (fun i => nth0 i xs) (length xs) cut mu sig nmu nsig nv code.

  Lemma cut_frac : nfrac (T := R) 1 100000 = cut.
  Proof using. unfold nfrac. cbn [ndiv nofZ RNum]. lra. Qed.
  Lemma cut_pos : 0 < cut.
  Proof using. lra. Qed.
  Lemma dims_pos code : In code codes -> (0 < nmu /\ 0 < nsig /\ 0 < nv)%Z.
  Proof using All.
    clear Hx Hr. intros Hin. destruct (Hu code Hin) as [L B]. destruct code as [|(c, b) code]; [simpl in L; lia|].
    destruct (B c b (or_introl eq_refl)) as (_ & B1 & _).
    inversion Hd as [|a l D1 Hd1 E1]. inversion Hd1 as [|a2 l2 D2 Hd2 E2]. inversion Hd2 as [|a3 l3 D3 Hd3 E3]. subst. nia.
  Qed.
  Lemma decoded code : In code codes -> decode_sparse (T := R) (as_integers code) = (map (fun p => Z.to_nat (snd p)) code, decode_weights 32001 (map fst code)).
  Proof using All.
    intros Hin. unfold decode_sparse, as_integers. rewrite decode_code; [reflexivity|]. intros c b H. destruct (proj2 (Hu code Hin) c b H). lia.
  Qed.
  Lemma sum_is code : In code codes -> sparse_sum xs mu sig dims (as_integers code) = map (Y code) (seq 0 (length xs)).
  Proof using All.
    intros Hin. unfold sparse_sum. rewrite decoded by auto. cbn [fst snd nth]. rewrite cut_frac. apply map_ext_in. intros j Hj. apply in_seq in Hj.
    destruct (dims_pos code Hin) as (D1 & D2 & D3).
    apply (coded_mixture voigtR R_sqrt.sqrt cut (mkmeta xs false mu sig (nmu :: nsig :: nv :: 32001 :: rest)%Z) nmu nsig nv D2 D3); [cbn [m_x]; lia| |lia].
    intros c b H. apply (proj2 (Hu code Hin) c b H).
  Qed.
  Lemma line_ok code : In code codes -> sparse_line_ok xs mu sig dims (as_integers code).
  Proof using All.
    intros Hin. destruct (dims_pos code Hin) as (D1 & D2 & D3). split; [|split].
    - rewrite decoded by auto. cbn [fst]. intros b Hb. apply in_map_iff in Hb. destruct Hb as ((c, b') & <- & Hb). cbn [snd].
      destruct (proj2 (Hu code Hin) c b' Hb) as (_ & B & _). rewrite Z2Nat.id by lia. cbn [nth]. lia.
    - rewrite sum_is by auto. destruct (sum_packable xs mu sig nmu nsig nv cut code n cut_pos Hn (Hu code Hin) (Hv code Hin)) as (P & j & Hj & Q).
      unfold packable. rewrite map_length, seq_length.
      assert (E : forall i, (i < length xs)%nat -> nth0 i (map (Y code) (seq 0 (length xs))) = Y code i).
      { intros i Hi. rewrite (nth0_map' _ _ 0%nat) by (rewrite seq_length; auto). rewrite seq_nth by auto. reflexivity. }
      split; [intros i Hi; rewrite E by auto; apply P|]. exists j. split; [exact Hj|]. rewrite E by auto. exact Q.
    - rewrite decoded by auto. cbn [fst]. intros b Hb. apply in_map_iff in Hb. destruct Hb as ((c, b') & <- & Hb). cbn [snd nth]. rewrite cut_frac.
      eapply (visible_shown voigtR cut (mkmeta xs false mu sig (nmu :: nsig :: nv :: 32001 :: rest)%Z) nmu nsig nv D2 D3 code); [|lia|exact (Hv code Hin)|exact Hb].
      intros c' b'' H'. apply (proj2 (Hu code Hin) c' b'' H').
  Qed.
  Lemma input_fine : input_ok (ISparse xs mu sig dims n (map as_integers codes)).
  Proof using All.
    split; [auto|]. split; [auto|]. split; [auto|]. split; [simpl; lia|]. split; [auto|]. split; [intros E; apply map_eq_nil in E; auto|].
    intros line Hl. apply in_map_iff in Hl. destruct Hl as (code & <- & Hin). split; [unfold as_integers; rewrite map_length; apply Hu, Hin|apply line_ok, Hin].
  Qed.

  Lemma c140_made : normal_laws (s_phi X) (s_Phi X) ->
    exists e f F, qp_create (qp X) "sparse" (sparse_keywords xs mu sig dims n codes) = Ok e /\
      made X [MPdf; MCdf; MPpf] e /\ e_npdf e = length codes /\ g_name (e_obj e) = "sparse" /\
      computes (ens_pdf e) (length codes) f /\ computes (ens_cdf e) (length codes) F /\
      forall r, (r < length codes)%nat -> distribution (f r) (F r) /\
        let A := area_under (fun i => nth0 i xs) (length xs) (Y (nth r codes [])) in
        0 < A /\ broken_line xs (fun j => Y (nth r codes []) j / A) (f r) /\ is_RInt (f r) (nth0 0 xs) (nlast xs) 1.
  Proof using All.
    intros HN. destruct (created X _ HX input_fine) as (e & Ee & Hm & HD & _ & Hname & Ec). cbn [input_name input_dict input_methods input_kind] in *.
    assert (Hpc : proper_class e) by (unfold proper_class; rewrite Hname; split; discriminate).
    destruct (c81_proper X _ e HX HN Hm Hpc) as (f & F & Hf & HF & Hdist).
    pose proof (rep_npdf' _ _ _ _ HD) as HL. cbn [input_rows] in HL. rewrite !map_length in HL. rewrite HL in *.
    destruct (rep_densities X _ _ e HD ltac:(discriminate)) as (_ & _ & Hg & _). cbn [input_rows] in Hg. rewrite !map_length in Hg.
    pose proof (evaluates_unique _ _ _ _ (proj1 Hf) Hg) as E.
    exists e, f, F. split.
    { unfold qp_create. unfold create_of in Ee. destruct (qp X "sparse") as [c|]; [exact Ee|discriminate]. }
    split; [exact Hm|]. split; [exact HL|]. split; [exact Hname|]. split; [exact Hf|]. split; [exact HF|].
    intros r Hr'. split; [exact (Hdist r Hr')|]. cbv zeta. set (code := nth r codes []). assert (Hin : In code codes) by (apply nth_In; exact Hr').
    set (A := area_under (fun i => nth0 i xs) (length xs) (Y code)).
    destruct (sum_packable xs mu sig nmu nsig nv cut code n cut_pos Hn (Hu code Hin) (Hv code Hin)) as (P & j0 & Hj0 & Q).
    assert (HA : 0 < A) by (apply area_under_pos; auto; exists j0; auto). split; [exact HA|].
    assert (HI : interp_input xs [sparse_values xs mu sig dims (as_integers code)]) by (apply sparse_input; auto; apply line_ok; auto).
    assert (EV : forall j, (j < length xs)%nat -> nth0 j (sparse_values xs mu sig dims (as_integers code)) = Y code j / A).
    { intros j Hj. unfold sparse_values. rewrite sum_is by auto. rewrite (nth0_map' _ _ 0) by (rewrite map_length, seq_length; auto).
      rewrite trapezoid_area by (rewrite map_length, seq_length; auto).
      change (nth j ?l 0) with (nth0 j l). rewrite (nth0_map' _ _ 0%nat) by (rewrite seq_length; auto). rewrite seq_nth by auto. f_equal.
      unfold A, area, area_under. apply rsum_ext. intros i Hi. unfold trap. rewrite !(nth0_map' _ _ 0%nat) by (rewrite seq_length; lia).
      rewrite !seq_nth by lia. reflexivity. }
    assert (EA : area xs (sparse_values xs mu sig dims (as_integers code)) = 1).
    { transitivity (area_under (fun i => nth0 i xs) (length xs) (fun j => / A * Y code j)).
      - unfold area, area_under. apply rsum_ext. intros i Hi. unfold trap. rewrite !EV by lia. unfold Rdiv. field. lra.
      - rewrite area_under_scale. fold A. field. lra. }
    set (ys := sparse_values xs mu sig dims (as_integers code)) in *.
    assert (EN : forall j, (j < length xs)%nat -> nth0 j (inorm xs ys) = Y code j / A).
    { intros j Hj. pose proof (inorm_nth xs [ys] HI 0 ltac:(cbn; lia) j) as I. unfold irow in I. cbn [nth] in I. rewrite I, EA, EV by auto. field. lra. }
    assert (Ef : forall x, f r x = interp1d xs (inorm xs ys) 0 0 x).
    { intros x. rewrite (E r x Hr'). unfold pdf_of. rewrite (nth_map_in _ _ r _ []) by (rewrite map_length; exact Hr').
      rewrite (nth_map_in _ codes r _ []) by exact Hr'. reflexivity. }
    assert (BL : broken_line xs (fun j => Y code j / A) (f r)).
    { split; [|split].
      - intros j Hj. rewrite Ef, interp1d_knot by auto. apply EN. exact Hj.
      - intros j x Hj Hxj. pose proof (inc_lt xs j (S j) Hs ltac:(lia)) as Hlt.
        destruct (Req_dec x (nth0 (S j) xs)) as [-> |Nx].
        + rewrite Ef, interp1d_knot by auto. rewrite EN by auto. field. split; [lra|]. lra.
        + rewrite Ef, (interp1d_seg xs _ 0 0 x j); [|apply inc_nd; exact Hs|exact Hj|lra]. rewrite !EN by lia. unfold seg. field. split; lra.
      - intros x [Hxl|Hxh]; rewrite Ef; [apply interp1d_below; auto|]. apply interp1d_above; auto.
        rewrite nlast_nth0. apply Rlt_le, inc_lt; auto. lia. }
    split; [exact BL|].
    assert (Lin : forall j x, (S j < length xs)%nat -> nth0 j xs <= x <= nth0 (S j) xs ->
       f r x * (nth0 (S j) xs - nth0 j xs) = f r (nth0 j xs) * (nth0 (S j) xs - x) + f r (nth0 (S j) xs) * (x - nth0 j xs)).
    { destruct BL as (B1 & B2 & _). intros j x Hj Hxj. rewrite (B2 j x Hj Hxj), !B1 by lia. pose proof (inc_lt xs j (S j) Hs ltac:(lia)). field. lra. }
    pose proof (linear_integral (f r) xs Hs Hx Lin) as I.
    assert (E1 : area_under (fun i => nth0 i xs) (length xs) (fun i => f r (nth0 i xs)) = 1).
    { rewrite (area_under_ext _ _ _ (fun j => / A * Y code j)) by (intros j Hj; rewrite (proj1 BL j Hj); unfold Rdiv; ring).
      rewrite area_under_scale. fold A. field. lra. }
    rewrite E1 in I. exact I.
  Qed.
End Made.

(** ** Calls that fail *)
Lemma c140_errors : forall (X : scipy) xs (mu sig : R * R) dims n codes,
  (forall code, In code codes -> length code = n) -> (0 < n)%nat -> codes <> [] ->
  let made_from d := qp_create (qp X) "sparse" d in
  let d := sparse_keywords xs mu sig dims n codes in
  (* too few dimensions, or negative ones *)
  ((length dims < 3)%nat -> made_from d = Err IndexError) /\
  (forall nmu nsig nv rest, dims = (nmu :: nsig :: nv :: rest)%Z -> (nmu < 0 \/ nsig < 0 \/ nv < 0)%Z -> made_from d = Err ValueError) /\
  (* a basis number outside the dictionary *)
  (forall nmu nsig nv rest code c b, dims = (nmu :: nsig :: nv :: rest)%Z -> (0 <= nmu)%Z -> (0 <= nsig)%Z -> (0 <= nv)%Z ->
     In code codes -> In (c, b) code -> (nmu * (nsig * nv) <= b < 65536)%Z -> made_from d = Err IndexError) /\
  (* a keyword left out *)
  (forall k, In k (map fst d) -> made_from (filter (fun kv => negb (String.eqb (fst kv) k)) d) = Err TypeError).
Proof.
  intros X xs mu sig dims n codes Hl Hn Hne. cbv zeta. unfold qp_create. change (qp X "sparse") with (Some (sparse_create voigtR R_sqrt.sqrt)). cbv iota beta.
  assert (ER : rows_of (nd2 n (map as_integers codes)) = map as_integers codes).
  { apply rows_of_nd2. intros l H. apply in_map_iff in H. destruct H as (c & <- & H). unfold as_integers. rewrite map_length. auto. }
  unfold ens_new.
  assert (EC : sparse_create voigtR R_sqrt.sqrt (sparse_keywords xs mu sig dims n codes) =
     match dims with
     | nmu :: nsig :: nv :: _ =>
       if (nmu <? 0)%Z || (nsig <? 0)%Z || (nv <? 0)%Z then Err ValueError else
       let* i := sparse_ctor voigtR R_sqrt.sqrt xs mu sig (Z.to_nat nmu) (Z.to_nat nsig) (Z.to_nat nv) (nfrac 1 100000) (map as_integers codes) in
       Ok (sparse_obj i xs (VArr (nd1 [fst mu; snd mu])) (VArr (nd1 [fst sig; snd sig])) (VByt (nd1 dims)) (VByt (nd2 n (map as_integers codes))))
     | _ => Err IndexError
     end).
  { unfold sparse_create, sparse_keywords.
    cbn [arg vget dget String.eqb Ascii.eqb Bool.eqb bind known forallb keys map fst snd existsb orb andb negb opt_arg as_scalar as_grid as_pair as_bytes nd1 shp dat length Nat.eqb].
    destruct dims as [|a [|b [|c dims]]]; try reflexivity. destruct (_ || _)%bool; [reflexivity|].
    assert (SH : exists m k, shp (nd2 n (map as_integers codes)) = [S m; S k]).
    { cbn [nd2 shp]. rewrite map_length. destruct codes as [|c0 cs]; [congruence|]. destruct n as [|n']; [lia|]. exists (length cs), n'. reflexivity. }
    destruct SH as (m & k & SH). rewrite SH. rewrite ER. rewrite <- surjective_pairing. rewrite <- surjective_pairing. reflexivity. }
  split; [|split; [|split]].
  - intros H3. rewrite EC. destruct dims as [|a [|b [|c dims]]]; try reflexivity. simpl in H3. lia.
  - intros nmu nsig nv rest -> H. rewrite EC. assert (E : ((nmu <? 0) || (nsig <? 0) || (nv <? 0))%Z%bool = true).
    { destruct (Z.ltb_spec nmu 0); [reflexivity|]. destruct (Z.ltb_spec nsig 0); [reflexivity|]. destruct (Z.ltb_spec nv 0); [reflexivity|]. lia. }
    rewrite E. reflexivity.
  - intros nmu nsig nv rest code c b -> B1 B2 B3 Hin Hb HB. rewrite EC.
    assert (E : ((nmu <? 0) || (nsig <? 0) || (nv <? 0))%Z%bool = false).
    { destruct (Z.ltb_spec nmu 0); [lia|]. destruct (Z.ltb_spec nsig 0); [lia|]. destruct (Z.ltb_spec nv 0); [lia|]. reflexivity. }
    rewrite E. unfold sparse_ctor.
    match goal with |- context [mapM ?f (map as_integers codes)] => assert (EM : mapM f (map as_integers codes) = Err IndexError) end; [|rewrite EM; reflexivity].
    assert (Hbad : existsb (fun i => (length (create_voigt_basis voigtR R_sqrt.sqrt xs mu (Z.to_nat nmu) sig (Z.to_nat nsig) (Z.to_nat nv) (nfrac 1 100000)) <=? i)%nat)
                     (fst (decode_sparse (T := R) (as_integers code))) = true).
    { apply existsb_exists. exists (Z.to_nat b). split.
      - unfold decode_sparse. cbn [fst]. apply in_map_iff. exists (c, b). split; [reflexivity|].
        apply in_map_iff. exists (combine_int c b). split; [apply c18_partial; nia|]. apply in_map_iff. exists (c, b). auto.
      - apply Nat.leb_le. unfold create_voigt_basis. rewrite map_length, params_length. nia. }
    assert (HI : In (as_integers code) (map as_integers codes)) by (apply in_map; exact Hin). clear - Hbad HI.
    induction (map as_integers codes) as [|l ls IH]; [destruct HI|]. cbn [mapM]. destruct HI as [-> |HI].
    + destruct (decode_sparse (as_integers code)) as [ix vals]. unfold weighted_sum at 1. cbn [fst] in Hbad. rewrite Hbad. reflexivity.
    + destruct (decode_sparse l) as [ix vals]. unfold weighted_sum at 1. destruct (existsb _ ix); [reflexivity|]. cbn [bind].
      rewrite (IH HI). reflexivity.
  - intros k Hk. unfold sparse_keywords in *. cbn [map fst] in Hk.
    destruct Hk as [<-|[<-|[<-|[<-|[<-|[]]]]]]; reflexivity.
Qed.

(** ** Example: one normal profile on three points *)
Lemma c140_example : exists X xs mu sig rest (codes : list (list (Z * Z))),
  fill_outside X /\ normal_laws (s_phi X) (s_Phi X) /\ increasing xs /\ (2 <= length xs)%nat /\ (2 <= length rest)%nat /\ List.Forall (Z.le 0) (1 :: 1 :: 1 :: rest)%Z /\
  length codes = 2%nat /\ forall code, In code codes -> usable 2 1 1 1 code /\ visible voigtR (fun i => nth0 i xs) (length xs) (/ 100000) mu sig 1 1 1 code.
Proof.
  exists scipy1, [0; 1; 3], (0, 1), (1, 2), [32001; 2]%Z, [[(32000, 0); (0, 0)]; [(5, 0); (16000, 0)]]%Z.
  split; [apply scipy1_fill|]. split; [exact logistic_laws|]. split; [repeat constructor; lra|]. split; [simpl; lia|]. split; [simpl; lia|].
  split; [repeat constructor; lia|]. split; [reflexivity|].
  assert (HV : / 100000 <= voigtR (nth0 0 [0; 1; 3] - grid_at (0, 1) 1 0) (grid_at (1, 2) 1 0) (grid_at (0, 1 / 2) 1 0)).
  { assert (E : forall p, grid_at p 1 0 = fst p) by (intros p; unfold grid_at; rewrite Rmult_0_l; ring). rewrite !E. unfold nth0. cbn [fst nth].
    unfold voigtR. destruct (Req_EM_T 1 0) as [C|_]; [lra|]. destruct (Req_EM_T 0 0) as [_|C]; [|lra].
    unfold normal_density. replace (- ((0 - 0) / 1) ^ 2 / 2) with 0 by (simpl; field). rewrite exp_0, Rmult_1_l.
    unfold Rdiv. rewrite Rmult_1_l. pose proof PI_RGT_0. pose proof PI_4.
    assert (H1 : R_sqrt.sqrt (2 * PI) <= 3) by (rewrite <- (sqrt_square 3) by lra; apply sqrt_le_1; lra).
    assert (H2 : 0 < R_sqrt.sqrt (2 * PI)) by (apply sqrt_lt_R0; lra).
    apply Rinv_le_contravar; lra. }
  intros code [<-|[<-|[]]]; (split; [split; [reflexivity|intros c b [E|[E|[]]]; injection E as <- <-; lia]|
    intros c b [E|[E|[]]]; injection E as <- <-; exists 0%nat; (split; [simpl; lia|exact HV])]).
Qed.
