(** Reconstruction of sparse PDFs from shapes: agreement with the dictionary, value, relation to the ensemble. *)
From Coq Require Import List Arith ZArith Bool Lia Reals Lra Psatz.
From Coquelicot Require Import Coquelicot.
From Verif Require Import Num NumProofs Py NdArray NumpyLib Utils ScipyWrap Spec InterpPdf Packing Sparse SparseShapes
  SortProofs EvalProofs NdProofs InterpProofs IntegralProofs BinProofs HistProofs HistTheorems TableProofs InterpPdfProofs
  GridTheorems MixmodTheorems PackingTheorems PackedTheorems SparseTheorems.
Import ListNotations.
Local Open Scope R_scope.

(** ** Vocabulary *)
(** What is below the cut counts as 0. *)
Definition clip (cut v : R) : R := if Rle_dec cut v then v else 0.
(** Point [k] of [n] equally spaced ones between two ends. *)
Definition grid_at (ends : R * R) (n k : Z) : R := fst ends + IZR k * ((snd ends - fst ends) / IZR (n - 1)).
Section Spec.
  Variables (voigt : R -> R -> R -> R) (sqrt : R -> R).
  Variable x : nat -> R.          (* the grid *)
  Variable n : nat.
  Variable cut : R.
  (** A Voigt profile on the grid, cut and divided by its Euclidean norm. *)
  Definition profile (mean sigma gamma : R) (j : nat) : R :=
    let v i := clip cut (voigt (x i - mean) sigma gamma) in
    v j / sqrt (rsum n (fun i => v i * v i)).
  (** The function coded by pairs (coefficient, number of the basis function): the first weight is 1,
      the others are multiples of 1/32000. *)
  Definition mixture (mu sig : R * R) (nmu nsig nv : Z) (code : list (Z * Z)) (j : nat) : R :=
    rsum (length code) (fun t =>
      let '(c, b) := nth t code (0, 0)%Z in
      (if (t =? 0)%nat then 1 else IZR c / 32000) *
      profile (grid_at mu nmu (b / (nsig * nv))) (grid_at sig nsig ((b mod (nsig * nv)) / nv)) (grid_at (0, 1 / 2) nv (b mod nv)) j).
  (** No function named by the code is below the cut on the whole grid.  (Otherwise the code divides 0 by 0 and gets nan.) *)
  Definition visible (mu sig : R * R) (nmu nsig nv : Z) (code : list (Z * Z)) : Prop :=
    forall c b, In (c, b) code -> exists j, (j < n)%nat /\
      cut <= voigt (x j - grid_at mu nmu (b / (nsig * nv))) (grid_at sig nsig ((b mod (nsig * nv)) / nv)) (grid_at (0, 1 / 2) nv (b mod nv)).
  (** Area under the straight lines through the points. *)
  Definition area_under (y : nat -> R) : R := rsum (pred n) (fun j => (x (S j) - x j) * (y j + y (S j)) / 2).
End Spec.

(** ** The loop of [shapes2pdf] *)
Lemma list_ext (l l' : list R) : length l = length l' -> (forall i, (i < length l)%nat -> nth0 i l = nth0 i l') -> l = l'.
Proof. intros L H. apply (nth_ext _ _ 0 0 L). exact H. Qed.
Section Loop.
  Variables (voigt : R -> R -> R -> R) (sqrt : R -> R) (cut : R) (xs : list R).
  Notation A1 p := (basis_column voigt sqrt cut xs p).
  Lemma column_length p : length (A1 p) = length xs.
  Proof. destruct p as [[m s] g]. unfold basis_column. rewrite !map_length. auto. Qed.
  Lemma add_shape_eq acc w m s g : length acc = length xs ->
    add_shape voigt sqrt cut xs acc (w, m, s, g) = map (fun j => nth0 j acc + nth0 j (A1 (m, s, g)) * w) (seq 0 (length xs)).
  Proof.
    intros Ha. apply list_ext.
    - unfold add_shape. rewrite map_length, seq_length, map2_len' by (rewrite !map_length; auto). auto.
    - intros j Hj. unfold add_shape in *. rewrite map2_len' in Hj by (rewrite !map_length; auto).
      rewrite nth0_map2 by (rewrite ?map_length; lia). rewrite (nth0_map' _ _ 0%nat) by (rewrite seq_length; lia).
      rewrite seq_nth by lia. simpl (0 + j)%nat. unfold basis_column. rewrite !map_map.
      rewrite !(nth0_map' _ _ 0) by lia. numR. unfold Rdiv. ring.
  Qed.
  Lemma fold_shapes ps : forall acc, length acc = length xs ->
    fold_left (add_shape voigt sqrt cut xs) ps acc =
    map (fun j => nth0 j acc + nsum (map (fun p => let '(w, m, s, g) := p in nth0 j (A1 (m, s, g)) * w) ps)) (seq 0 (length xs)).
  Proof.
    induction ps as [|[[[w m] s] g] ps IH]; intros acc Ha; cbn [fold_left].
    - apply list_ext; [rewrite map_length, seq_length; auto|]. intros j Hj.
      rewrite (nth0_map' _ _ 0%nat) by (rewrite seq_length; lia). rewrite seq_nth by lia. cbn [map]. rewrite nsum_nil. simpl (0 + j)%nat. ring.
    - rewrite add_shape_eq by auto. rewrite IH by (rewrite map_length, seq_length; auto).
      apply map_ext_in. intros j Hj. apply in_seq in Hj. rewrite (nth0_map' _ _ 0%nat) by (rewrite seq_length; lia).
      rewrite seq_nth by lia. simpl (0 + j)%nat. cbn [map]. rewrite nsum_cons. ring.
  Qed.
End Loop.

(** ** The two reconstructions *)
Lemma combine_maps {A B C D E} (f : A -> B) (g : A -> C) (h : A -> D) (w : list E) (l : list A) : length w = length l ->
  combine (combine (combine w (map f l)) (map g l)) (map h l) = map2 (fun w a => (w, f a, g a, h a)) w l.
Proof. revert l. induction w; intros [|a' l] H; simpl in *; try lia; auto. f_equal. apply IHw. lia. Qed.
Lemma get_N_nonneg i : (0 <= snd (get_N i))%Z.
Proof. unfold get_N. cbn [snd]. rewrite land_mask. apply Z.mod_pos_bound. reflexivity. Qed.
Lemma existsb_ext_in {A} (f g : A -> bool) l : (forall a, In a l -> f a = g a) -> existsb f l = existsb g l.
Proof. induction l; intros H; simpl; auto. rewrite (H a) by (left; auto). f_equal. apply IHl. intros; apply H; right; auto. Qed.
Lemma map_map2 {A B C D} (f : C -> D) (g : A -> B -> C) l1 l2 : map f (map2 g l1 l2) = map2 (fun a b => f (g a b)) l1 l2.
Proof. revert l2. induction l1; intros [|b l2]; simpl; auto. f_equal. auto. Qed.
Lemma map2_map_l {A B C D} (f : C -> B -> D) (g : A -> C) l1 l2 : map2 f (map g l1) l2 = map2 (fun a b => f (g a) b) l1 l2.
Proof. revert l2. induction l1; intros [|b l2]; simpl; auto. f_equal. auto. Qed.
Lemma map2_swap {A B C} (f : A -> B -> C) l1 l2 : map2 f l1 l2 = map2 (fun b a => f a b) l2 l1.
Proof. revert l2. induction l1; intros [|b l2]; simpl; auto. f_equal. auto. Qed.
Lemma map2_ext_l {A B C} (f g : A -> B -> C) l1 l2 : (forall a b, In a l1 -> f a b = g a b) -> map2 f l1 l2 = map2 g l1 l2.
Proof. revert l2. induction l1; intros [|b l2] H; simpl; auto. f_equal; [apply H; left; auto|]. apply IHl1. intros; apply H; right; auto. Qed.

Section Agree.
  Variables (voigt : R -> R -> R -> R) (sqrt : R -> R) (cut : R) (m : sparse_meta R).

  Lemma c139_agree : forall nmu nsig nv rest inds,
    m_x_int m = false -> m_dims m = (nmu :: nsig :: nv :: 32001 :: rest)%Z -> (nsig * nv <> 0)%Z ->
    through_shapes voigt sqrt m cut inds = through_basis voigt sqrt m cut inds.
  Proof using.
    intros nmu nsig nv rest inds Hi Hd H0. unfold through_shapes, through_basis, indices2shapes_meta, create_basis.
    rewrite Hd.
    destruct ((nmu <? 0) || (nsig <? 0) || (nv <? 0))%Z eqn:E1; [reflexivity|].
    assert (HB : (0 <= nmu /\ 0 < nsig /\ 0 < nv)%Z).
    { apply orb_false_elim in E1. destruct E1 as (E1 & E2). apply orb_false_elim in E1. destruct E1 as (E1 & E3).
      apply Z.ltb_ge in E1, E2, E3. nia. }
    destruct HB as (B1 & B2 & B3). clear E1.
    change (32001 =? 1)%Z with false. cbn [orb].
    destruct (nsig * nv =? 0)%Z eqn:E2; [apply Z.eqb_eq in E2; contradiction|]. clear E2.
    cbn [bind]. destruct (length inds =? 0)%nat eqn:E3; [reflexivity|]. apply Nat.eqb_neq in E3.
    set (A := create_voigt_basis _ _ _ _ _ _ _ _ _).
    assert (LA : length A = (Z.to_nat nmu * (Z.to_nat nsig * Z.to_nat nv))%nat) by (unfold A, create_voigt_basis; rewrite map_length; apply params_length).
    assert (Hlt : forall i, (nmu <=? snd (get_N i) / (nsig * nv))%Z = (length A <=? Z.to_nat (snd (get_N i)))%nat).
    { intros i. pose proof (get_N_nonneg i) as Hp. set (b := snd (get_N i)) in *. rewrite LA.
      destruct (Z.leb_spec nmu (b / (nsig * nv))) as [L|L]; symmetry.
      - apply Nat.leb_le. assert (nmu * (nsig * nv) <= b)%Z by (pose proof (Z.mul_div_le b (nsig * nv)); nia). nia.
      - apply Nat.leb_gt. assert (b < nmu * (nsig * nv))%Z.
        { pose proof (Z.div_mod b (nsig * nv)). pose proof (Z.mod_pos_bound b (nsig * nv)). nia. } nia. }
    unfold pdf_from_sparse, decode_sparse, weighted_sum.
    assert (EE : existsb (fun i => (nmu <=? snd (get_N i) / (nsig * nv))%Z) inds =
                 existsb (fun i => (length A <=? i)%nat) (map (fun p : Z * Z => Z.to_nat (snd p)) (map get_N inds))).
    { clear E3. induction inds as [|i inds IH]; cbn [existsb map]; auto. rewrite Hlt, IH. reflexivity. }
    rewrite <- EE. destruct (existsb _ inds) eqn:E4; [reflexivity|]. cbn [bind].
    assert (Hb : forall p, In p (map get_N inds) -> (Z.to_nat (snd p) < Z.to_nat nmu * (Z.to_nat nsig * Z.to_nat nv))%nat).
    { intros p Hp. rewrite <- LA. destruct (le_lt_dec (length A) (Z.to_nat (snd p))) as [L|L]; auto. exfalso.
      assert (existsb (fun i => (length A <=? i)%nat) (map (fun p : Z * Z => Z.to_nat (snd p)) (map get_N inds)) = true); [|congruence].
      apply existsb_exists. exists (Z.to_nat (snd p)). split; [apply in_map_iff; eauto|apply Nat.leb_le; auto]. }
    unfold indices2shapes, shapes2pdf. rewrite Hi. cbn [andb bind].
    set (w := decode_weights 32001 (map fst (map get_N inds))).
    set (sh := map _ (map get_N inds)).
    assert (Lw : length w = length sh) by (unfold w, sh; rewrite decode_length, !map_length; auto).
    rewrite (combine_maps _ _ _ w sh Lw).
    rewrite fold_shapes by (rewrite map_length; auto).
    match goal with |- Ok (map _ (map _ ?u)) = Ok (map _ (map _ ?v)) => assert (EU : u = v) end.
    { apply map_ext_in. intros j Hj. apply in_seq in Hj. rewrite (nth0_map' _ _ 0) by lia. numR. rewrite Rplus_0_l.
      f_equal. rewrite map_map2, map2_swap. unfold sh. rewrite !map2_map_l. apply map2_ext_l. intros i v Hin.
      rewrite <- surjective_pairing, <- surjective_pairing. f_equal. f_equal. unfold A, create_voigt_basis.
      assert (Hbi : (Z.to_nat (snd (get_N i)) < Z.to_nat nmu * (Z.to_nat nsig * Z.to_nat nv))%nat) by (apply Hb, in_map; auto).
      rewrite (nth_map' _ _ (0, 0, 0)) by (rewrite params_length; auto). rewrite params_nth by auto. reflexivity. }
    rewrite EU. reflexivity.
  Qed.
End Agree.

(** ** The value *)
Lemma linspace_at (a b : R) n k : (0 <= k < n)%Z -> nth0 (Z.to_nat k) (np_linspace a b (Z.to_nat n)) = grid_at (a, b) n k.
Proof.
  intros Hk. unfold grid_at. cbn [fst snd]. destruct (Z.to_nat n) as [|[|p]] eqn:E; [lia| |].
  - assert (n = 1%Z) by lia. assert (k = 0%Z) by lia. subst. cbn. ring.
  - rewrite linspace_nth by lia. rewrite !INR_IZR_INZ, Z2Nat.id by lia. f_equal. f_equal. f_equal. f_equal. lia.
Qed.
Lemma clip_eq cut v : (if (cut <=? v)%num then v else n0) = clip cut v.
Proof. unfold clip. simpl. unfold Rleb. destruct (Rle_dec cut v); auto. Qed.
Lemma clip_eqR cut v : (if Rleb cut v then v else 0) = clip cut v.
Proof. unfold clip, Rleb. destruct (Rle_dec cut v); auto. Qed.
Lemma column_profile voigt sqrt cut xs mm s g j : (j < length xs)%nat ->
  nth0 j (basis_column voigt sqrt cut xs (mm, s, g)) = profile voigt sqrt (fun i => nth0 i xs) (length xs) cut mm s g j.
Proof.
  intros Hj. unfold basis_column, profile. rewrite nth0_map by (rewrite map_length; auto).
  rewrite (nth0_map' _ _ 0) by auto. rewrite clip_eq. numR. unfold norm, dot. f_equal. f_equal.
  rewrite nsum_map2_rsum by auto. rewrite map_length. apply rsum_ext. intros i Hi. rewrite !(nth0_map' _ _ 0) by auto.
  rewrite clip_eq. reflexivity.
Qed.

Section Value.
  Variables (voigt : R -> R -> R -> R) (sqrt : R -> R) (cut : R) (m : sparse_meta R).
  Notation x := (fun i => nth0 i (m_x m)).
  Notation n := (length (m_x m)).
  Variables (nmu nsig nv : Z) (rest : list Z).
  Hypothesis Hi : m_x_int m = false.
  Hypothesis Hd : m_dims m = (nmu :: nsig :: nv :: 32001 :: rest)%Z.
  Hypothesis H1 : (0 < nsig)%Z.
  Hypothesis H2 : (0 < nv)%Z.
  Notation Y := (mixture voigt sqrt x n cut (m_mu m) (m_sig m) nmu nsig nv).

  Lemma shape_grid b : (0 <= b < nmu * (nsig * nv))%Z ->
    index_shape (m_mu m) (m_sig m) (Z.to_nat nmu) (Z.to_nat nsig) (Z.to_nat nv) (Z.to_nat b) =
    (grid_at (m_mu m) nmu (b / (nsig * nv)), grid_at (m_sig m) nsig ((b mod (nsig * nv)) / nv), grid_at (0, 1 / 2) nv (b mod nv)).
  Proof using H1 H2.
    intros Hb. assert (Hs : (0 < nsig * nv)%Z) by nia.
    unfold index_shape. rewrite <- Z2Nat.inj_mul by lia.
    rewrite <- Z2Nat.inj_div, <- Z2Nat.inj_mod by lia.
    pose proof (Z.mod_pos_bound b (nsig * nv) Hs) as Bm.
    rewrite <- Z2Nat.inj_div, <- Z2Nat.inj_mod by lia.
    rewrite !linspace_at.
    - rewrite <- !surjective_pairing. f_equal. replace (nhalf : R) with (1 / 2) by (unfold nhalf, nfrac; numR; lra).
      f_equal. rewrite (Z.mul_comm nsig nv). rewrite Z.rem_mul_r by lia.
      rewrite (Z.mul_comm nv (_ mod _)), Z.mod_add by lia. apply Z.mod_mod. lia.
    - apply Z.mod_pos_bound. lia.
    - split; [apply Z.div_pos; lia|]. apply Z.div_lt_upper_bound; lia.
    - split; [apply Z.div_pos; lia|]. apply Z.div_lt_upper_bound; nia.
  Qed.

  Lemma coded_mixture code j : (j < n)%nat ->
    (forall c b, In (c, b) code -> (0 <= b < nmu * (nsig * nv))%Z) -> (0 <= nmu)%Z ->
    coded voigt sqrt (m_x m) (m_mu m) (m_sig m) (Z.to_nat nmu) (Z.to_nat nsig) (Z.to_nat nv) cut
      (map (fun p => Z.to_nat (snd p)) code) (decode_weights 32001 (map fst code)) j = Y code j.
  Proof using H1 H2.
    intros Hj Hb Hn. unfold coded, mixture. rewrite map_length. apply rsum_ext. intros t Ht.
    rewrite (nth_map' _ _ (0, 0)%Z) by auto. destruct (nth t code (0, 0)%Z) as (c, b) eqn:E.
    assert (Hin : In (c, b) code) by (rewrite <- E; apply nth_In; auto). specialize (Hb c b Hin). cbn [snd].
    rewrite params_nth by nia. rewrite shape_grid by auto. rewrite column_profile by auto. rewrite Rmult_comm. f_equal.
    destruct (Nat.eqb_spec t 0) as [-> |Ht0].
    - apply decode_first. destruct code; simpl in *; [lia|congruence].
    - rewrite decode_nth by (rewrite ?map_length; lia). rewrite (nth_map' _ _ (0, 0)%Z) by auto. rewrite E. reflexivity.
  Qed.

  Lemma visible_shown code : (forall c b, In (c, b) code -> (0 <= b < nmu * (nsig * nv))%Z) -> (0 <= nmu)%Z ->
    visible voigt x n cut (m_mu m) (m_sig m) nmu nsig nv code ->
    forall c b, In (c, b) code ->
      shown voigt (m_x m) cut (nth (Z.to_nat b) (basis_params (m_mu m) (m_sig m) (Z.to_nat nmu) (Z.to_nat nsig) (Z.to_nat nv)) (0, 0, 0)).
  Proof using H1 H2.
    intros Hb Hn Hv c b Hin. specialize (Hb c b Hin). rewrite params_nth by nia. rewrite shape_grid by auto. exact (Hv c b Hin).
  Qed.

  Lemma decode_code code : (forall c b, In (c, b) code -> (0 <= b < 65536)%Z) ->
    map get_N (map (fun cb => combine_int (fst cb) (snd cb)) code) = code.
  Proof using. intros H. rewrite map_map. rewrite <- map_id. apply map_ext_in. intros (c, b) Hin. apply c18_partial. eauto. Qed.

  Lemma c139_value : forall code, code <> [] ->
    (forall c b, In (c, b) code -> (0 <= b < nmu * (nsig * nv))%Z /\ (b < 65536)%Z) ->
    visible voigt x n cut (m_mu m) (m_sig m) nmu nsig nv code ->
    let y j := clip cut (Y code j) in
    through_shapes voigt sqrt m cut (map (fun cb => combine_int (fst cb) (snd cb)) code) =
    Ok (map (fun j => y j / area_under x n y) (seq 0 n)).
  Proof using Hi Hd H1 H2.
    intros code Hne Hc _ y. rewrite (c139_agree _ _ _ _ nmu nsig nv rest) by (auto; nia).
    unfold through_basis, create_basis. rewrite Hd.
    assert (Hn : (0 <= nmu)%Z). { destruct code as [|(c, b) code]; [congruence|]. destruct (Hc c b (or_introl eq_refl)). nia. }
    destruct ((nmu <? 0) || (nsig <? 0) || (nv <? 0))%Z eqn:E1.
    { apply orb_prop in E1. destruct E1 as [E1|E1]; [apply orb_prop in E1; destruct E1 as [E1|E1]|]; apply Z.ltb_lt in E1; lia. }
    cbn [bind]. rewrite map_length. destruct (length code =? 0)%nat eqn:E2; [apply Nat.eqb_eq in E2; destruct code; simpl in *; congruence|].
    unfold pdf_from_sparse, decode_sparse. rewrite decode_code by (intros c b H; destruct (Hc c b H); lia).
    rewrite weighted_sum_ok.
    - cbn [bind]. f_equal. cbv zeta.
      assert (EY : map (coded voigt sqrt (m_x m) (m_mu m) (m_sig m) (Z.to_nat nmu) (Z.to_nat nsig) (Z.to_nat nv) cut
        (map (fun p => Z.to_nat (snd p)) code) (decode_weights 32001 (map fst code))) (seq 0 n) = map (Y code) (seq 0 n)).
      { apply map_ext_in. intros j Hj. apply in_seq in Hj. apply coded_mixture; auto; [lia|]. intros c b H; apply (Hc c b H). }
      rewrite EY. rewrite trapezoid_area by (rewrite !map_length, seq_length; auto). rewrite !map_map.
      apply map_ext_in. intros j Hj. apply in_seq in Hj.
      rewrite clip_eq. numR. unfold y at 1. f_equal.
      unfold area, area_under. apply rsum_ext. intros i Hi'. unfold trap.
      rewrite !(nth0_map' _ _ 0%nat) by (rewrite seq_length; lia). rewrite !seq_nth by lia. rewrite !clip_eqR. reflexivity.
    - rewrite decode_length, !map_length. auto.
    - intros b Hb. apply in_map_iff in Hb. destruct Hb as ((c, b') & <- & Hb). destruct (Hc c b' Hb). cbn [snd]. nia.
  Qed.
End Value.

(** ** Areas *)
Lemma area_under_ext x n y y' : (forall j, (j < n)%nat -> y j = y' j) -> area_under x n y = area_under x n y'.
Proof. intros H. unfold area_under. apply rsum_ext. intros j Hj. rewrite !H by lia. reflexivity. Qed.
Lemma area_under_scale x n y k : area_under x n (fun j => k * y j) = k * area_under x n y.
Proof. unfold area_under. rewrite Rmult_comm, <- rsum_scale. apply rsum_ext. intros j Hj. field. Qed.
Lemma area_under_pos xs y : increasing xs -> (2 <= length xs)%nat -> (forall j, (j < length xs)%nat -> 0 <= y j) ->
  (exists j, (j < length xs)%nat /\ 0 < y j) -> 0 < area_under (fun i => nth0 i xs) (length xs) y.
Proof.
  intros Hs Hn Hy (j & Hj & Hp). set (l := map y (seq 0 (length xs))).
  assert (NT : forall i, (i < length xs)%nat -> nth0 i l = y i).
  { intros i Hi. unfold l. rewrite (nth0_map' _ _ 0%nat) by (rewrite seq_length; auto). rewrite seq_nth by auto. reflexivity. }
  assert (Ll : length l = length xs) by (unfold l; rewrite map_length, seq_length; auto).
  assert (P : 0 < area xs l).
  { apply area_pos; auto. split.
    - intros i Hi. rewrite NT by lia. apply Hy. lia.
    - exists j. split; [lia|]. rewrite NT by auto. exact Hp. }
  unfold area in P. unfold area_under. erewrite rsum_ext; [exact P|]. intros i Hi. unfold trap. rewrite !NT by lia. reflexivity.
Qed.
(** The integral of a function that is linear between the points. *)
Lemma linear_integral (f : R -> R) xs : increasing xs -> (2 <= length xs)%nat ->
  (forall j x, (S j < length xs)%nat -> nth0 j xs <= x <= nth0 (S j) xs ->
     f x * (nth0 (S j) xs - nth0 j xs) = f (nth0 j xs) * (nth0 (S j) xs - x) + f (nth0 (S j) xs) * (x - nth0 j xs)) ->
  is_RInt f (nth0 0 xs) (nlast xs) (area_under (fun i => nth0 i xs) (length xs) (fun i => f (nth0 i xs))).
Proof.
  intros Hs Hn Hl. rewrite nlast_nth0. unfold area_under.
  assert (K : forall k, (k < length xs)%nat -> is_RInt f (nth0 0 xs) (nth0 k xs)
    (rsum k (fun j => (nth0 (S j) xs - nth0 j xs) * (f (nth0 j xs) + f (nth0 (S j) xs)) / 2))).
  { induction k; intros Hk.
    - apply (@is_RInt_point R_CompleteNormedModule).
    - cbn [rsum]. apply is_RInt_join with (nth0 k xs); [apply IHk; lia|].
      assert (L : nth0 k xs < nth0 (S k) xs) by (apply inc_lt; auto; lia).
      set (a := nth0 k xs) in *. set (b := nth0 (S k) xs) in *.
      replace ((b - a) * (f a + f b) / 2) with ((f b - f a) / (b - a) * (b - a) * (b - a) / 2 + f a * (b - a)) by (field; lra).
      apply is_RInt_affine; [lra|]. intros x Hx. specialize (Hl k x Hk). fold a b in Hl. specialize (Hl ltac:(lra)).
      apply (Rmult_eq_reg_r (b - a)); [|lra]. rewrite Hl. field. lra. }
  apply K. lia.
Qed.

(** ** The reconstruction as a density, and the ensemble *)
Section Ensemble.
  Variables (voigt : R -> R -> R -> R) (sqrt : R -> R) (cut : R) (m : sparse_meta R).
  Notation x := (fun i => nth0 i (m_x m)).
  Notation n := (length (m_x m)).
  Variables (nmu nsig nv : Z) (rest : list Z).
  Hypothesis Hi : m_x_int m = false.
  Hypothesis Hd : m_dims m = (nmu :: nsig :: nv :: 32001 :: rest)%Z.
  Hypothesis H1 : (0 < nsig)%Z.
  Hypothesis H2 : (0 < nv)%Z.
  Notation Y := (mixture voigt sqrt x n cut (m_mu m) (m_sig m) nmu nsig nv).
  Hypothesis Hs : increasing (m_x m).
  Hypothesis Hn : (2 <= n)%nat.

  Lemma c139_density : forall code, code <> [] ->
    (forall c b, In (c, b) code -> (0 <= b < nmu * (nsig * nv))%Z /\ (b < 65536)%Z) ->
    visible voigt x n cut (m_mu m) (m_sig m) nmu nsig nv code ->
    0 < cut -> (exists j, (j < n)%nat /\ cut <= Y code j) ->
    exists out, through_shapes voigt sqrt m cut (map (fun cb => combine_int (fst cb) (snd cb)) code) = Ok out /\
      length out = n /\ (forall j, (j < n)%nat -> 0 <= nth0 j out) /\ area_under x n (fun j => nth0 j out) = 1 /\
      (forall j, (j < n)%nat -> nth0 j out = 0 <-> Y code j < cut).
  Proof using Hi Hd H1 H2 Hs Hn.
    intros code Hne Hc Hv Hcut (j0 & Hj0 & HY). rewrite (c139_value voigt sqrt cut m nmu nsig nv rest) by auto.
    set (y := fun j => clip cut (Y code j)).
    eexists. split; [reflexivity|]. rewrite map_length, seq_length. split; auto.
    assert (Hy : forall j, 0 <= y j) by (intros j; unfold y, clip; destruct (Rle_dec _ _); lra).
    assert (A0 : 0 < area_under x n y).
    { apply area_under_pos; auto. exists j0. split; auto. unfold y, clip. destruct (Rle_dec _ _); lra. }
    assert (NT : forall j, (j < n)%nat -> nth0 j (map (fun j => y j / area_under x n y) (seq 0 n)) = y j / area_under x n y).
    { intros j Hj. rewrite (nth0_map' _ _ 0%nat) by (rewrite seq_length; auto). rewrite seq_nth by auto. reflexivity. }
    split; [|split].
    - intros j Hj. rewrite NT by auto. apply Rmult_le_pos; auto. left. apply Rinv_0_lt_compat. auto.
    - rewrite (area_under_ext _ _ _ (fun j => / area_under x n y * y j)) by (intros j Hj; rewrite NT by auto; unfold Rdiv; ring).
      rewrite area_under_scale. field. lra.
    - intros j Hj. rewrite NT by auto. unfold y at 1, clip. destruct (Rle_dec cut (Y code j)) as [L|L].
      + split; [|lra]. intros E. exfalso. assert (0 < Y code j / area_under x n y) by (apply Rdiv_lt_0_compat; lra). lra.
      + split; [lra|]. intros _. unfold Rdiv. ring.
  Qed.

  Lemma c139_ensemble : forall codes, codes <> [] ->
    (forall code, In code codes -> code <> [] /\ forall c b, In (c, b) code -> (0 <= b < nmu * (nsig * nv))%Z /\ (b < 65536)%Z) ->
    (forall code, In code codes -> visible voigt x n cut (m_mu m) (m_sig m) nmu nsig nv code) ->
    (forall r, (r < length codes)%nat ->
       (forall j, (j < n)%nat -> 0 <= Y (nth r codes []) j) /\ exists j, (j < n)%nat /\ 0 < Y (nth r codes []) j) ->
    let ints := map (fun cb => combine_int (fst cb) (snd cb)) in
    exists i, sparse_ctor voigt sqrt (m_x m) (m_mu m) (m_sig m) (Z.to_nat nmu) (Z.to_nat nsig) (Z.to_nat nv) cut (map ints codes) = Ok i /\
    exists f, evaluates (interp_ens_pdf i) (length codes) f /\
      forall r, (r < length codes)%nat ->
        (forall j, (j < n)%nat -> f r (x j) = Y (nth r codes []) j / area_under x n (Y (nth r codes []))) /\
        ((forall j, (j < n)%nat -> Y (nth r codes []) j = 0 \/ cut <= Y (nth r codes []) j) ->
         through_shapes voigt sqrt m cut (ints (nth r codes [])) = Ok (map (fun j => f r (x j)) (seq 0 n))).
  Proof using Hi Hd H1 H2 Hs Hn.
    intros codes Hne Hc Hv HY ints.
    assert (Hnm : (0 <= nmu)%Z).
    { destruct codes as [|[|(c, b) code] codes]; [congruence| |]; destruct (Hc _ (or_introl eq_refl)) as (N0 & B); [congruence|].
      destruct (B c b (or_introl eq_refl)). nia. }
    set (codes' := map (map (fun cb : Z * Z => (fst cb, Z.to_nat (snd cb)))) codes).
    assert (E1 : map ints codes = map (map (fun zb => combine_int (fst zb) (Z.of_nat (snd zb)))) codes').
    { unfold codes'. rewrite map_map. apply map_ext_in. intros code Hin. unfold ints. rewrite map_map. apply map_ext_in.
      intros (c, b) Hb. cbn [fst snd]. destruct (Hc code Hin) as (_ & B). destruct (B c b Hb). rewrite Z2Nat.id by lia. reflexivity. }
    assert (L : length codes' = length codes) by apply map_length.
    assert (E2 : forall r, (r < length codes)%nat -> nth r codes' [] = map (fun cb : Z * Z => (fst cb, Z.to_nat (snd cb))) (nth r codes [])).
    { intros r Hr. unfold codes'. rewrite (nth_map' _ _ []) by auto. reflexivity. }
    assert (EY : forall r j, (r < length codes)%nat -> (j < n)%nat ->
      coded voigt sqrt (m_x m) (m_mu m) (m_sig m) (Z.to_nat nmu) (Z.to_nat nsig) (Z.to_nat nv) cut
        (map snd (nth r codes' [])) (decode_weights 32001 (map fst (nth r codes' []))) j = Y (nth r codes []) j).
    { intros r j Hr Hj. rewrite E2 by auto. rewrite !map_map. cbn [fst snd]. apply coded_mixture; auto.
      intros c b Hb. destruct (Hc (nth r codes []) (nth_In _ _ Hr)) as (_ & B). destruct (B c b Hb). auto. }
    rewrite E1. destruct (c76_sparse voigt sqrt (m_x m) (m_mu m) (m_sig m) (Z.to_nat nmu) (Z.to_nat nsig) (Z.to_nat nv) cut codes')
      as (i & Ei & f & Ef & Hf); auto.
    { intros E. rewrite E in L. destruct codes; simpl in *; congruence. }
    { intros c Hin. unfold codes' in Hin. apply in_map_iff in Hin. destruct Hin as (code & <- & Hin). destruct (Hc code Hin) as (N0 & B). split.
      - intros E. apply map_eq_nil in E. auto.
      - intros z b Hb. apply in_map_iff in Hb. destruct Hb as ((c, b') & E & Hb). injection E as <- <-. destruct (B c b' Hb). cbn [snd]. split; nia. }
    { intros c z b Hin Hb. unfold codes' in Hin. apply in_map_iff in Hin. destruct Hin as (code & <- & Hin). apply in_map_iff in Hb.
      destruct Hb as ((c, b') & E & Hb). injection E as <- <-. cbn [snd]. destruct (Hc code Hin) as (_ & B).
      eapply (visible_shown voigt cut m nmu nsig nv H1 H2 code); eauto. intros c' b'' H'. apply (B c' b'' H'). }
    { intros r Hr. rewrite L in Hr. destruct (HY r Hr) as (P & j & Hj & Q). split.
      - intros k Hk. rewrite EY by auto. auto.
      - exists j. split; auto. rewrite EY by auto. auto. }
    exists i. split; [exact Ei|]. exists f. rewrite L in Ef. split; [exact Ef|]. intros r Hr.
    rewrite L in Hf. destruct (Hf r Hr) as (F1 & F2 & F3 & (k & Hk & F4) & F5).
    pose proof (linear_integral (f r) (m_x m) Hs Hn F5) as I.
    assert (A1 : area_under x n (fun i => f r (nth0 i (m_x m))) = 1).
    { apply (@is_RInt_unique R_CompleteNormedModule) in I. apply (@is_RInt_unique R_CompleteNormedModule) in F2. congruence. }
    assert (F6 : forall j, (j < n)%nat -> f r (nth0 j (m_x m)) = k * Y (nth r codes []) j).
    { intros j Hj. rewrite F4 by auto. rewrite EY by auto. reflexivity. }
    rewrite (area_under_ext _ _ _ _ F6), area_under_scale in A1.
    assert (K : forall j, (j < n)%nat -> f r (x j) = Y (nth r codes []) j / area_under x n (Y (nth r codes []))).
    { intros j Hj. rewrite F6 by auto. assert (area_under x n (Y (nth r codes [])) <> 0) by (intros Z0; rewrite Z0 in A1; lra).
      apply (Rmult_eq_reg_r (area_under x n (Y (nth r codes [])))); auto. unfold Rdiv. rewrite (Rmult_assoc (Y _ _)), Rinv_l by auto. rewrite <- A1. ring. }
    split; [exact K|]. intros HC. destruct (Hc (nth r codes []) (nth_In _ _ Hr)) as (N0 & B).
    unfold ints. rewrite (c139_value voigt sqrt cut m nmu nsig nv rest) by (auto; apply Hv, nth_In, Hr). f_equal. apply map_ext_in. intros j Hj. apply in_seq in Hj.
    rewrite K by lia.
    assert (EC : forall j, (j < n)%nat -> clip cut (Y (nth r codes []) j) = Y (nth r codes []) j).
    { intros j' Hj'. unfold clip. destruct (Rle_dec _ _); auto. destruct (HC j' Hj'); lra. }
    rewrite EC by lia. f_equal. apply area_under_ext. exact EC.
  Qed.
End Ensemble.
