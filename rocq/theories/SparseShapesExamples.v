(** Reconstruction of sparse PDFs from shapes: failures, differences and examples. *)
From Coq Require Import List Arith ZArith QArith Bool Lia Reals Lra Psatz.
From Coquelicot Require Import Coquelicot.
From Verif Require Import Num NumProofs Py NdArray NumpyLib Utils ScipyWrap Spec InterpPdf Packing Sparse SparseShapes
  SortProofs EvalProofs NdProofs InterpProofs IntegralProofs HistProofs InterpPdfProofs
  GridTheorems PackingTheorems PackedTheorems SparseTheorems SparseShapesTheorems.
Import ListNotations.
Local Open Scope R_scope.

(** An index outside the dictionary is reported by both; a grid of integers only by [shapes2pdf]. *)
Lemma c139_index : forall voigt sqrt cut (m : sparse_meta R) nmu nsig nv rest code,
  m_dims m = (nmu :: nsig :: nv :: 32001 :: rest)%Z -> (0 <= nmu)%Z -> (0 < nsig)%Z -> (0 < nv)%Z ->
  (forall c b, In (c, b) code -> (0 <= b < 65536)%Z) -> (exists c b, In (c, b) code /\ (nmu * (nsig * nv) <= b)%Z) ->
  through_shapes voigt sqrt m cut (map (fun cb => combine_int (fst cb) (snd cb)) code) = Err IndexError.
Proof.
  intros voigt sqrt cut m nmu nsig nv rest code Hd B1 B2 B3 Hc (c & b & Hin & Hb).
  unfold through_shapes, indices2shapes_meta. rewrite Hd.
  destruct ((nmu <? 0) || (nsig <? 0) || (nv <? 0))%Z eqn:E1.
  { apply orb_prop in E1. destruct E1 as [E1|E1]; [apply orb_prop in E1; destruct E1 as [E1|E1]|]; apply Z.ltb_lt in E1; lia. }
  change (32001 =? 1)%Z with false. cbn [orb]. destruct (Z.eqb_spec (nsig * nv) 0) as [C|_]; [nia|].
  rewrite map_length. destruct (Nat.eqb_spec (length code) 0) as [C|_]; [destruct code; [destruct Hin|discriminate]|].
  assert (EX : existsb (fun i => (nmu <=? snd (get_N i) / (nsig * nv))%Z) (map (fun cb : Z * Z => combine_int (fst cb) (snd cb)) code) = true).
  { apply existsb_exists. exists (combine_int c b). split; [apply in_map_iff; exists (c, b); auto|].
    rewrite c18_partial by (apply (Hc c b Hin)). cbn [snd]. apply Z.leb_le. apply Z.div_le_lower_bound; nia. }
  rewrite EX. reflexivity.
Qed.
Lemma c139_integers : forall voigt sqrt cut (m : sparse_meta R) w ma sa ga rest_w rest_m rest_s rest_g,
  m_x_int m = true ->
  shapes2pdf voigt sqrt (w :: rest_w) (ma :: rest_m) (sa :: rest_s) (ga :: rest_g) m cut = Err TypeError.
Proof. intros. unfold shapes2pdf. rewrite H. reflexivity. Qed.

(** The number of levels of the weights is read from the metadata by one and fixed in the other. *)
Lemma c139_levels_differ : exists (voigt : Q -> Q -> Q -> Q) (sqrt : Q -> Q) m cut inds a b,
  m_x_int m = false /\ m_dims m = [2; 1; 1; 11]%Z /\
  through_shapes voigt sqrt m cut inds = Ok a /\ through_basis voigt sqrt m cut inds = Ok b /\ a <> b.
Proof.
  exists (fun z _ _ => (1 + z * z)%Q), (fun _ => 1%Q), (mkmeta [0; 1; 2]%Q false (0, 2)%Q (1, 1)%Q [2; 1; 1; 11]%Z), (1 # 100000)%Q,
    [combine_int 10 0; combine_int 10 1].
  eexists. eexists. split; [reflexivity|]. split; [reflexivity|].
  split; [vm_compute; reflexivity|]. split; [vm_compute; reflexivity|]. vm_compute. congruence.
Qed.

(** A sum that falls below the cut between the selected basis functions: the ensemble keeps it, the reconstruction does not. *)
Section Small.
  Let voigt : R -> R -> R -> R := fun z _ _ => z.
  Let m : sparse_meta R := mkmeta [0; 1; 2] false (0, 0) (1, 1) [1; 1; 1; 32001]%Z.
  Let code : list (Z * Z) := [(0, 0)]%Z.
  Notation x := (fun i => nth0 i (m_x m)).
  Notation YC cut := (mixture voigt sqrt x 3 cut (0, 0) (1, 1) 1 1 1 code).
  Lemma small_values cut : 0 < cut <= 1 -> YC cut 0%nat = 0 /\ YC cut 1%nat = / sqrt 5 /\ YC cut 2%nat = 2 * / sqrt 5.
  Proof using.
    intros Hcut. assert (E : forall j, (j < 3)%nat -> YC cut j = clip cut (INR j) / sqrt 5).
    { intros j Hj. unfold mixture, code. cbn [length rsum nth Nat.eqb]. rewrite Rplus_0_l, Rmult_1_l. unfold profile, voigt.
      change (grid_at (0, 0) 1 (0 / (1 * 1))) with (0 + IZR 0 * ((0 - 0) / IZR 0)).
      replace (0 + IZR 0 * ((0 - 0) / IZR 0)) with 0 by (simpl; ring).
      assert (EX : forall i, (i < 3)%nat -> nth0 i (m_x m) - 0 = INR i) by (intros [|[|[|i]]] Hi; try lia; unfold m, nth0; simpl; lra).
      rewrite EX by auto. f_equal. f_equal. cbn [rsum]. rewrite !EX by lia. cbn [INR]. unfold clip.
      destruct (Rle_dec cut 0); [lra|]. destruct (Rle_dec cut 1); [|lra]. destruct (Rle_dec cut (1 + 1)); lra. }
    rewrite !E by lia. cbn [INR]. unfold clip.
    destruct (Rle_dec cut 0); [lra|]. destruct (Rle_dec cut 1); [|lra]. destruct (Rle_dec cut (1 + 1)); [|lra].
    repeat split; unfold Rdiv; ring.
  Qed.
  Notation Y := (YC (1 / 2)).
  Lemma small_sqrt : 2 < sqrt 5 < 3.
  Proof using. split; [rewrite <- (sqrt_square 2) by lra|rewrite <- (sqrt_square 3) by lra]; apply sqrt_lt_1; lra. Qed.
  Lemma small_bounds : / 3 < Y 1%nat < / 2 /\ / 2 <= Y 2%nat.
  Proof using.
    destruct (small_values (1 / 2) ltac:(lra)) as (E0 & E1 & E2). rewrite E1, E2. pose proof small_sqrt.
    assert (/ 3 < / sqrt 5) by (apply Rinv_lt_contravar; nra). assert (/ sqrt 5 < / 2) by (apply Rinv_lt_contravar; nra). lra.
  Qed.
  Lemma small_ok : (forall c b, In (c, b) code -> (0 <= b < 1 * (1 * 1))%Z /\ (b < 65536)%Z).
  Proof using. intros c b [E|[]]. injection E as <- <-. lia. Qed.
  Lemma small_visible cut : cut <= 2 -> visible voigt x 3 cut (0, 0) (1, 1) 1 1 1 code.
  Proof using.
    intros Hc c b [E|[]]. injection E as <- <-. exists 2%nat. split; [lia|]. unfold voigt, m, nth0. cbn [m_x nth].
    change (grid_at (0, 0) 1 (0 / (1 * 1))) with (0 + IZR 0 * ((0 - 0) / IZR 0)).
    replace (0 + IZR 0 * ((0 - 0) / IZR 0)) with 0 by (simpl; ring). lra.
  Qed.
  Lemma small_inc : increasing (m_x m).
  Proof using. repeat constructor; lra. Qed.

  Lemma c139_cut_differs : exists (voigt : R -> R -> R -> R) (m : sparse_meta R) cut inds i f out,
    m_x_int m = false /\ increasing (m_x m) /\ 0 < cut /\ m_dims m = [1; 1; 1; 32001]%Z /\
    sparse_ctor voigt sqrt (m_x m) (m_mu m) (m_sig m) 1 1 1 cut [inds] = Ok i /\ evaluates (interp_ens_pdf i) 1 f /\
    through_shapes voigt sqrt m cut inds = Ok out /\ 0 < f 0%nat (nth0 1 (m_x m)) /\ nth0 1 out = 0.
  Proof using.
    pose proof small_bounds as (B1 & B2). pose proof (small_values (1 / 2) ltac:(lra)) as (E0 & _).
    assert (HP : (forall j, (j < 3)%nat -> 0 <= Y j) /\ (exists j, (j < 3)%nat /\ 0 < Y j)).
    { split; [intros [|[|[|j]]] Hj; try lia; lra|]. exists 1%nat. split; [lia|lra]. }
    destruct (c139_ensemble voigt sqrt (1 / 2) m 1 1 1 [] eq_refl eq_refl ltac:(lia) ltac:(lia) small_inc ltac:(simpl; lia) [code])
      as (i & Ei & f & Ef & Hf).
    - congruence.
    - intros c [<-|[]]. split; [unfold code; congruence|exact small_ok].
    - intros c [<-|[]]. apply small_visible. lra.
    - intros [|r] Hr; [|simpl in Hr; lia]. exact HP.
    - destruct (c139_density voigt sqrt (1 / 2) m 1 1 1 [] eq_refl eq_refl ltac:(lia) ltac:(lia) small_inc ltac:(simpl; lia) code)
        as (out & Eo & _ & _ & _ & Ho).
      + unfold code; congruence.
      + exact small_ok.
      + apply small_visible. lra.
      + lra.
      + exists 2%nat. split; [simpl; lia|]. change (1 / 2 <= Y 2%nat). lra.
      + exists voigt, m, (1 / 2), (map (fun cb => combine_int (fst cb) (snd cb)) code), i, f, out.
        split; [reflexivity|]. split; [exact small_inc|]. split; [lra|]. split; [reflexivity|]. split; [exact Ei|]. split; [exact Ef|].
        split; [exact Eo|]. split.
        * destruct (Hf 0%nat ltac:(simpl; lia)) as (K & _). rewrite (K 1%nat) by (simpl; lia). cbn [nth].
          apply Rdiv_lt_0_compat; [change (0 < Y 1%nat); lra|].
          apply area_under_pos; [exact small_inc|simpl; lia|exact (proj1 HP)|exact (proj2 HP)].
        * apply Ho; [simpl; lia|]. change (Y 1%nat < 1 / 2). lra.
  Qed.

  (** the hypotheses of C139 *)
  Lemma c139_example : exists (voigt : R -> R -> R -> R) (m : sparse_meta R) cut code,
    m_x_int m = false /\ m_dims m = [1; 1; 1; 32001]%Z /\ increasing (m_x m) /\ (2 <= length (m_x m))%nat /\ 0 < cut /\ code <> [] /\
    (forall c b, In (c, b) code -> (0 <= b < 1 * (1 * 1))%Z /\ (b < 65536)%Z) /\
    visible voigt (fun i => nth0 i (m_x m)) (length (m_x m)) cut (m_mu m) (m_sig m) 1 1 1 code /\
    let Y := mixture voigt sqrt (fun i => nth0 i (m_x m)) (length (m_x m)) cut (m_mu m) (m_sig m) 1 1 1 code in
    (forall j, (j < length (m_x m))%nat -> 0 <= Y j) /\ (forall j, (j < length (m_x m))%nat -> Y j = 0 \/ cut <= Y j) /\
    exists j, (j < length (m_x m))%nat /\ 0 < Y j.
  Proof using.
    pose proof (small_values (1 / 4) ltac:(lra)) as (E0 & E1 & E2). pose proof small_sqrt.
    assert (/ 3 < / sqrt 5) by (apply Rinv_lt_contravar; nra).
    exists voigt, m, (1 / 4), code. split; [reflexivity|]. split; [reflexivity|]. split; [exact small_inc|].
    split; [simpl; lia|]. split; [lra|]. split; [unfold code; congruence|]. split; [exact small_ok|]. split; [apply small_visible; lra|]. cbv zeta.
    change (length (m_x m)) with 3%nat. change (m_mu m) with ((0, 0) : R * R). change (m_sig m) with ((1, 1) : R * R).
    split; [intros [|[|[|j]]] Hj; try lia; lra|]. split; [intros [|[|[|j]]] Hj; try lia; lra|]. exists 2%nat. split; [lia|lra].
  Qed.
End Small.

(** Two basis functions, weights 1 and 1/2: both ways give the same numbers. *)
Lemma c139_run : let m := mkmeta [0; 1; 2]%Q false (0, 2)%Q (1, 1)%Q [2; 1; 1; 32001]%Z in
  let inds := [combine_int 7 0; combine_int 16000 1] in
  exists a, through_shapes (fun z _ _ => (1 + z * z)%Q) (fun _ => 1%Q) m (1 # 100000)%Q inds = Ok a /\ length a = 3%nat /\
    through_basis (fun z _ _ => (1 + z * z)%Q) (fun _ => 1%Q) m (1 # 100000)%Q inds = Ok a.
Proof. eexists. split; [vm_compute; reflexivity|]. split; vm_compute; reflexivity. Qed.
