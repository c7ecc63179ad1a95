(** Weights of Gaussian mixtures (mixmod_pdf.py 42-68) in double precision: C146. *)
From Coq Require Import String List Arith ZArith Bool Lia Reals Lra Psatz Floats.SpecFloat.
From Flocq Require Import Core.Zaux Core.Raux.
From Verif Require Import Num NumProofs PairwiseProofs Py NdArray NumpyLib Utils ScipyWrap Values Ensemble Classes HistPdf MixmodPdf Spec EvalProofs NdProofs BinProofs HistProofs KindProofs Kinds EnsembleProofs EnsembleTheorems
  Float FloatProofs FloatHist FloatMachine FloatTheorems FloatExamples FloatNorm FloatSlice FloatCdfTheorems FloatSliceTheorems.
Import ListNotations.
Local Open Scope string_scope.
Local Open Scope list_scope.
Local Open Scope R_scope.

(** ** Specification *)
Definition total (row : list spec_float) : R := rsum (length row) (fun i => val64 (nth i row zero64)).
(** Weights that can be normalised: non-negative doubles of magnitude at most 2^400, of total at least 2^-500. *)
Definition weights_for (k : nat) (row : list spec_float) : Prop :=
  length row = k /\ (forall x, In x row -> modest x /\ 0 <= val64 x) /\ / 2 ^ 500 <= total row.
Definition mix_args (k : nat) (means stds weights : list (list spec_float)) : vdict spec_float :=
  [("means", VArr (nd2 k means)); ("stds", VArr (nd2 k stds)); ("weights", VArr (nd2 k weights))].
(** The weights as the ensemble reports them, e.objdata()["weights"]. *)
Definition reports_weights (e : ens spec_float) (k : nat) (rows : list (list spec_float)) : Prop :=
  vget (objdata e) "weights" = Some (VArr (nd2 k rows)) /\ forall row, In row rows -> length row = k.

(** ** One normalisation *)
Definition wonce (row : list spec_float) : list spec_float := map (fun w => ndiv (Num := SFNum) w (npsum (N := SFNum) row)) row.
Lemma wonce_length row : length (wonce row) = length row. Proof. apply map_length. Qed.
Section One.
  Variable k : nat.
  Hypothesis Hk : (1 <= k)%nat.
  Hypothesis HK : INR k <= 2 ^ 40.
  Definition wrow (row : list spec_float) : Prop :=
    length row = k /\ (forall i, (i < k)%nat -> fin64 (nth i row zero64) /\ 0 <= val64 (nth i row zero64) <= bpow radix2 400) /\ / 2 ^ 500 <= total row.
  Let ones := fun _ : nat => 1.
  Lemma ones_pos : forall i, (i < k)%nat -> 0 <= ones i. Proof. intros; unfold ones; lra. Qed.
  Lemma ones_tot : rsum k ones <= 2 ^ 502.
  Proof.
    assert (E : rsum k ones = INR k) by (clear; induction k as [|n IH]; [reflexivity|]; cbn [rsum]; rewrite IH, S_INR; unfold ones; lra). rewrite E. eapply Rle_trans; [exact HK|]. apply Rle_pow; [lra|lia].
  Qed.
  Lemma times_one (f : nat -> R) : rsum k (fun i => f i * ones i) = rsum k f. Proof. apply rsum_ext'. intros i _. unfold ones. lra. Qed.

  Lemma weights_wrow row : weights_for k row -> wrow row.
  Proof. intros (L & H & T). split; [exact L|]. split; [|exact T]. intros i Hi. destruct (H (nth i row zero64)) as [M P]; [apply nth_In; lia|]. apply modest_mod in M. split; [apply M|]. split; [exact P|]. destruct M as [_ M]. rewrite Rabs_pos_eq in M by exact P. exact M. Qed.

  Lemma wonce_core row : wrow row -> exists s, 0 < s /\ Rabs (s - total row) <= (INR k + 3) / 2 ^ 52 * total row /\
    Rabs (rsum k (fun i => rd (val64 (nth i row zero64) / s)) - 1) <= (INR k + 4) / 2 ^ 51 /\
    forall i, (i < k)%nat -> fin64 (nth i (wonce row) zero64) /\ val64 (nth i (wonce row) zero64) = rd (val64 (nth i row zero64) / s) /\ 0 <= val64 (nth i (wonce row) zero64).
  Proof.
    intros (L & H & T). set (p := fun i => val64 (nth i row zero64)). assert (Er : row = map (fun i => nth i row zero64) (seq 0 k)).
    { apply (nth_ext _ _ zero64 zero64); [rewrite map_length, seq_length; exact L|]. intros i Hi. rewrite nth_map_in with (d' := 0%nat) by (rewrite seq_length; lia). rewrite seq_nth by lia. reflexivity. }
    assert (Hne : row <> []) by (intros ->; simpl in L; lia).
    destruct (tsum64 row (npsum (N := SFNum) row) (npsum_tsum (N := SFNum) row Hne)) as (_ & Fs & _ & As).
    { intros x Hx. apply In_nth with (d := zero64) in Hx. destruct Hx as (i & Hi & <-). rewrite L in Hi. destruct (H i Hi) as (F & P & B). apply (mod_le 400); [lia|]. split; [exact F|]. rewrite Rabs_pos_eq; assumption. }
    { rewrite L. exact HK. }
    set (s := npsum (N := SFNum) row) in *.
    assert (Hs : added (fun i => rd (p i * ones i)) (seq 0 k) (val64 s)).
    { apply (added_ext _ _ _ _ (As _ _ Er)). intros i Hi. apply in_seq in Hi. unfold ones. rewrite Rmult_1_r. symmetry. apply rd_id, dbl64, H. lia. }
    assert (Pp : forall i, (i < k)%nat -> 0 <= p i) by (intros i Hi; apply H, Hi).
    assert (Hw : forall i, (i < k)%nat -> Rabs (ones i - ones i) <= u53 * ones i) by (intros i _; unfold ones; replace (1 - 1) with 0 by ring; rewrite Rabs_R0, u53v; simpl; lra).
    assert (ET : rsum k (fun i => p i * ones i) = total row) by (rewrite times_one; unfold total; rewrite L; reflexivity).
    assert (Hmass : / 2 ^ 500 <= rsum k (fun i => p i * ones i)) by (rewrite ET; exact T).
    destruct (row_normal k p ones ones (val64 s) Hk HK Pp ones_pos Hw ones_tot Hmass Hs) as (Ps & Pq & R).
    pose proof (sum_near k p ones ones (val64 s) Hk HK Pp ones_pos Hw Hmass Hs) as SN. pose proof (theta_small k Hk HK) as TS. rewrite ET in SN.
    exists (val64 s). split; [exact Ps|]. split; [exact SN|]. split; [rewrite <- times_one; exact R|].
    assert (S501 : / 2 ^ 501 <= val64 s).
    { assert (T0 : 0 < total row) by (eapply Rlt_le_trans; [|exact T]; apply Rinv_0_lt_compat, pow_lt; lra). assert ((INR k + 3) / 2 ^ 52 * total row <= / 2 ^ 11 * total row) by (apply Rmult_le_compat_r; lra). apply Rabs_le_inv in SN.
      replace (/ 2 ^ 501) with (/ 2 ^ 500 * / 2) by (rewrite <- Rinv_mult; f_equal; change 501%nat with (500 + 1)%nat; rewrite pow_add; simpl (2 ^ 1); ring). simpl (2 ^ 11) in *. lra. }
    intros i Hi. destruct (H i Hi) as (F & P & B). unfold wonce. rewrite nth_map_in with (d' := zero64) by lia. fold s. change (ndiv (Num := SFNum) (nth i row zero64) s) with (SFdiv 53 1024 (nth i row zero64) s).
    assert (G : Rabs (rd (p i / val64 s)) <= bpow radix2 901).
    { apply rd_le_bpow; [lia|]. change 901%Z with (400 + Z.of_nat 501)%Z. rewrite bpow_plus. unfold Rdiv. rewrite Rabs_mult. apply Rmult_le_compat; try apply Rabs_pos; [rewrite Rabs_pos_eq; assumption|]. rewrite Rabs_pos_eq by (apply Rlt_le, Rinv_0_lt_compat, Ps).
      rewrite <- pow_bpow. rewrite <- (Rinv_inv (2 ^ 501)). apply Rinv_le_contravar; [apply Rinv_0_lt_compat, pow_lt; lra|exact S501]. }
    destruct (div64 (nth i row zero64) s F Fs) as [D E]; [lra|apply (small_le 901); [lia|exact G]|]. split; [exact D|]. split; [exact E|]. rewrite E. apply Pq, Hi.
  Qed.
  (** What a normalisation leaves: a total of 1 up to rounding. *)
  Definition balanced (row : list spec_float) : Prop :=
    length row = k /\ (forall i, (i < k)%nat -> fin64 (nth i row zero64) /\ 0 <= val64 (nth i row zero64)) /\ Rabs (total row - 1) <= (INR k + 4) / 2 ^ 51.
  Lemma near1 : (INR k + 4) / 2 ^ 51 <= / 2 ^ 10. Proof. apply near_one, HK. Qed.
  Lemma balanced_once row : wrow row -> balanced (wonce row).
  Proof.
    intros H. destruct (wonce_core row H) as (s & P & _ & R & Q). destruct H as (L & _). split; [rewrite wonce_length; exact L|]. split; [intros i Hi; split; apply Q, Hi|].
    unfold total. rewrite wonce_length, L. rewrite (rsum_ext' k _ (fun i => rd (val64 (nth i row zero64) / s))) by (intros i Hi; apply Q, Hi). exact R.
  Qed.
  Lemma balanced_wrow row : balanced row -> wrow row.
  Proof.
    intros (L & H & T). pose proof near1 as G. simpl (2 ^ 10) in G. apply Rabs_le_inv in T. split; [exact L|]. split.
    - intros i Hi. destruct (H i Hi) as [F P]. split; [exact F|]. split; [exact P|]. apply Rle_trans with 2; [|apply (bpow_le radix2 1 400); lia]. apply Rle_trans with (total row); [|lra]. unfold total. rewrite L.
      assert (X : forall n, (i < n <= k)%nat -> val64 (nth i row zero64) <= rsum n (fun i => val64 (nth i row zero64))).
      { induction n as [|n IH]; intros Hn; [lia|]. cbn [rsum]. pose proof (proj2 (H n ltac:(lia))). destruct (Nat.eq_dec i n) as [->|Hne]; [|specialize (IH ltac:(lia)); lra].
        assert (0 <= rsum n (fun i => val64 (nth i row zero64))) by (apply rsum_ge0; intros j Hj; apply H; lia). lra. }
      apply X. lia.
    - pose proof (half_le 500 ltac:(lia)). lra.
  Qed.
  (** One normalisation keeps the proportions. *)
  Lemma wonce_share row i : wrow row -> (i < k)%nat ->
    Rabs (val64 (nth i (wonce row) zero64) - val64 (nth i row zero64) / total row) <= (INR k + 4) / 2 ^ 51 * (val64 (nth i row zero64) / total row) + tiny.
  Proof.
    intros H Hi. destruct (wonce_core row H) as (s & P & N & _ & Q). destruct (Q i Hi) as (_ & -> & _). destruct H as (L & H & T). destruct (H i Hi) as (_ & P0 & _). set (p := val64 (nth i row zero64)) in *. set (A := total row) in *.
    assert (HA : 0 < A) by (eapply Rlt_le_trans; [|exact T]; apply Rinv_0_lt_compat, pow_lt; lra). pose proof (theta_small k Hk HK) as [Th0 Th]. set (th := (INR k + 3) / 2 ^ 52) in *.
    pose proof (rd_err (p / s)) as E. fold tiny in E. assert (Z0 : 0 <= p / s) by (apply Rmult_le_pos; [exact P0|apply Rlt_le, Rinv_0_lt_compat, P]). rewrite (Rabs_pos_eq _ Z0) in E.
    set (q := p / A). assert (Q0 : 0 <= q) by (apply Rmult_le_pos; [exact P0|apply Rlt_le, Rinv_0_lt_compat, HA]).
    assert (Ez : p / s * s = q * A) by (unfold q; field; split; lra). set (z := p / s) in *. set (t := rd z) in *.
    assert (D : Rabs (z - q) <= (1 + / 2 ^ 9) * th * q).
    { assert (N' : Rabs (s - A) <= th * A) by exact N. apply Rabs_le_inv in N'. simpl (2 ^ 11) in Th. simpl (2 ^ 9). assert (B1 : (z - q) * s = q * (A - s)) by (replace ((z - q) * s) with (z * s - q * s) by ring; rewrite Ez; ring).
      assert (B2 : Rabs (z - q) * s <= q * (th * A)). { rewrite <- (Rabs_pos_eq s) at 1 by lra. rewrite <- Rabs_mult, B1, Rabs_mult, (Rabs_pos_eq q Q0). apply Rmult_le_compat_l; [exact Q0|]. rewrite Rabs_minus_sym. exact N. }
      assert (B3 : A * (1 - / 2048) <= s) by nra. pose proof (Rabs_pos (z - q)) as Ra. set (d := Rabs (z - q)) in *.
      assert (B4 : d * (A * (1 - / 2048)) <= q * (th * A)) by (eapply Rle_trans; [apply Rmult_le_compat_l; [exact Ra|exact B3]|exact B2]).
      assert (B5 : d * (1 - / 2048) <= q * th) by (apply Rmult_le_reg_r with A; [exact HA|lra]). assert (0 <= q * th) by (apply Rmult_le_pos; assumption). lra. }
    assert (K1 : th * q = (INR k + 3) / 2 ^ 52 * q) by reflexivity. assert (Zq : z <= 2 * q) by (apply Rabs_le_inv in D; assert (th * q <= / 2 ^ 11 * q) by (apply Rmult_le_compat_r; lra); simpl (2 ^ 9) in *; simpl (2 ^ 11) in *; lra).
    rewrite u53v in E. apply Rabs_le_inv in E, D. pose proof (pos_INR k) as Kp. assert (Kq : 0 <= INR k * q) by (apply Rmult_le_pos; assumption).
    replace ((1 + / 2 ^ 9) * th * q) with ((1 + / 2 ^ 9) * (th * q)) in D by ring. rewrite K1 in D. replace ((INR k + 3) / 2 ^ 52 * q) with ((INR k * q + 3 * q) / 2 ^ 52) in D by (unfold Rdiv; ring).
    replace ((INR k + 4) / 2 ^ 51 * q) with ((INR k * q + 4 * q) / 2 ^ 51) by (unfold Rdiv; ring). set (kq := INR k * q) in *. simpl (2 ^ 9) in D. simpl (2 ^ 52) in D. simpl (2 ^ 53) in E. simpl (2 ^ 51). apply Rabs_le. lra.
  Qed.
  (** Two normalisations, as creating a mixture does. *)
  Lemma wtwice_share row i : wrow row -> (i < k)%nat ->
    Rabs (val64 (nth i (wonce (wonce row)) zero64) - val64 (nth i row zero64) / total row) <= (INR k + 4) / 2 ^ 49 * (val64 (nth i row zero64) / total row) + / 2 ^ 1073.
  Proof.
    intros H Hi. pose proof (balanced_once row H) as B1. pose proof (balanced_wrow _ B1) as W1. pose proof (wonce_share row i H Hi) as E1. pose proof (wonce_share (wonce row) i W1 Hi) as E2.
    destruct B1 as (_ & P1 & T1). pose proof near1 as G. destruct (P1 i Hi) as (_ & Q0). destruct H as (L & H & T). destruct (H i Hi) as (_ & P0 & _).
    set (q := val64 (nth i (wonce row) zero64)) in *. set (A := total (wonce row)) in *. set (r := val64 (nth i (wonce (wonce row)) zero64)) in *. set (a := (INR k + 4) / 2 ^ 51) in *.
    assert (X0 : 0 <= val64 (nth i row zero64) / total row) by (apply Rmult_le_pos; [exact P0|apply Rlt_le, Rinv_0_lt_compat; eapply Rlt_le_trans; [|exact T]; apply Rinv_0_lt_compat, pow_lt; lra]).
    set (x := val64 (nth i row zero64) / total row) in *. replace ((INR k + 4) / 2 ^ 49) with (4 * a) by (unfold a; simpl; lra).
    assert (Tt : / 2 ^ 1073 = 4 * tiny) by (unfold tiny; change 1073%nat with (Z.to_nat 1073); rewrite pow_bpow, Z2Nat.id by lia; rewrite <- bpow_opp; change 4 with (bpow radix2 2); rewrite <- bpow_plus; f_equal; lia). rewrite Tt.
    assert (T0 : 0 <= tiny) by apply bpow_ge_0. set (ti := tiny) in *. assert (a0 : 0 <= a) by (unfold a; pose proof (pos_INR k); apply Rmult_le_pos; [lra|simpl; lra]).
    apply Rabs_le_inv in T1. simpl (2 ^ 10) in G. assert (HA : 0 < A) by lra. set (y := q / A) in *. assert (Ey : y * A = q) by (unfold y; field; lra). assert (Y0 : 0 <= y) by (apply Rmult_le_pos; [exact Q0|apply Rlt_le, Rinv_0_lt_compat, HA]).
    apply Rabs_le_inv in E1, E2. assert (G' : a <= / 1024) by lra. assert (ax : 0 <= a * x) by (apply Rmult_le_pos; assumption). assert (aax : a * (a * x) <= / 1024 * (a * x)) by (apply Rmult_le_compat_r; assumption). assert (ax1 : a * x <= / 1024 * x) by (apply Rmult_le_compat_r; assumption).
    assert (ay : 0 <= a * y) by (apply Rmult_le_pos; assumption). assert (ay1 : a * y <= / 1024 * y) by (apply Rmult_le_compat_r; assumption). assert (at_ : a * ti <= / 1024 * ti) by (apply Rmult_le_compat_r; assumption).
    assert (YA1 : y * (1 - a) <= q) by (rewrite <- Ey; apply Rmult_le_compat_l; lra). assert (YA2 : q <= y * (1 + a)) by (rewrite <- Ey; apply Rmult_le_compat_l; lra).
    assert (y1 : y <= 1025 / 1022 * x + 2 * ti) by lra. assert (ay2 : a * y <= 1026 / 1022 * (a * x) + 2 * (a * ti)).
    { apply Rle_trans with (a * (1025 / 1022 * x + 2 * ti)); [apply Rmult_le_compat_l; assumption|]. replace (a * (1025 / 1022 * x + 2 * ti)) with (1025 / 1022 * (a * x) + 2 * (a * ti)) by ring. lra. }
    apply Rabs_le. lra.
  Qed.
  Lemma wonce_near row : balanced row -> exists s, 99 / 100 <= s <= 101 / 100 /\ forall i, (i < k)%nat -> val64 (nth i (wonce row) zero64) = rd (val64 (nth i row zero64) / s).
  Proof.
    intros B. destruct (wonce_core row (balanced_wrow row B)) as (s & P & N & _ & Q). exists s. split; [|intros i Hi; apply Q, Hi]. destruct B as (_ & _ & T). pose proof near1 as G. pose proof (theta_small k Hk HK) as [Th0 Th].
    apply Rabs_le_inv in T, N. simpl (2 ^ 10) in G. simpl (2 ^ 11) in Th. set (th := (INR k + 3) / 2 ^ 52) in *. set (A := total row) in *. nra.
  Qed.
  Lemma wdrift_once y0 t row : (forall i, (i < k)%nat -> 0 <= y0 i) -> Rabs (rsum k y0 - 1) <= / 100 -> INR (S t) <= 2 ^ 42 -> balanced row ->
    drift k y0 t (fun i => val64 (nth i row zero64)) -> drift k y0 (S t) (fun i => val64 (nth i (wonce row) zero64)).
  Proof.
    intros H0 H1 Ht B Hd. destruct (wonce_near row B) as (s & S1 & S2). destruct (balanced_once row (balanced_wrow row B)) as (Lb & _ & A).
    assert (D : drift k y0 (S t) (fun i => rd (val64 (nth i row zero64) / s))).
    { apply (drift_step k ones y0 ones_pos ones_tot H0 t _ s Ht Hd S1); [rewrite times_one; exact H1|]. rewrite times_one. pose proof near1 as G. simpl (2 ^ 10) in G. apply Rle_trans with ((INR k + 4) / 2 ^ 51); [|lra].
      rewrite <- (rsum_ext' k (fun i => val64 (nth i (wonce row) zero64))) by (intros i Hi; apply S2, Hi). unfold total in A. rewrite Lb in A. exact A. }
    destruct D as (c & C1 & C2). exists c. split; [exact C1|]. intros i Hi. rewrite (S2 i Hi). apply C2, Hi.
  Qed.
  Lemma wdrift_end y0 t y e : (forall i, (i < k)%nat -> 0 <= y0 i) -> INR t <= 2 ^ 42 -> drift k y0 t y -> Rabs (rsum k y0 - 1) <= e -> Rabs (rsum k y - 1) <= e -> e <= / 2 ^ 10 ->
    forall i, (i < k)%nat -> Rabs (y i - y0 i) <= (21 / 10 * e + 5 * INR t * / 2 ^ 53 + / 2 ^ 58) * y0 i + / 2 ^ 1000.
  Proof. intros H0 Ht D A B E. apply (drift_end k ones y0 ones_pos ones_tot H0 t y e Ht D); [rewrite times_one; exact A|rewrite times_one; exact B|exact E]. Qed.
End One.

(** ** The constructor *)
Lemma not_negative x : fin64 x -> 0 <= val64 x -> nltb (N := SFNum) x (n0 (Num := SFNum)) = false.
Proof. intros F P. unfold nltb. change (nleb (Num := SFNum) (n0 (Num := SFNum)) x) with (SFleb (S754_zero false) x). rewrite leb64 by (try exact F; apply fin64_0). change (val64 (S754_zero false)) with 0. unfold Rleb. destruct (Rle_dec 0 (val64 x)); [reflexivity|lra]. Qed.
Lemma wrow_ok k row : wrow k row -> existsb (fun w => nltb (N := SFNum) w (n0 (Num := SFNum))) row = false.
Proof.
  intros (L & H & _). apply not_true_is_false. intros E. apply existsb_exists in E. destruct E as (w & Hw & E). apply In_nth with (d := zero64) in Hw. destruct Hw as (i & Hi & <-). rewrite L in Hi. destruct (H i Hi) as (F & P & _).
  rewrite not_negative in E by assumption. discriminate.
Qed.
Section Build.
  Variables (k : nat) (means stds : list (list spec_float)).
  Hypothesis Hk : (1 <= k)%nat.
  Hypothesis HK : INR k <= 2 ^ 40.
  Hypothesis Lm : forall l, In l means -> length l = k.
  Hypothesis Ls : forall l, In l stds -> length l = k.
  Lemma mix_init_64 rows : (forall l, In l rows -> wrow k l) ->
    mixmod_init (N := SFNum) (nd2 k means) (nd2 k stds) (nd2 k rows) = Ok (mkmixmod means stds (map wonce rows) [length means]).
  Proof.
    intros Hr. unfold mixmod_init. rewrite !reshape_nd2 by (first [exact Lm|exact Ls|intros l Hl; apply (Hr l Hl)]). cbn [bind]. rewrite !rows_of_nd2 by (first [exact Lm|exact Ls|intros l Hl; apply (Hr l Hl)]).
    assert (E : existsb (existsb (fun w => nltb (N := SFNum) w (n0 (Num := SFNum)))) rows = false).
    { apply not_true_is_false. intros E. apply existsb_exists in E. destruct E as (l & Hl & E). rewrite (wrow_ok k l (Hr l Hl)) in E. discriminate. }
    rewrite E. reflexivity.
  Qed.
  Lemma mix_build_64 rows : (forall l, In l rows -> wrow k l) ->
    mixmod_ctor (N := SFNum) (nd2 k means) (nd2 k stds) (nd2 k rows) = Ok (mkmixmod means stds (map (fun l => wonce (wonce l)) rows) [length means]).
  Proof.
    intros Hr. unfold mixmod_ctor. rewrite mix_init_64 by exact Hr. cbn [bind]. unfold mixmod_freeze. cbn [m_means m_stds m_weights m_shape]. change (last (shp (nd2 k means)) 0%nat) with k.
    rewrite mix_init_64; [cbn [bind m_means m_stds m_weights]; rewrite map_map; reflexivity|]. intros l Hl. apply in_map_iff in Hl. destruct Hl as (g & <- & Hg). apply balanced_wrow; [exact Hk|exact HK|]. apply balanced_once; auto.
  Qed.
End Build.

(** ** Selections *)
Definition stored_args (k : nat) (means stds weights : list (list spec_float)) : vdict spec_float :=
  [("weights", VArr (nd2 k weights)); ("stds", VArr (nd2 k stds)); ("means", VArr (nd2 k means))].
Section Choice.
  Variable cc : string -> option (vdict spec_float -> res (gobj spec_float)).
  Variables phi Phi : spec_float -> spec_float.
  Hypothesis Hcc : cc "mixmod" = Some (mixmod_create (N := SFNum) phi Phi).
  Variable k : nat.
  Hypothesis Hk : (1 <= k)%nat.
  Hypothesis HK : INR k <= 2 ^ 40.
  Definition holds (e : ens spec_float) (means stds rows : list (list spec_float)) : Prop :=
    e_obj e = mixmod_obj (N := SFNum) phi Phi k (mkmixmod means stds rows [length rows]) /\ length means = length rows /\ length stds = length rows /\
    (forall l, In l means -> length l = k) /\ (forall l, In l stds -> length l = k).
  Lemma create_mix d means stds rows : d = mix_args k means stds rows \/ d = stored_args k means stds rows ->
    length means = length rows -> (forall l, In l means -> length l = k) -> (forall l, In l stds -> length l = k) -> (forall l, In l rows -> wrow k l) ->
    create_of cc "mixmod" d = Ok (mixmod_obj (N := SFNum) phi Phi k (mkmixmod means stds (map (fun l => wonce (wonce l)) rows) [length rows])).
  Proof.
    intros Hd El Lm Ls Hr. unfold create_of. rewrite Hcc. unfold mixmod_create.
    assert (K : known (T := spec_float) ["means"; "stds"; "weights"] d = true) by (destruct Hd as [->| ->]; reflexivity). rewrite K. clear K. cbn [negb].
    assert (A1 : arg d "means" = Ok (VArr (nd2 k means))) by (destruct Hd as [->| ->]; reflexivity). assert (A2 : arg d "stds" = Ok (VArr (nd2 k stds))) by (destruct Hd as [->| ->]; reflexivity).
    assert (A3 : arg d "weights" = Ok (VArr (nd2 k rows))) by (destruct Hd as [->| ->]; reflexivity). rewrite A1, A2, A3. cbn [bind as_numbers].
    rewrite mix_build_64 by assumption. cbn [bind]. rewrite El. reflexivity.
  Qed.
  Lemma made_mix d means stds rows anc e : d = mix_args k means stds rows \/ d = stored_args k means stds rows ->
    length means = length rows -> length stds = length rows -> (forall l, In l means -> length l = k) -> (forall l, In l stds -> length l = k) -> (forall l, In l rows -> wrow k l) ->
    ens_new (create_of cc "mixmod") d anc = Ok e -> holds e means stds (map (fun l => wonce (wonce l)) rows).
  Proof.
    intros Hd E1 E2 Lm Ls Hr. unfold ens_new. rewrite (create_mix d means stds rows) by assumption. cbn [bind]. destruct (check_array_shapes _ _); [|discriminate]. cbn [bind]. intros H. injection H as <-.
    unfold holds. rewrite map_length. repeat split; assumption.
  Qed.
  Lemma slice_rows (rows : list (list spec_float)) key ps : (forall l, In l rows -> length l = k) -> key_positions (length rows) key = Some ps ->
    exists v, v_getitem (VArr (nd2 k rows)) key = Ok v /\ (if (length (v_shape v) <? 2)%nat then v_expand_first v else v) = VArr (nd2 k (select [] rows ps)).
  Proof.
    intros Hr Hp. change (nd2 k rows) with (rows_nd [k] rows). cbn [v_getitem]. rewrite getitem_rows by (intros r Hi; rewrite (Hr r Hi); simpl; lia). rewrite Hp. cbn [bind]. eexists. split; [reflexivity|]. destruct (is_int key) eqn:Ei.
    - destruct (key_int_single _ _ _ Ei Hp) as (p & ->). reflexivity.
    - reflexivity.
  Qed.
  Lemma getitem_mix (e : ens spec_float) means stds rows key ps : holds e means stds rows -> (forall l, In l rows -> length l = k) -> key_positions (length rows) key = Some ps ->
    getitem cc e key = (let* anc := match e_ancil e with None => Ok None | Some a => let* a' := slice_dict a key in Ok (Some a') end in
      ens_new (create_of cc "mixmod") (stored_args k (select [] means ps) (select [] stds ps) (select [] rows ps)) anc).
  Proof.
    intros (Eo & E1 & E2 & Lm & Ls) Hr Hp. unfold getitem, objdata, metadata. rewrite Eo. cbn [mixmod_obj g_data g_meta g_name m_means m_stds m_weights].
    destruct (slice_rows rows key ps Hr Hp) as (v & V1 & V2). rewrite <- E2 in Hp. destruct (slice_rows stds key ps Ls Hp) as (s & S1 & S2). rewrite E2, <- E1 in Hp. destruct (slice_rows means key ps Lm Hp) as (m & M1 & M2).
    unfold slice_dict at 1. cbn [mapM fst snd]. rewrite V1. cbn [bind]. rewrite S1. cbn [bind]. rewrite M1. cbn [bind map fst snd]. rewrite V2, S2, M2. reflexivity.
  Qed.
  Lemma holds_npdf e means stds rows : holds e means stds rows -> e_npdf e = length rows.
  Proof. intros (H & _). unfold e_npdf, g_npdf. rewrite H. cbn. lia. Qed.
  Lemma holds_reports e means stds rows : holds e means stds rows -> (forall row, In row rows -> length row = k) -> reports_weights e k rows.
  Proof. intros (H & _) L. split; [|exact L]. unfold objdata. rewrite H. reflexivity. Qed.
  Lemma select_rows (P : list spec_float -> Prop) l ps : (forall x, In x l -> P x) -> (forall p, In p ps -> (p < length l)%nat) -> forall x, In x (select [] l ps) -> P x.
  Proof. intros H Lt x Hx. apply H. eapply select_in; [|exact Hx]. exact Lt. Qed.
  Lemma chosen_mix m e e' ps : chosen cc m e e' ps -> INR (2 * m) <= 2 ^ 42 -> forall means stds given, holds e means stds given -> (forall row, In row given -> balanced k row) ->
    exists now, (exists ms ss, holds e' ms ss now) /\ length now = length ps /\ (e_ancil e = None -> e_ancil e' = None) /\ forall r, (r < length ps)%nat -> (nth r ps 0 < length given)%nat /\ balanced k (nth r now []) /\
      drift k (fun i => val64 (nth i (nth (nth r ps 0%nat) given []) zero64)) (2 * m) (fun i => val64 (nth i (nth r now []) zero64)).
  Proof.
    intros H. induction H as [e|m e e1 e2 ps key qs H IH Hp Hg]; intros Hm means stds given H0 Hs.
    - exists given. rewrite (holds_npdf e _ _ given H0), seq_length. split; [exists means, stds; exact H0|]. split; [reflexivity|]. split; [auto|]. intros r Hr. rewrite seq_nth by exact Hr. cbn [plus]. split; [exact Hr|]. pose proof (Hs _ (nth_In given [] Hr)) as Sr. split; [exact Sr|].
      apply drift_0. intros i Hi. apply Sr, Hi.
    - assert (Hm1 : INR (2 * m) + 2 <= 2 ^ 42) by (replace (2 * S m)%nat with (2 * m + 2)%nat in Hm by lia; rewrite plus_INR in Hm; exact Hm).
      destruct (IH ltac:(lra) means stds given H0 Hs) as (now & (ms & ss & N1) & N2 & Na & N3). rewrite (holds_npdf e1 ms ss now N1) in Hp. apply picks_iff in Hp. pose proof (key_positions_lt _ _ _ Hp) as Lt.
      assert (Bn : forall row, In row now -> balanced k row) by (intros row Hi; apply In_nth with (d := []) in Hi; destruct Hi as (r & Hr & <-); rewrite N2 in Hr; apply (N3 r Hr)).
      rewrite (getitem_mix e1 ms ss now key qs N1 (fun row Hi => proj1 (Bn row Hi)) Hp) in Hg. destruct N1 as (No & M1 & M2 & M3 & M4).
      assert (Bs : forall row, In row (select [] now qs) -> balanced k row) by (apply select_rows; assumption).
      assert (Anc : e_ancil e1 = None -> e_ancil e2 = None).
      { intros A. rewrite A in Hg. cbn [bind] in Hg. unfold ens_new in Hg. destruct (create_of _ _ _); [|discriminate]. cbn [bind] in Hg. destruct (check_array_shapes _ _); [|discriminate]. cbn [bind] in Hg. injection Hg as <-. reflexivity. }
      destruct (match e_ancil e1 with None => _ | Some _ => _ end) as [anc|]; [|discriminate]. cbn [bind] in Hg.
      pose proof (made_mix _ (select [] ms qs) (select [] ss qs) (select [] now qs) anc e2 (or_intror eq_refl) ltac:(rewrite !select_length; reflexivity) ltac:(rewrite !select_length; reflexivity)
        (select_rows _ ms qs M3 ltac:(rewrite M1; exact Lt)) (select_rows _ ss qs M4 ltac:(rewrite M2; exact Lt)) (fun row Hi => balanced_wrow k Hk HK row (Bs row Hi)) Hg) as M.
      exists (map (fun l => wonce (wonce l)) (select [] now qs)). split; [exists (select [] ms qs), (select [] ss qs); exact M|]. split; [rewrite map_length, !select_length; reflexivity|]. split; [auto|].
      intros r Hr. rewrite select_length in Hr. assert (Hq : (nth r qs 0 < length now)%nat) by (apply Lt, nth_In, Hr). assert (Hq' : (nth r qs 0 < length ps)%nat) by (rewrite <- N2; exact Hq).
      rewrite nth_map_in with (d' := []) by (rewrite select_length; exact Hr). rewrite (select_nth [] now qs r Hr), (select_nth 0%nat ps qs r Hr).
      destruct (N3 _ Hq') as (G1 & G2 & G3). split; [exact G1|]. set (row := nth (nth r qs 0%nat) now []) in *. set (g := nth (nth (nth r qs 0%nat) ps 0%nat) given []) in *.
      pose proof (Hs g (nth_In given [] G1)) as (Sg1 & Sg2 & Sg3). pose proof (balanced_once k Hk HK row (balanced_wrow k Hk HK row G2)) as O1. pose proof (balanced_once k Hk HK _ (balanced_wrow k Hk HK _ O1)) as O2. split; [exact O2|].
      assert (P0 : forall i, (i < k)%nat -> 0 <= val64 (nth i g zero64)) by (intros i Hi; apply Sg2, Hi).
      assert (A0 : Rabs (rsum k (fun i => val64 (nth i g zero64)) - 1) <= / 100).
      { pose proof (near1 k HK) as G. simpl (2 ^ 10) in G. unfold total in Sg3. rewrite Sg1 in Sg3. apply Rle_trans with ((INR k + 4) / 2 ^ 51); [exact Sg3|lra]. }
      replace (2 * S m)%nat with (S (S (2 * m))) by lia. apply (wdrift_once k Hk HK); [exact P0|exact A0|rewrite !S_INR; lra|exact O1|]. apply (wdrift_once k Hk HK); [exact P0|exact A0|rewrite !S_INR; lra|exact G2|exact G3].
  Qed.
  Lemma created_balanced means stds rows anc e : length means = length rows -> length stds = length rows -> (forall l, In l means -> length l = k) -> (forall l, In l stds -> length l = k) ->
    (forall row, In row rows -> weights_for k row) -> ens_new (create_of cc "mixmod") (mix_args k means stds rows) anc = Ok e ->
    holds e means stds (map (fun l => wonce (wonce l)) rows) /\ forall row, In row (map (fun l => wonce (wonce l)) rows) -> balanced k row.
  Proof.
    intros E1 E2 Lm Ls Hr H. assert (Wr : forall row, In row rows -> wrow k row) by (intros row Hi; apply weights_wrow; [exact Hk|apply Hr, Hi]). split; [apply (made_mix _ means stds rows anc e (or_introl eq_refl) E1 E2 Lm Ls Wr H)|].
    intros row Hi. apply in_map_iff in Hi. destruct Hi as (g & <- & Hg). apply balanced_once; [exact Hk|exact HK|]. apply balanced_wrow; [exact Hk|exact HK|]. apply balanced_once; auto.
  Qed.
End Choice.

Lemma ens_new_ancil (f : vdict spec_float -> res (gobj spec_float)) d anc e : ens_new f d anc = Ok e -> e_ancil e = anc.
Proof. unfold ens_new. destruct (f d); [|discriminate]. cbn [bind]. destruct (check_array_shapes _ _); [|discriminate]. cbn [bind]. intros H. injection H as <-. reflexivity. Qed.
(** ** Theorems *)
Definition mixture (k : nat) (means stds rows : list (list spec_float)) : Prop :=
  (1 <= k)%nat /\ INR k <= 2 ^ 40 /\ length means = length rows /\ length stds = length rows /\ (forall l, In l means -> length l = k) /\ (forall l, In l stds -> length l = k) /\
  (forall row, In row rows -> weights_for k row).
(** The stored weights add up to 1 and keep the proportions of the given ones, up to rounding. *)
Lemma c146_weights : forall cc phi Phi k means stds rows anc e, cc "mixmod" = Some (mixmod_create (N := SFNum) phi Phi) -> mixture k means stds rows ->
  ens_new (create_of cc "mixmod") (mix_args k means stds rows) anc = Ok e ->
  exists stored, reports_weights e k stored /\ length stored = length rows /\ forall r, (r < length rows)%nat ->
    Rabs (total (nth r stored []) - 1) <= INR (k + 4) / 2 ^ 51 /\
    forall i, (i < k)%nat -> let share := val64 (nth i (nth r rows []) zero64) / total (nth r rows []) in let x := nth i (nth r stored []) zero64 in
      fin64 x /\ 0 <= val64 x /\ Rabs (val64 x - share) <= INR (k + 4) / 2 ^ 49 * share + / 2 ^ 1073.
Proof.
  intros cc phi Phi k means stds rows anc e Hcc (Hk & HK & E1 & E2 & Lm & Ls & Hr) H. destruct (created_balanced cc phi Phi Hcc k Hk HK means stds rows anc e E1 E2 Lm Ls Hr H) as (G & B).
  exists (map (fun l => wonce (wonce l)) rows). split; [apply (holds_reports phi Phi k e means stds _ G); intros row Hi; apply (B row Hi)|]. split; [apply map_length|].
  assert (Ek : INR (k + 4) = INR k + 4) by (rewrite plus_INR; simpl; lra). rewrite Ek.
  intros r Hl. rewrite nth_map_in with (d' := []) by exact Hl. pose proof (Hr _ (nth_In rows [] Hl)) as W. apply weights_wrow in W; [|exact Hk]. set (g := nth r rows []) in *.
  destruct (B (wonce (wonce g))) as (_ & F & T); [apply in_map_iff; exists g; split; [reflexivity|apply nth_In, Hl]|]. split; [exact T|].
  intros i Hi share x. split; [apply F, Hi|]. split; [apply F, Hi|]. apply wtwice_share; assumption.
Qed.
(** A chain of selections moves them by no more than rounding. *)
Lemma c146_drift : forall cc phi Phi k means stds rows anc e m e' ps, cc "mixmod" = Some (mixmod_create (N := SFNum) phi Phi) -> mixture k means stds rows ->
  ens_new (create_of cc "mixmod") (mix_args k means stds rows) anc = Ok e -> chosen cc m e e' ps -> INR m <= 2 ^ 40 ->
  exists given now, reports_weights e k given /\ reports_weights e' k now /\ length given = length rows /\ length now = length ps /\
    forall r, (r < length ps)%nat -> (nth r ps 0 < length rows)%nat /\ Rabs (total (nth r now []) - 1) <= INR (k + 4) / 2 ^ 51 /\
      forall i, (i < k)%nat -> let before := val64 (nth i (nth (nth r ps 0%nat) given []) zero64) in let after := val64 (nth i (nth r now []) zero64) in
        0 <= before /\ 0 <= after /\ Rabs (after - before) <= 3 * INR (k + m + 4) / 2 ^ 51 * before + / 2 ^ 1000.
Proof.
  intros cc phi Phi k means stds rows anc e m e' ps Hcc (Hk & HK & E1 & E2 & Lm & Ls & Hr) H Hch Hm. destruct (created_balanced cc phi Phi Hcc k Hk HK means stds rows anc e E1 E2 Lm Ls Hr H) as (G & B).
  set (given := map (fun l => wonce (wonce l)) rows) in *. assert (Lg : length given = length rows) by apply map_length.
  assert (M2 : INR (2 * m) <= 2 ^ 42) by (rewrite mult_INR; simpl (INR 2); simpl (2 ^ 40) in Hm; simpl (2 ^ 42); lra).
  destruct (chosen_mix cc phi Phi Hcc k Hk HK m e e' ps Hch M2 means stds given G B) as (now & (ms & ss & N1) & N2 & _ & N3). exists given, now.
  split; [apply (holds_reports phi Phi k e means stds _ G); intros row Hi; apply (B row Hi)|]. split; [apply (holds_reports phi Phi k e' ms ss _ N1); intros row Hi; apply In_nth with (d := []) in Hi; destruct Hi as (r & Hl & <-); rewrite N2 in Hl; apply (N3 r Hl)|].
  split; [exact Lg|]. split; [exact N2|]. intros r Hl. destruct (N3 r Hl) as (Q1 & (Q2 & Q3 & Q4) & Q5). split; [rewrite <- Lg; exact Q1|]. assert (Ek : INR (k + 4) = INR k + 4) by (rewrite plus_INR; simpl; lra). rewrite Ek. split; [exact Q4|].
  intros i Hi before after. set (g := nth (nth r ps 0%nat) given []) in *. pose proof (B g (nth_In given [] Q1)) as (S1 & S2 & S3). split; [apply S2, Hi|]. split; [apply Q3, Hi|].
  pose proof (near1 k HK) as Ge. unfold total in S3, Q4. rewrite S1 in S3. rewrite Q2 in Q4.
  pose proof (wdrift_end k Hk HK (fun j => val64 (nth j g zero64)) (2 * m) _ ((INR k + 4) / 2 ^ 51) (fun j Hj => proj2 (S2 j Hj)) M2 Q5 S3 Q4 Ge i Hi) as D. cbv beta in D. fold before after in D.
  eapply Rle_trans; [exact D|]. apply Rplus_le_compat_r, Rmult_le_compat_r; [apply S2, Hi|]. replace (INR (k + m + 4)) with (INR k + INR m + 4) by (rewrite !plus_INR; simpl; lra).
  rewrite mult_INR. simpl (INR 2). pose proof (pos_INR m). pose proof (pos_INR k). simpl (2 ^ 51). simpl (2 ^ 53). simpl (2 ^ 58). lra.
Qed.
(** Creating such mixtures succeeds, and so does every selection (without ancillary data). *)
Lemma c146_succeeds : forall cc phi Phi k means stds rows, cc "mixmod" = Some (mixmod_create (N := SFNum) phi Phi) -> mixture k means stds rows ->
  exists e, ens_new (create_of cc "mixmod") (mix_args k means stds rows) None = Ok e /\
    forall m e' ps key qs, chosen cc m e e' ps -> INR m <= 2 ^ 40 -> picks (length ps) key qs -> exists e2, getitem cc e' key = Ok e2.
Proof.
  intros cc phi Phi k means stds rows Hcc (Hk & HK & E1 & E2 & Lm & Ls & Hr). assert (Wr : forall row, In row rows -> wrow k row) by (intros row Hi; apply weights_wrow; [exact Hk|apply Hr, Hi]).
  assert (Ex : exists e, ens_new (create_of cc "mixmod") (mix_args k means stds rows) None = Ok e).
  { unfold ens_new. rewrite (create_mix cc phi Phi Hcc k Hk HK _ means stds rows (or_introl eq_refl) E1 Lm Ls Wr). cbn [bind check_array_shapes]. eexists. reflexivity. }
  destruct Ex as (e & He). exists e. split; [exact He|]. intros m e' ps key qs Hch Hm Hp.
  destruct (created_balanced cc phi Phi Hcc k Hk HK means stds rows None e E1 E2 Lm Ls Hr He) as (G & B).
  assert (M2 : INR (2 * m) <= 2 ^ 42) by (rewrite mult_INR; simpl (INR 2); simpl (2 ^ 40) in Hm; simpl (2 ^ 42); lra).
  destruct (chosen_mix cc phi Phi Hcc k Hk HK m e e' ps Hch M2 means stds _ G B) as (now & (ms & ss & N1) & N2 & Na & N3).
  assert (Ha : e_ancil e = None) by (unfold ens_new in He; destruct (create_of _ _ _); [|discriminate]; cbn [bind] in He; destruct (check_array_shapes _ _); [|discriminate]; cbn [bind] in He; injection He as <-; reflexivity).
  assert (Bn : forall row, In row now -> balanced k row) by (intros row Hi; apply In_nth with (d := []) in Hi; destruct Hi as (r & Hl & <-); rewrite N2 in Hl; apply (N3 r Hl)).
  apply picks_iff in Hp. rewrite <- N2 in Hp. pose proof (key_positions_lt _ _ _ Hp) as Lt. rewrite (getitem_mix cc phi Phi k Hk e' ms ss now key qs N1 (fun row Hi => proj1 (Bn row Hi)) Hp), (Na Ha). cbn [bind]. destruct N1 as (_ & M1 & M3 & M4 & M5).
  unfold ens_new. rewrite (create_mix cc phi Phi Hcc k Hk HK _ _ _ (select [] now qs) (or_intror eq_refl)); [cbn [bind check_array_shapes]; eexists; reflexivity|rewrite !select_length; reflexivity| | |].
  - apply (select_rows _ ms qs M4). rewrite M1. exact Lt.
  - apply (select_rows _ ss qs M5). rewrite M3. exact Lt.
  - apply (select_rows _ now qs); [|exact Lt]. intros row Hi. apply balanced_wrow; [exact Hk|exact HK|]. apply Bn, Hi.
Qed.
Definition only_mix (name : string) : option (vdict spec_float -> res (gobj spec_float)) := if String.eqb name "mixmod" then Some (mixmod_create (N := SFNum) (fun z => z) (fun z => z)) else None.
Definition m_row : list spec_float := [f64 4503599627370496 (-51); f64 7881299347898368 (-50); f64 4503599627370496 (-52)].
Definition m_one : list spec_float := [one64; one64; one64].
Example c146_example : mixture 3 [m_one] [m_one] [m_row] /\ total m_row = 10.
Proof.
  assert (T : total m_row = 10) by (unfold total, m_row; cbn [length rsum nth]; rewrite !val_f64; simpl bpow; lra). split; [|exact T].
  split; [lia|]. split; [simpl; lra|]. split; [reflexivity|]. split; [reflexivity|]. split; [intros l [<-|[]]; reflexivity|]. split; [intros l [<-|[]]; reflexivity|].
  intros row [<-|[]]. split; [reflexivity|]. split; [|rewrite T; pose proof (half_le 500 ltac:(lia)); lra].
  intros x H. cbn [m_row In] in H. destruct H as [<-|[<-|[<-|[]]]]; apply modest_f64_8; try reflexivity; simpl bpow; lra.
Qed.
(** The weights do change: 2, 7, 1 are stored as 0.2 + 2^-55, 0.7, 0.1 + 2^-56 with a total above 1; after a selection the first is 0.2. *)
Lemma c146_changes : exists e e' given now, ens_new (create_of only_mix "mixmod") (mix_args 3 [m_one] [m_one] [m_row]) None = Ok e /\ getitem only_mix e (KInt 0) = Ok e' /\
  reports_weights e 3 [given] /\ reports_weights e' 3 [now] /\ 1 < total given /\ val64 (nth 0 given zero64) = val64 (nth 0 now zero64) + / 2 ^ 55.
Proof.
  destruct c146_example as (M & _). pose proof M as (Hk & HK & E1 & E2 & Lm & Ls & Hr). assert (Hcc : only_mix "mixmod" = Some (mixmod_create (N := SFNum) (fun z => z) (fun z => z))) by reflexivity.
  destruct (c146_succeeds only_mix _ _ 3 _ _ _ Hcc M) as (e & He & Hs). destruct (created_balanced only_mix _ _ Hcc 3 Hk HK _ _ _ None e E1 E2 Lm Ls Hr He) as (G & B).
  pose proof (holds_npdf _ _ 3 Hk e _ _ _ G) as Np. assert (Hp : picks 1 (KInt 0) [0%nat]) by (apply picks_iff; reflexivity).
  destruct (Hs 0%nat e (seq 0 (e_npdf e)) (KInt 0) [0%nat] (chosen_none only_mix e)) as (e' & He'); [simpl; lra|rewrite seq_length, Np; exact Hp|].
  exists e, e', [f64 7205759403792795 (-55); f64 6305039478318695 (-53); f64 7205759403792795 (-56)], [f64 7205759403792794 (-55); f64 6305039478318695 (-53); f64 7205759403792794 (-56)].
  split; [exact He|]. split; [exact He'|].
  assert (V1 : map (fun l => wonce (wonce l)) [m_row] = [[f64 7205759403792795 (-55); f64 6305039478318695 (-53); f64 7205759403792795 (-56)]]) by (vm_compute; reflexivity). rewrite V1 in *.
  split; [apply (holds_reports _ _ 3 e _ _ _ G); intros row Hi; apply (B row Hi)|].
  rewrite (getitem_mix only_mix _ _ 3 Hk e _ _ _ (KInt 0) [0%nat] G) in He'; [|intros row Hi; apply (B row Hi)|reflexivity].
  pose proof (ens_new_ancil _ _ _ _ He) as Ha.
  rewrite Ha in He'. cbn [bind] in He'. cbn [select map nth] in He'.
  pose proof (made_mix only_mix _ _ Hcc 3 Hk HK _ [m_one] [m_one] [[f64 7205759403792795 (-55); f64 6305039478318695 (-53); f64 7205759403792795 (-56)]] None e' (or_intror eq_refl) eq_refl eq_refl Lm Ls
    (fun row Hi => balanced_wrow 3 Hk HK row (B row Hi)) He') as G'.
  assert (V2 : map (fun l => wonce (wonce l)) [[f64 7205759403792795 (-55); f64 6305039478318695 (-53); f64 7205759403792795 (-56)]] = [[f64 7205759403792794 (-55); f64 6305039478318695 (-53); f64 7205759403792794 (-56)]]) by (vm_compute; reflexivity). rewrite V2 in G'.
  split; [apply (holds_reports _ _ 3 e' _ _ _ G'); intros row [<-|[]]; reflexivity|]. split.
  - unfold total. cbn [length rsum nth]. rewrite !val_f64. simpl bpow. lra.
  - cbn [nth]. rewrite !val_f64. simpl bpow. simpl (2 ^ 55). lra.
Qed.
