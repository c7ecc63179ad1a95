(** C125: with the normal law itself the PDFs are probability distributions. *)
From Coq Require Import String List Arith ZArith Bool Lia Reals Lra.
From Coquelicot Require Import Coquelicot.
From Verif Require Import Num NumProofs Py NdArray NumpyLib Utils ScipyWrap Spec Values Ensemble Classes
  HistPdf InterpPdf QuantPdf MixmodPdf Packing PackedPdf
  SortProofs BinProofs EvalProofs NdProofs InterpProofs HistProofs HistTheorems TableProofs InterpPdfProofs GridTheorems IrrTheorems
  QuantTheorems MixmodTheorems PackingTheorems PackedTheorems Kinds KindProofs EnsembleProofs KindInputs ReachProofs AppendProofs EnsembleTheorems
  RowProofs IntegrateTheorems Gauss.
Import ListNotations.
Local Open Scope string_scope.
Local Open Scope list_scope.
Local Open Scope R_scope.

Lemma total_steps (F : R -> R) a b : (forall x, x < a -> F x = 0) -> (forall x, b < x -> F x = 1) -> total F.
Proof.
  intros Ha Hb. split; apply is_lim_spec; intros eps; [exists a|exists b]; intros x Hx; [rewrite Ha by auto|rewrite Hb by auto];
    rewrite Rminus_eq_0, Rabs_R0; apply cond_pos.
Qed.
Lemma total_interp xs ys : total (interp1d xs ys 0 1).
Proof.
  apply (total_steps _ (nhead xs) (Rmax (nhead xs) (nlast xs))); intros x Hx; unfold interp1d.
  - destruct (nltb_reflect x (nhead xs)) as [_|H]; [reflexivity|exfalso; apply H; exact Hx].
  - pose proof (Rmax_l (nhead xs) (nlast xs)). pose proof (Rmax_r (nhead xs) (nlast xs)).
    destruct (nltb_reflect x (nhead xs)) as [H1|_]; [cbn in H1; lra|]. destruct (nltb_reflect (nlast xs) x) as [_|H1]; [reflexivity|exfalso; apply H1; cbn; lra].
Qed.
Lemma total_scaled (Phi : R -> R) m s : 0 < s -> total Phi -> total (fun x => Phi ((x - m) / s)).
Proof.
  intros Hs [H0 H1]. apply is_lim_spec in H0. apply is_lim_spec in H1. split; apply is_lim_spec; intros eps.
  - destruct (H0 eps) as (B & HB). exists (m + s * B). intros x Hx. apply HB. apply (Rmult_lt_reg_r s); auto. unfold Rdiv. rewrite Rmult_assoc, Rinv_l by lra. lra.
  - destruct (H1 eps) as (B & HB). exists (m + s * B). intros x Hx. apply HB. apply (Rmult_lt_reg_r s); auto. unfold Rdiv. rewrite Rmult_assoc, Rinv_l by lra. lra.
Qed.
Lemma lim_rsum n (w : nat -> R) (F : nat -> R -> R) (p : Rbar) (l : R) : (forall i, (i < n)%nat -> is_lim (F i) p l) ->
  is_lim (fun x => rsum n (fun i => w i * F i x)) p (rsum n w * l).
Proof.
  induction n as [|n IH]; intros H.
  - cbn [rsum]. replace (0 * l) with 0 by ring. apply is_lim_const.
  - cbn [rsum]. replace ((rsum n w + w n) * l) with (rsum n w * l + w n * l) by ring.
    apply (is_lim_plus' (fun x => rsum n (fun i => w i * F i x)) (fun x => w n * F n x)); [apply IH; auto|].
    apply (is_lim_scal_l (F n) (w n) p l). auto.
Qed.
Lemma total_rsum n (w : nat -> R) (F : nat -> R -> R) : rsum n w = 1 -> (forall i, (i < n)%nat -> total (F i)) -> total (fun x => rsum n (fun i => w i * F i x)).
Proof.
  intros Hw HF. split; [replace (Finite 0) with (Finite (rsum n w * 0)) by (f_equal; ring)|replace (Finite 1) with (Finite (rsum n w * 1)) by (f_equal; lra)];
    apply lim_rsum; intros i Hi; apply HF; auto.
Qed.
Definition scaled (k : kind) (d : row) : Prop := match k with KNorm => 0 < nth0 0 (num_at 1 d) | _ => True end.
Lemma inputs_scaled : forall i, input_ok i -> List.Forall (scaled (input_kind i)) (input_rows i).
Proof.
  intros i Hi. destruct i; try (apply Forall_forall; intros; exact I). destruct Hi as (_ & Hl & Hs). cbn [input_kind input_rows].
  apply Forall_forall. intros d Hd. apply map2_rows_in in Hd. destruct Hd as (r & l & s & H1 & H2 & _ & Es & ->). cbn. apply Hs. apply nth_error_In with r. exact Es.
Qed.
(** the rows of a class other than quant and spline *)
Lemma row_total X k d : total (s_Phi X) -> good_kind k -> good_row k d -> scaled k d -> (forall q nm, k <> KQuant q nm) -> (forall n, k <> KSpline n) -> total (cdf_of X k d).
Proof.
  intros HT Hk Hg Hs Hq Hsp. destruct k as [bins|xs|n|n|q nm|xs pt lf|n|xs mu sig dims n|]; try (exfalso; eapply Hq; reflexivity); try (exfalso; eapply Hsp; reflexivity).
  - apply total_interp.
  - apply total_interp.
  - apply total_interp.
  - destruct Hg as (Hf & Hw0 & Hw1 & Hw2). unfold cdf_of. cbn [val].
    apply (total_rsum n (fun i => nth0 i (num_at 0 d)) (fun i x => s_Phi X ((x - nth0 i (num_at 2 d)) / nth0 i (num_at 1 d)))).
    + rewrite nsum_rsum in Hw1. assert (L : length (num_at 0 d) = n); [|rewrite L in Hw1; exact Hw1].
      exact (row_fits_num _ 0 n d "weights" Hf eq_refl).
    + intros i Hi. apply total_scaled; auto.
  - apply total_interp.
  - apply total_interp.
  - unfold cdf_of. cbn [val]. apply (total_scaled (s_Phi X) (nth0 0 (num_at 0 d)) (nth0 0 (num_at 1 d))); auto.
Qed.

Lemma c125_total : forall X M e, fill_outside X -> normal_laws (s_phi X) (s_Phi X) -> total (s_Phi X) -> made X M e -> proper_class e ->
  exists f F, computes (ens_pdf e) (e_npdf e) f /\ computes (ens_cdf e) (e_npdf e) F /\
    forall r, (r < e_npdf e)%nat -> distribution (f r) (F r) /\ total (F r).
Proof.
  intros X M e HX HN HT He Hc. destruct (made_rows X HX scaled inputs_scaled M e He) as (k & D & HD & Hp).
  destruct (c81_proper X M e HX HN He Hc) as (f & F & Hf & HF & Hd). exists f, F. split; [exact Hf|]. split; [exact HF|].
  intros r Hr. split; [apply Hd; exact Hr|].
  assert (Hk : forall q nm, k <> KQuant q nm).
  { intros q nm ->. apply (proj1 Hc). destruct (rep_meta _ _ _ _ HD) as (_ & _ & ->). reflexivity. }
  assert (Hk2 : forall n, k <> KSpline n).
  { intros n ->. apply (proj2 Hc). destruct (rep_meta _ _ _ _ HD) as (_ & _ & ->). reflexivity. }
  pose proof (rep_computes X k D e MCdf (cdf_of X k) HD (cdf_in k) (cdf_fin X k)) as HF'.
  assert (E : forall x, F r x = cdf_of X k (nth r D []) x).
  { intros x. destruct HF as [HF _]. destruct HF' as [HF' _]. specialize (HF x). specialize (HF' x). change (evaluate MCdf e) with (ens_cdf e) in HF'. rewrite HF in HF'. injection HF' as E.
    assert (E2 : nth r (map (fun r => [Fin (F r x)]) (seq 0 (e_npdf e))) [] = nth r (map (fun r => [Fin (cdf_of X k (nth r D []) x)]) (seq 0 (e_npdf e))) []) by (rewrite E; reflexivity).
    rewrite !(nth_map_in _ (seq 0 (e_npdf e)) r [] 0%nat) in E2 by (rewrite seq_length; auto). rewrite !seq_nth in E2 by auto. cbn [Nat.add] in E2. congruence. }
  rewrite (rep_npdf' X k D e HD) in Hr. pose proof HD as (Hgk & _ & Hgr & _). rewrite Forall_forall in Hp, Hgr.
  destruct (row_total X k (nth r D []) HT Hgk (Hgr _ (nth_In D [] Hr)) (Hp _ (nth_In D [] Hr)) Hk Hk2) as [T1 T2].
  split; [apply (is_lim_ext (cdf_of X k (nth r D [])))|apply (is_lim_ext (cdf_of X k (nth r D [])))]; auto.
Qed.
(** ** Mixtures and normal distributions: the pdf integrates to the cdf *)
Lemma derive_scaled (m s x : R) : 0 < s -> is_derive (fun x => Gauss ((x - m) / s)) x (gauss ((x - m) / s) / s).
Proof.
  intros Hs. replace (gauss ((x - m) / s) / s) with (scal (/ s) (gauss ((x - m) / s))) by (unfold scal; simpl; unfold mult; simpl; unfold Rdiv; ring).
  apply (is_derive_comp Gauss (fun x => (x - m) / s)); [apply Gauss_derive|]. auto_derive; [auto|]. unfold Rdiv. ring.
Qed.
Lemma cont_scaled (m s x : R) : continuous (fun x => gauss ((x - m) / s) / s) x.
Proof. apply (ex_derive_continuous (V := R_NormedModule)). unfold gauss. auto_derive. auto. Qed.
Lemma int_scaled (m s a b : R) : 0 < s -> is_RInt (fun x => gauss ((x - m) / s) / s) a b (Gauss ((b - m) / s) - Gauss ((a - m) / s)).
Proof.
  intros Hs. apply (is_RInt_derive (V := R_CompleteNormedModule) (fun x => Gauss ((x - m) / s)) (fun x => gauss ((x - m) / s) / s)); [intros; apply derive_scaled; auto|intros; apply cont_scaled].
Qed.
Lemma int_rsum n (w : nat -> R) (f : nat -> R -> R) (G : nat -> R) a b : (forall i, (i < n)%nat -> is_RInt (f i) a b (G i)) ->
  is_RInt (fun x => rsum n (fun i => w i * f i x)) a b (rsum n (fun i => w i * G i)).
Proof.
  induction n as [|n IH]; intros H; cbn [rsum].
  - pose proof (is_RInt_const (V := R_NormedModule) a b 0) as HC. unfold scal in HC; simpl in HC; unfold mult in HC; simpl in HC. rewrite Rmult_0_r in HC. exact HC.
  - apply (is_RInt_plus (V := R_NormedModule) (fun x => rsum n (fun i => w i * f i x)) (fun x => w n * f n x)); [apply IH; auto|].
    apply (is_RInt_scal (V := R_NormedModule) (f n)). auto.
Qed.
Lemma rsum_minus n (f g : nat -> R) : rsum n f - rsum n g = rsum n (fun i => f i - g i).
Proof. induction n as [|n IH]; cbn [rsum]; [lra|]. rewrite <- IH. lra. Qed.
Lemma c125_integral : forall X M e, fill_outside X -> s_phi X = gauss -> s_Phi X = Gauss -> made X M e -> g_name (e_obj e) = "mixmod" \/ g_name (e_obj e) = "norm" ->
  exists f F, computes (ens_pdf e) (e_npdf e) f /\ computes (ens_cdf e) (e_npdf e) F /\
    forall r, (r < e_npdf e)%nat -> (forall a b, is_RInt (f r) a b (F r b - F r a)) /\ (forall x, 0 <= f r x) /\ total (F r).
Proof.
  intros X M e HX Hphi HPhi He Hn. destruct (made_rows X HX scaled inputs_scaled M e He) as (k & D & HD & Hp).
  assert (HN : normal_laws (s_phi X) (s_Phi X)) by (rewrite Hphi, HPhi; apply gauss_laws).
  assert (HT : total (s_Phi X)) by (rewrite HPhi; apply Gauss_total).
  assert (Hc : proper_class e) by (split; destruct Hn as [-> | ->]; discriminate).
  assert (Hk : exists n, k = KMix n \/ k = KNorm).
  { destruct (rep_meta _ _ _ _ HD) as (_ & _ & E). rewrite E in Hn. destruct k; cbn in Hn; destruct Hn as [Hn|Hn]; try discriminate; first [eexists; left; reflexivity|exists 0%nat; right; reflexivity]. }
  assert (Hk1 : forall q nm, k <> KQuant q nm) by (intros q nm ->; destruct Hk as (n & [Hk|Hk]); discriminate).
  assert (Hk2 : forall n, k <> KSpline n) by (intros q ->; destruct Hk as (n & [Hk|Hk]); discriminate).
  exists (fun r => pdf_of X k (nth r D [])), (fun r => cdf_of X k (nth r D [])).
  split; [apply (rep_computes X k D e MPdf (pdf_of X k) HD); [apply pdf_in; auto|apply pdf_fin]|].
  split; [apply (rep_computes X k D e MCdf (cdf_of X k) HD); [apply cdf_in|apply cdf_fin]|].
  rewrite (rep_npdf' X k D e HD). intros r Hr. pose proof HD as (Hgk & _ & Hgr & _). rewrite Forall_forall in Hp, Hgr.
  specialize (Hgr _ (nth_In D [] Hr)). specialize (Hp _ (nth_In D [] Hr)).
  split; [|split; [|apply row_total; auto]].
  - intros a b. destruct Hk as (n & [-> | ->]).
    + destruct Hgr as (_ & Hw0 & _ & Hw2). unfold pdf_of, cdf_of. cbn [val]. rewrite Hphi, HPhi, rsum_minus.
      rewrite (rsum_ext _ _ (fun i => nth0 i (num_at 0 (nth r D [])) * (Gauss ((b - nth0 i (num_at 2 (nth r D []))) / nth0 i (num_at 1 (nth r D []))) - Gauss ((a - nth0 i (num_at 2 (nth r D []))) / nth0 i (num_at 1 (nth r D [])))))) by (intros; ring).
      apply (int_rsum n (fun i => nth0 i (num_at 0 (nth r D []))) (fun i x => gauss ((x - nth0 i (num_at 2 (nth r D []))) / nth0 i (num_at 1 (nth r D []))) / nth0 i (num_at 1 (nth r D [])))).
      intros i Hi. apply int_scaled. apply Hw2. auto.
    + unfold pdf_of, cdf_of. cbn [val]. rewrite Hphi, HPhi. apply int_scaled. exact Hp.
  - intros x. destruct Hk as (n & [-> | ->]).
    + destruct Hgr as (_ & Hw0 & _ & Hw2). unfold pdf_of. cbn [val]. rewrite Hphi. apply rsum_ge0. intros i Hi. apply Rmult_le_pos; [apply Hw0; auto|].
      apply Rmult_le_pos; [left; apply gauss_pos|left; apply Rinv_0_lt_compat, Hw2; auto].
    + unfold pdf_of. cbn [val]. rewrite Hphi. apply Rmult_le_pos; [left; apply gauss_pos|left; apply Rinv_0_lt_compat; exact Hp].
Qed.
Lemma c125_laws : normal_laws gauss Gauss /\ total Gauss.
Proof. split; [apply gauss_laws|apply Gauss_total]. Qed.
(** the tails of the normal law *)
Lemma c125_tails : forall z, (0 <= z -> 1 - Gauss z <= exp (- (z * z) / 2)) /\ (z <= 0 -> Gauss z <= exp (- (z * z) / 2)).
Proof. exact Gauss_tail. Qed.
Definition scipy2 : scipy := mkscipy gauss Gauss (fun p => Fin p) interp1d (fun _ _ x => x) (fun _ _ x => x).
Lemma c125_example : exists M e, fill_outside scipy2 /\ s_phi scipy2 = gauss /\ s_Phi scipy2 = Gauss /\ made scipy2 M e /\ g_name (e_obj e) = "mixmod" /\ e_npdf e = 2%nat.
Proof.
  assert (HX : fill_outside scipy2) by exact scipy1_fill.
  assert (Hi : input_ok (IMix 2 [[0; 1]; [3; 5]] [[1; 2]; [1; 1]] [[1; 3]; [2; 0]])) by exact mix_input_example.
  destruct (made_new scipy2 _ None HX Hi I) as (e & _ & _ & Hm & Hn & _ & Hg).
  eexists. exists e. split; [exact HX|]. do 2 (split; [reflexivity|]). split; [exact Hm|]. split; [exact Hg|exact Hn].
Qed.
