(** Assembled histogram facts, used by Prop_Hist.v. *)
From Coq Require Import List Arith ZArith QArith Bool Sorted Lia Reals Lra.
From Coquelicot Require Import Coquelicot.
From Verif Require Import Num NumProofs Py NdArray NumpyLib Utils ScipyWrap HistPdf Spec
  SortProofs EvalProofs NdProofs InterpProofs IntegralProofs BinProofs HistProofs.
Import ListNotations.
Local Open Scope R_scope.

(** Legal input of the histogram constructor. *)
Definition hist_input (bins : list R) (rows : list (list R)) : Prop :=
  increasing bins /\ (2 <= length bins)%nat /\ rows <> [] /\
  forall row, In row rows ->
    length row = pred (length bins) /\
    (forall i, (i < length row)%nat -> 0 <= nth0 i row) /\
    0 < rsum (pred (length bins)) (fun i => nth0 i row * (nth0 (S i) bins - nth0 i bins)).

Lemma input_ok bins rows h : hist_input bins rows ->
  hist_ctor bins (nd2 (pred (length bins)) rows) true = Ok h ->
  hist_ok h /\ h = mkhist bins (map (hist_norm_row (bin_widths bins)) rows) [length rows].
Proof.
  intros (Hs & Hn & Hne & Hr) E. rewrite hist_build in E by (intros; apply Hr; auto). injection E as <-.
  split; auto. apply hist_build_ok; auto.
Qed.
Lemma npdf_built bins (rows : list (list R)) s : h_npdf (mkhist bins (map (hist_norm_row (bin_widths bins)) rows) s) = length rows.
Proof. unfold h_npdf. cbn [h_pdfs]. apply map_length. Qed.

Lemma evaluates_unique e n f g : evaluates e n f -> evaluates e n g -> forall r x, (r < n)%nat -> f r x = g r x.
Proof.
  intros Hf Hg r x Hr. specialize (Hf x). specialize (Hg x). rewrite Hf in Hg. injection Hg as E.
  assert (G : forall k s, In k (seq s n) -> map (fun r => [Fin (f r x)]) (seq s n) = map (fun r => [Fin (g r x)]) (seq s n) -> f k x = g k x).
  { clear. intros k s. revert s k. induction n; simpl; intros s k Hk E; [destruct Hk|].
    injection E as E1 E2. destruct Hk as [<-|Hk]; auto. eapply IHn; eauto. }
  apply (G r 0%nat); auto. apply in_seq. lia.
Qed.

Lemma c01_values : forall bins rows, hist_input bins rows ->
  exists h, hist_ctor bins (nd2 (pred (length bins)) rows) true = Ok h /\
    h_bins h = bins /\ length (h_pdfs h) = length rows /\
    forall r, (r < length rows)%nat ->
      (exists k, 0 < k /\ forall i, (i < pred (length bins))%nat ->
          at2 (h_pdfs h) r i = k * at2 rows r i) /\
      (forall i, (i < pred (length bins))%nat -> 0 <= at2 (h_pdfs h) r i) /\
      rsum (pred (length bins)) (fun i => at2 (h_pdfs h) r i * (nth0 (S i) bins - nth0 i bins)) = 1.
Proof.
  intros bins rows Hi. pose proof Hi as (Hs & Hn & Hne & Hr).
  eexists. split; [apply hist_build; intros; apply Hr; auto|]. cbn [h_bins h_pdfs].
  assert (Hok := hist_build_ok bins rows Hs Hn Hne Hr).
  split; auto. split; [apply map_length|]. intros r Hrr.
  assert (Hin : In (nth r rows []) rows) by (apply nth_In; auto).
  destruct (Hr _ Hin) as (L & P & M).
  assert (En : nth r (map (hist_norm_row (bin_widths bins)) rows) [] = hist_norm_row (bin_widths bins) (nth r rows [])).
  { rewrite nth_map_in with (d' := []); auto. }
  unfold at2. rewrite En. split; [|split].
  - exists (/ mass bins (nth r rows [])). split; [apply Rinv_0_lt_compat; exact M|].
    intros i Hii. rewrite norm_row_nth by auto. unfold Rdiv. lra.
  - intros i Hii. rewrite norm_row_nth by auto. apply Rmult_le_pos; [apply P; lia|].
    apply Rlt_le, Rinv_0_lt_compat; exact M.
  - apply (ho_mass _ Hok). cbn [h_pdfs]. rewrite <- En. apply nth_In. rewrite map_length. auto.
Qed.

Lemma c01_integral : forall bins rows h, hist_input bins rows -> sound_bins bins ->
  hist_ctor bins (nd2 (pred (length bins)) rows) true = Ok h ->
  exists f, evaluates (hist_ens_pdf h) (length rows) f /\
    forall r, (r < length rows)%nat ->
      (forall x, 0 <= f r x) /\
      is_RInt (f r) (nth0 0 bins) (nlast bins) 1 /\
      (forall x, x < nth0 0 bins \/ nlast bins < x -> f r x = 0).
Proof.
  intros bins rows h Hi Hb E. destruct (input_ok _ _ _ Hi E) as [Hok Eh].
  assert (Hk : h_npdf h = length rows) by (rewrite Eh; apply npdf_built).
  assert (Eb : h_bins h = bins) by (rewrite Eh; auto).
  exists (hf h). rewrite <- Hk. split; [apply hist_pdf_eval; apply (ho_npdf h Hok)|].
  intros r Hr. repeat split.
  - intros. apply hf_nonneg; auto.
  - rewrite <- Eb. rewrite <- (hF_at_end h Hok r Hr). apply hF_integral; auto.
    + rewrite Eb; auto.
    + pose proof (bins_range h Hok r Hr). split; lra.
  - intros x Hx. rewrite <- Eb in Hx. destruct Hi as (Hs & Hn & _). apply hf_outside; rewrite ?Eb; auto.
    rewrite <- Eb; auto.
Qed.

Lemma hist_input_example : hist_input [0; 1; 3] [[1; 2]; [0; 5]] /\ sound_bins [0; 1; 3].
Proof.
  split.
  - repeat split.
    + repeat constructor; lra.
    + simpl; lia.
    + discriminate.
    + destruct H as [<-|[<-|[]]]; auto.
    + destruct H as [<-|[<-|[]]]; intros [|[|i]] Hi; unfold nth0; simpl in *; try lra; lia.
    + destruct H as [<-|[<-|[]]]; unfold nth0; simpl; lra.
  - right. exists 1%nat. split; [simpl; lia|]. unfold nth0. simpl.
    replace (3 - 1 - (1 - 0)) with 1 by lra. replace (1 - 0) with 1 by lra. rewrite Rabs_R1. lra.
Qed.

Lemma ctor_npdf_pos bins rows chk (h : hist R) : rows <> [] -> 
  (forall row, In row rows -> length row = pred (length bins)) ->
  hist_ctor bins (nd2 (pred (length bins)) rows) chk = Ok h ->
  h_npdf h = length rows /\ (0 < h_npdf h)%nat /\ h_bins h = bins.
Proof.
  intros Hne Hr E. rewrite hist_build in E by auto. injection E as <-. unfold h_npdf. cbn [h_pdfs h_bins].
  rewrite map_length. repeat split; auto. destruct rows; [congruence|simpl; lia].
Qed.

Lemma c02_value : forall bins rows chk h, increasing bins -> (2 <= length bins)%nat ->
  rows <> [] -> (forall row, In row rows -> length row = pred (length bins)) -> sound_bins bins ->
  hist_ctor bins (nd2 (pred (length bins)) rows) chk = Ok h ->
  exists f, evaluates (hist_ens_pdf h) (length rows) f /\
    forall r x, (r < length rows)%nat ->
      (forall i, (S i < length bins)%nat -> nth0 i bins < x < nth0 (S i) bins -> f r x = at2 (h_pdfs h) r i) /\
      (x < nth0 0 bins \/ nlast bins < x -> f r x = 0) /\
      (equal_width bins -> forall i, (S i < length bins)%nat -> nth0 i bins <= x < nth0 (S i) bins ->
                           f r x = at2 (h_pdfs h) r i) /\
      (clearly_unequal bins -> forall i, (S i < length bins)%nat -> nth0 i bins < x <= nth0 (S i) bins ->
                           f r x = at2 (h_pdfs h) r i).
Proof.
  intros bins rows chk h Hs Hn Hne Hr Hb E. destruct (ctor_npdf_pos _ _ _ _ Hne Hr E) as (Hk & Hp & Eb).
  exists (hf h). rewrite <- Hk. split; [apply hist_pdf_eval; auto|].
  intros r x Hrr. repeat split.
  - intros i Hi Hx. apply hf_inside; rewrite ?Eb; auto.
  - intros Hx. apply hf_outside; rewrite ?Eb; auto.
  - intros He i Hi Hx. unfold hf, hist_point. rewrite Eb, (lookup_uniform bins x i) by auto. auto.
  - intros He i Hi Hx. unfold hf, hist_point. rewrite Eb, (lookup_irregular bins x i) by auto. auto.
Qed.
Lemma c02_edges : forall bins rows chk h, increasing bins -> (2 <= length bins)%nat ->
  rows <> [] -> (forall row, In row rows -> length row = pred (length bins)) ->
  hist_ctor bins (nd2 (pred (length bins)) rows) chk = Ok h ->
  exists f, evaluates (hist_ens_pdf h) (length rows) f /\
    forall r, (r < length rows)%nat ->
      (equal_width bins -> f r (nlast bins) = 0) /\ (clearly_unequal bins -> f r (nth0 0 bins) = 0).
Proof.
  intros bins rows chk h Hs Hn Hne Hr E. destruct (ctor_npdf_pos _ _ _ _ Hne Hr E) as (Hk & Hp & Eb).
  exists (hf h). rewrite <- Hk. split; [apply hist_pdf_eval; auto|].
  intros r Hrr. split; intros He; unfold hf, hist_point; rewrite Eb.
  - pose proof (lookup_uniform_out bins (nlast bins) Hs He Hn (or_intror (Rle_refl _))) as M.
    destruct (get_bin_indices bins (nlast bins)); simpl in M; subst; auto.
  - pose proof (lookup_irregular_out bins (nth0 0 bins) Hs He Hn (or_introl (Rle_refl _))) as M.
    destruct (get_bin_indices bins (nth0 0 bins)); simpl in M; subst; auto.
Qed.
Lemma c02_refuted :
  exists (bins : list Q) (rows : list (list Q)) (h : hist Q) (x : Q),
    hist_ctor bins (nd2 2 rows) true = Ok h /\
    (nth 1 bins 0 < x)%Q /\ (x < nth 2 bins 0)%Q /\ (0 < nth 1 (nth 0 (h_pdfs h) []) 0)%Q /\
    hist_ens_pdf h (PScalar x) = Ok [[Fin 0%Q]].
Proof.
  exists [0; 1 # 1000000000; 1 # 100000000]%Q, [[0; 1]]%Q, (mkhist [0; 1 # 1000000000; 1 # 100000000]%Q [[0; 1000000000 # 9]]%Q [1%nat]), (5 # 1000000000)%Q.
  vm_compute. repeat split; reflexivity.
Qed.

Lemma c03_cdf : forall bins rows h, hist_input bins rows ->
  hist_ctor bins (nd2 (pred (length bins)) rows) true = Ok h ->
  exists F, evaluates (hist_ens_cdf h) (length rows) F /\
    forall r, (r < length rows)%nat ->
      (forall x y, x <= y -> F r x <= F r y) /\
      (forall x, 0 <= F r x <= 1) /\
      (forall x, x <= nth0 0 bins -> F r x = 0) /\
      (forall x, nlast bins <= x -> F r x = 1) /\
      (forall i x, (S i < length bins)%nat -> nth0 i bins <= x <= nth0 (S i) bins ->
         F r x = rsum i (fun k => at2 (h_pdfs h) r k * (nth0 (S k) bins - nth0 k bins))
                 + at2 (h_pdfs h) r i * (x - nth0 i bins)) /\
      (sound_bins bins -> forall f, evaluates (hist_ens_pdf h) (length rows) f ->
         forall x, nth0 0 bins <= x <= nlast bins -> is_RInt (f r) (nth0 0 bins) x (F r x)).
Proof.
  intros bins rows h Hi E. destruct (input_ok _ _ _ Hi E) as [Hok Eh].
  assert (Hk : h_npdf h = length rows) by (rewrite Eh; apply npdf_built).
  assert (Eb : h_bins h = bins) by (rewrite Eh; auto).
  pose proof Hi as (Hs & Hn & _).
  exists (hF h). rewrite <- Hk. split; [apply hist_cdf_eval; auto|].
  intros r Hr. rewrite <- Eb in *. repeat split.
  - intros. apply hF_mono; auto.
  - apply hF_range; auto.
  - apply hF_range; auto.
  - intros. apply hF_below; auto.
  - intros. apply hF_above; auto.
  - intros i x Hii Hx. unfold hF.
    assert (Hl : length (hrow h r) = pred (length (h_bins h))) by (apply (ho_rows h Hok); apply hrow_in; auto).
    rewrite (c_interp (h_bins h) (hrow h r)) with (j := i) by auto.
    unfold at2. fold (hrow h r).
    assert (S : forall j, (j < length (h_bins h))%nat ->
        nth0 j (hist_cdf_row (bin_widths (h_bins h)) (hrow h r)) =
        rsum j (fun k => nth0 k (hrow h r) * (nth0 (S k) (h_bins h) - nth0 k (h_bins h)))).
    { induction j; intros Hj; [reflexivity|]. rewrite c_step by auto. cbn [rsum]. rewrite IHj by lia. auto. }
    rewrite S by lia. lra.
  - intros Hb f Hf x Hx. apply (is_RInt_ext (hf h r)).
    + intros y _. apply (evaluates_unique (hist_ens_pdf h) (h_npdf h)); auto.
      apply hist_pdf_eval. apply (ho_npdf h Hok).
    + apply hF_integral; auto.
Qed.

Lemma c04_ppf : forall bins rows h, hist_input bins rows ->
  hist_ctor bins (nd2 (pred (length bins)) rows) true = Ok h ->
  exists F Q, evaluates (hist_ens_cdf h) (length rows) F /\
    evaluates_on 0 1 (hist_ens_ppf h) (length rows) Q /\
    forall r, (r < length rows)%nat ->
      (forall p, 0 < p < 1 -> nth0 0 bins <= Q r p <= nlast bins /\ F r (Q r p) = p) /\
      (forall p q, 0 < p -> p <= q -> q < 1 -> Q r p <= Q r q) /\
      (forall p t, 0 < p < 1 -> (Q r p <= t -> p <= F r t) /\ (p < F r t -> Q r p < t)) /\
      (forall i x, (S i < length bins)%nat -> nth0 i bins < x < nth0 (S i) bins ->
         0 < at2 rows r i -> 0 < F r x < 1 -> Q r (F r x) = x).
Proof.
  intros bins rows h Hi E. destruct (input_ok _ _ _ Hi E) as [Hok Eh].
  assert (Hk : h_npdf h = length rows) by (rewrite Eh; apply npdf_built).
  assert (Eb : h_bins h = bins) by (rewrite Eh; auto).
  pose proof Hi as (Hs & Hn & Hne & Hr0).
  exists (hF h), (hQ h). rewrite <- Hk. split; [apply hist_cdf_eval; auto|].
  split; [apply hist_ppf_eval; apply (ho_npdf h Hok)|].
  intros r Hr. repeat split.
  - rewrite <- Eb. apply hQ_range; auto.
  - rewrite <- Eb. apply hQ_range; auto.
  - apply hFQ; auto.
  - intros. apply hQ_mono; auto.
  - intros Hx. rewrite <- (hFQ h Hok r Hr p) by auto. apply hF_mono; auto.
  - intros Hx. apply hQ_galois2; auto.
  - intros i x Hii Hx Hpos _. apply hQF with (j := i); rewrite ?Eb; auto; [|lra].
    assert (Hin : In (nth r rows []) rows) by (apply nth_In; rewrite <- Hk; auto).
    destruct (Hr0 _ Hin) as (L & P & M).
    unfold hrow. rewrite Eh. cbn [h_pdfs]. rewrite nth_map_in with (d' := []) by (rewrite <- Hk; auto).
    rewrite norm_row_nth by (auto; lia). apply Rmult_lt_0_compat; auto. apply Rinv_0_lt_compat; exact M.
Qed.
