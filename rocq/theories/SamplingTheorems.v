(** Random samples: proofs. *)
From Coq Require Import String List Arith ZArith QArith Bool Sorted Lia Reals Lra.
From Verif Require Import Num NumProofs Py NdArray NumpyLib Utils ScipyWrap HistPdf InterpPdf QuantPdf MixmodPdf Sampling Spec
  SortProofs EvalProofs NdProofs InterpProofs BinProofs HistProofs HistTheorems TableProofs InterpPdfProofs
  GridTheorems IrrTheorems EvalTheorems QuantTheorems MixmodTheorems.
Import ListNotations.
Local Open Scope R_scope.

(** Every sample of PDF [r] is the quantile of PDF [r] at the corresponding draw. *)
Definition samples_quantiles (rvs : nat -> list (list R) -> res (list (list R))) (npdf : nat) (Q : nat -> R -> R) : Prop :=
  forall size U, length U = npdf -> (forall l, In l U -> length l = size) ->
    (forall l u, In l U -> In u l -> 0 < u < 1) ->
    rvs size U = Ok (map (fun r => map (Q r) (nth r U [])) (seq 0 npdf)).

Lemma two_d_case size (U : list (list R)) npdf :
  get_eval_case (nd2 size U) (rvs_row npdf) = Ok (CASE_2D, nd2 size U, rvs_row npdf).
Proof. unfold get_eval_case, rvs_row, np_ndim. destruct (npdf =? 1)%nat; reflexivity. Qed.
Lemma rvs_row_dat npdf : (0 < npdf)%nat -> dat (rvs_row npdf) = seq 0 npdf.
Proof. intros H. unfold rvs_row. destruct (Nat.eqb_spec npdf 1) as [->|]; auto. Qed.

Lemma rvs_2d g npdf flat prod_ two_d m Q : (0 < npdf)%nat ->
  (forall x row, m x row = dispatch x row flat prod_ two_d) ->
  (forall xs rows, two_d xs rows = per_row_2d g xs rows) ->
  (forall r u, (r < npdf)%nat -> 0 < u < 1 -> g u r = Q r u) ->
  samples_quantiles (rv_rvs npdf m) npdf Q.
Proof.
  intros Hn Hm H2 Hg size U HU Hl H01. unfold rv_rvs. rewrite Hm. unfold dispatch. rewrite two_d_case. cbn [bind].
  rewrite rows_of_nd2 by auto. rewrite H2, rvs_row_dat by auto. cbn [bind]. f_equal.
  unfold per_row_2d. change (map2 (fun xr r => map (fun xv => g xv r) xr) U (seq 0 npdf)) with (pointwise g U (seq 0 npdf)).
  rewrite pointwise_nth by auto.
  assert (C : forall n (ls : list (list R)), length ls = n -> (forall l0, In l0 ls -> length l0 = size) ->
              chunks n size (concat ls) = ls) by (intros n ls <- Hls; apply chunks_concat; auto).
  rewrite C.
  - apply map_seq_ext. intros r Hr. apply map_ext_in. intros u Hu. apply Hg; auto. 
    apply (H01 (nth r U [])); auto. apply nth_In. lia.
  - rewrite map_length, seq_length. auto.
  - intros l0 H0. apply in_map_iff in H0. destruct H0 as (r & <- & Hr). rewrite map_length. apply Hl, nth_In. apply in_seq in Hr. lia.
Qed.

Lemma hist_rvs : forall bins rows h, hist_input bins rows -> hist_ctor bins (nd2 (pred (length bins)) rows) true = Ok h ->
  exists F Q, evaluates (hist_ens_cdf h) (length rows) F /\ evaluates_on 0 1 (hist_ens_ppf h) (length rows) Q /\
    samples_quantiles (hist_ens_rvs h) (length rows) Q /\
    forall r u x, (r < length rows)%nat -> 0 < u < 1 ->
      (u < F r x -> Q r u <= x) /\ (Q r u <= x -> u <= F r x).
Proof.
  intros bins rows h Hi E. destruct (input_ok _ _ _ Hi E) as [Hok Eh].
  assert (Hk : h_npdf h = length rows) by (rewrite Eh; apply npdf_built).
  exists (hF h), (hQ h). rewrite <- Hk. assert (Hp := ho_npdf h Hok).
  split; [apply hist_cdf_eval; auto|]. split; [apply hist_ppf_eval; auto|]. split.
  - eapply rvs_2d; [exact Hp|reflexivity|reflexivity|].
    intros r u Hr Hu. cbv beta. rewrite h_cdfs_nth by auto. reflexivity.
  - intros r u x Hr Hu. split; intros H.
    + apply Rlt_le. apply hQ_galois2; auto.
    + rewrite <- (hFQ h Hok r Hr u Hu). apply hF_mono; auto.
Qed.
Lemma interp_rvs : forall xs rows i, interp_input xs rows -> interp_ctor xs (nd2 (length xs) rows) true = Ok i ->
  exists Q, evaluates_on 0 1 (interp_ens_ppf i) (length rows) Q /\ samples_quantiles (interp_ens_rvs i) (length rows) Q.
Proof.
  intros xs rows i Hi E. pose proof (i_eq xs rows i Hi E) as Ei. pose proof (i_np xs rows i Hi E) as Hk.
  pose proof (i_rows xs rows Hi) as Hp.
  exists (iQ xs rows). split; [apply interp_evals; auto|]. rewrite <- Hk in *.
  unfold interp_ens_rvs. eapply rvs_2d; [exact Hp|reflexivity|reflexivity|].
  intros r u Hr Hu. cbv beta. rewrite Hk in Hr. rewrite Ei. cbn [i_cumul i_xvals]. rewrite nth_map_in with (d' := []) by auto. reflexivity.
Qed.
Lemma irr_rvs : forall n xr yr o, irr_input n xr yr -> irr_ctor (nd2 n xr) (nd2 n yr) true = Ok o ->
  exists F Q, evaluates (irr_ens_cdf o) (length xr) F /\ evaluates_on 0 1 (irr_ens_ppf o) (length xr) Q /\
    samples_quantiles (irr_ens_rvs o) (length xr) Q /\
    forall r u x, (r < length xr)%nat -> 0 < u < 1 ->
      (u < F r x -> Q r u <= x) /\ (Q r u <= x -> u <= F r x).
Proof.
  intros n xr yr o Hi E. pose proof (r_np n xr yr o Hi E) as Hk. pose proof (r_rows n xr yr Hi) as Hp.
  exists (rF xr yr), (rQ xr yr (r_xmin o) (r_xmax o)). assert (Hrow := fun r => r_yrow n xr yr o r Hi E).
  destruct (irr_evals n xr yr o Hi E) as (_ & H2 & H3). split; auto. split; auto.
  assert (HFQ : forall r u, (r < length xr)%nat -> 0 < u < 1 -> rF xr yr r (rQ xr yr (r_xmin o) (r_xmax o) r u) = u).
  { intros r u Hr Hu. destruct (rx_facts n xr yr Hi r Hr) as [L I]. unfold rF, rQ.
    apply tFQ; auto.
    - apply (r_n n xr yr Hi r Hr).
    - apply (rc_len n xr yr Hi r Hr).
    - apply (rc_nondec n xr yr Hi r Hr).
    - apply (rc_last n xr yr Hi r Hr).
    - rewrite rc_0. lra. }
  assert (Hmono : forall r x y, (r < length xr)%nat -> x <= y -> rF xr yr r x <= rF xr yr r y).
  { intros r x y Hr Hxy. destruct (rx_facts n xr yr Hi r Hr) as [L I]. unfold rF. apply tF_mono; auto.
    - apply (r_n n xr yr Hi r Hr).
    - apply (rc_len n xr yr Hi r Hr).
    - apply (rc_nondec n xr yr Hi r Hr).
    - rewrite rc_0. lra.
    - apply (rc_last n xr yr Hi r Hr). }
  split.
  - rewrite <- Hk in *. unfold irr_ens_rvs. eapply rvs_2d; [exact Hp|reflexivity|reflexivity|].
    intros r u Hr Hu. cbv beta. destruct (Hrow r Hr) as (-> & _ & ->). reflexivity.
  - intros r u x Hr Hu. split; intros H.
    + destruct (Rle_dec (rQ xr yr (r_xmin o) (r_xmax o) r u) x); auto.
      assert (rF xr yr r x <= rF xr yr r (rQ xr yr (r_xmin o) (r_xmax o) r u)) by (apply Hmono; auto; lra).
      rewrite HFQ in H0 by auto. lra.
    + rewrite <- (HFQ r u Hr Hu). apply Hmono; auto.
Qed.
Lemma quant_rvs : forall quad quants rows name q, quant_input quants rows -> In name pdf_constructor_names ->
  quant_ctor quants (nd2 (length quants) rows) true name = Ok q -> (3 <= length (q_quants q))%nat ->
  (2 <= length rows)%nat ->
  exists Q, evaluates_on 0 1 (quant_ens_ppf quad q) (length rows) Q /\ samples_quantiles (quant_ens_rvs quad q) (length rows) Q.
Proof.
  intros quad quants rows name q Hi Hnm E H3 H2.
  rewrite <- (qb_npdf quants rows _ q Hi Hnm E) in *. pose proof (qb_pos quants rows _ q Hi Hnm E) as Hp.
  pose proof (quant_ppf_dispatches quad q H3) as Hpp.
  exists (fun r x => quad (q_quants q) (nth r (q_locs q) []) (q_xmin q) (q_xmax q) x). split.
  - intros x Hx. unfold quant_ens_ppf, rv_ppf. rewrite (rv_eval_scalar _ _ _ _ _ _ Hpp); auto.
    numR. destruct (nltb_reflect 0 x); [|lra]. destruct (nltb_reflect x 1); [auto|lra].
  - intros size U HU Hl H01. unfold quant_ens_rvs. destruct (Nat.eqb_spec (q_npdf q) 1); [lia|].
    revert size U HU Hl H01.
    apply (rvs_2d (fun xv rv => quad (q_quants q) (nth rv (q_locs q) []) (q_xmin q) (q_xmax q) xv) (q_npdf q)
       (vectorize2 (fun xv rv => quad (q_quants q) (nth rv (q_locs q) []) (q_xmin q) (q_xmax q) xv))
       (fun xs rows =>
           match rows with
           | [r] => map (quad (q_quants q) (nth r (q_locs q) []) (q_xmin q) (q_xmax q)) xs
           | _ => per_row (fun r => map (quad (q_quants q) (nth r (q_locs q) []) (q_xmin q) (q_xmax q)) xs) rows
           end)
       (per_row_2d (fun xv rv => quad (q_quants q) (nth rv (q_locs q) []) (q_xmin q) (q_xmax q) xv))); auto.
    intros x row. unfold quant_ppf.
    replace (length (q_quants q) <? 3)%nat with false by (symmetry; apply Nat.ltb_ge; auto). reflexivity.
Qed.
Lemma quant_rvs_single : forall quad quants row name q size U, quant_input quants [row] -> In name pdf_constructor_names ->
  quant_ctor quants (nd2 (length quants) [row]) true name = Ok q ->
  quant_ens_rvs quad q size U = Err ValueError.
Proof.
  intros quad quants row name q size U Hi Hnm E. unfold quant_ens_rvs.
  rewrite (qb_npdf quants [row] _ q Hi Hnm E). reflexivity.
Qed.
Lemma mixmod_rvs : forall Phi (m : mixmod R) size U, mixmod_ens_rvs Phi m size U = Err ValueError.
Proof. intros. unfold mixmod_ens_rvs, rv_rvs, mixmod_ppf. rewrite two_d_case. reflexivity. Qed.
Lemma c70_ex : (hist_input [0; 1; 3] [[1; 2]; [0; 5]] /\ interp_input [0; 1; 3] [[1; 2; 0]; [0; 5; 5]]) /\
  irr_input 3 [[0; 1; 3]; [1; 2; 5]] [[1; 2; 0]; [0; 5; 5]] /\ quant_input [1/4; 1/2; 3/4] [[0; 1; 3]; [-2; 5; 6]].
Proof.
  split; [split|split].
  - apply hist_input_example.
  - apply interp_input_example.
  - apply irr_input_example.
  - apply quant_input_example.
Qed.
