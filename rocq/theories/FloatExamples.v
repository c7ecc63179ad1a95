(** A grid of doubles, [np.linspace(1, 2, 11)], on which the lookup answers edges by the bin below. *)
From Coq Require Import List Arith ZArith Bool Sorted Lia Reals Lra Psatz Floats.SpecFloat.
From Flocq Require Import Core.Zaux Core.Raux Core.Defs.
From Verif Require Import Num NumProofs Py NdArray NumpyLib Utils ScipyWrap SortProofs InterpProofs HistPdf Spec Float FloatProofs FloatHist FloatMachine FloatTheorems.
Import ListNotations.
Local Open Scope R_scope.

Definition f64 (m : positive) (e : Z) : spec_float := S754_finite false m e.
(** np.linspace(1, 2, 11): 1.0, 1.1, ..., 1.7000000000000002, 1.8, 1.9, 2.0 *)
Definition grid11 : list spec_float :=
  [f64 4503599627370496 (-52); f64 4953959590107546 (-52); f64 5404319552844595 (-52); f64 5854679515581645 (-52); f64 6305039478318694 (-52); f64 6755399441055744 (-52);
   f64 7205759403792794 (-52); f64 7656119366529844 (-52); f64 8106479329266893 (-52); f64 8556839292003942 (-52); f64 4503599627370496 (-51)].
Definition row10 : list spec_float := map (fun k => nofZ (Num := SFNum) (Z.of_nat k)) (seq 1 10).
Definition step11 : R := 450359962737050 * bpow radix2 (-52).

Lemma val_f64 m e : val64 (f64 m e) = IZR (Z.pos m) * bpow radix2 e. Proof. reflexivity. Qed.
Lemma grid11_double b : In b grid11 -> double b.
Proof.
  intros H. assert (P : 8 <= 2 ^ 1000) by (replace 1000%nat with (3 + 997)%nat by reflexivity; rewrite pow_add; pose proof (pow_R1_Rle 2 997 ltac:(lra)); simpl (2 ^ 3); lra).
  unfold grid11 in H. cbn [In] in H.
  repeat (destruct H as [<-|H]; [split; [reflexivity|]; rewrite val_f64, Rabs_pos_eq by (simpl; lra); simpl bpow; lra|]). contradiction.
Qed.
Lemma step11_val : step11 = rd (nth 1 (map val64 grid11) 0 - nth 0 (map val64 grid11) 0).
Proof.
  pose proof (mod_sub 1000 (nth 1 grid11 zero64) (nth 0 grid11 zero64) ltac:(lia)) as S.
  destruct S as [_ V]; [apply double_moderate, grid11_double; right; left; reflexivity|apply double_moderate, grid11_double; left; reflexivity|].
  rewrite <- !nth64. unfold zero64 in V. rewrite <- V.
  assert (C : SFsub 53 1024 (nth 1 grid11 (S754_zero false)) (nth 0 grid11 (S754_zero false)) = f64 7205759403792800 (-56)) by (vm_compute; reflexivity).
  rewrite C, val_f64. unfold step11. simpl bpow. lra.
Qed.
Lemma grid11_even : nearly_even (map val64 grid11) step11 (/ 2 ^ 50).
Proof.
  split; [apply step11_val|]. split; [unfold step11; simpl; lra|]. split; [unfold step11; simpl; lra|].
  intros i Hi. change (length (map val64 grid11)) with 11%nat in Hi. unfold step11.
  do 11 (destruct i as [|i]; [cbn [map nth grid11]; rewrite !val_f64, INR_IZR_INZ; cbn [Z.of_nat Pos.of_succ_nat Pos.succ]; simpl bpow; apply Rabs_le; lra|]). lia.
Qed.
Definition stored10 : list spec_float := hist_norm_row (N := SFNum) (bin_widths (N := SFNum) grid11) (hist_norm_row (N := SFNum) (bin_widths (N := SFNum) grid11) row10).
Lemma grid11_built : hist_ctor (N := SFNum) grid11 (nd2 10 [row10]) true = Ok (mkhist grid11 [stored10] [1%nat]).
Proof. apply (hist_build_64 grid11 [row10] true). intros r [<-|[]]. reflexivity. Qed.

(** Each of the edges 1.2, ..., 1.9 is answered by the bin below it, and 2.0 by the last bin. *)
Lemma grid11_edges : map (fun b => hist_ens_pdf (N := SFNum) (mkhist grid11 [stored10] [1%nat]) (PScalar b)) grid11 =
  map (fun i => Ok [[Fin (nth i stored10 zero64)]]) [0; 1; 1; 2; 3; 4; 5; 6; 7; 8; 9]%nat.
Proof. vm_compute. reflexivity. Qed.

Lemma c129_margin_needed : exists bins row h w d i,
  (forall b, In b bins -> double b) /\ nearly_even (map val64 bins) w d /\ (S i < length bins)%nat /\ length row = pred (length bins) /\
  hist_ctor (N := SFNum) bins (nd2 (pred (length bins)) [row]) true = Ok h /\
  exists v, answers (hist_ens_pdf (N := SFNum) h (PScalar (nth i bins zero64))) 1 v /\
    v 0%nat = nth (pred i) (nth 0 (h_pdfs h) []) zero64 /\ v 0%nat <> nth i (nth 0 (h_pdfs h) []) zero64.
Proof.
  exists grid11, row10, (mkhist grid11 [stored10] [1%nat]), step11, (/ 2 ^ 50), 2%nat.
  split; [apply grid11_double|]. split; [apply grid11_even|]. split; [cbn; lia|]. split; [reflexivity|]. split; [apply grid11_built|].
  exists (fun _ => nth 1 stored10 zero64). split; [|split; [reflexivity|vm_compute; discriminate]].
  pose proof (f_equal (fun l => nth 2 l (Err ValueError)) grid11_edges) as E. exact E.
Qed.

Example c129_example : (2 <= length grid11)%nat /\ (forall b, In b grid11 -> double b) /\ double (f64 5179139571476070 (-52)) /\
  nearly_even (map val64 grid11) step11 (/ 2 ^ 50) /\
  nth 1 (map val64 grid11) 0 + margin (map val64 grid11) step11 (/ 2 ^ 50) <= val64 (f64 5179139571476070 (-52)) <= nth 2 (map val64 grid11) 0 - margin (map val64 grid11) step11 (/ 2 ^ 50).
Proof.
  assert (P : 8 <= 2 ^ 1000) by (replace 1000%nat with (3 + 997)%nat by reflexivity; rewrite pow_add; pose proof (pow_R1_Rle 2 997 ltac:(lra)); simpl (2 ^ 3); lra).
  split; [cbn; lia|]. split; [apply grid11_double|]. split; [|split; [apply grid11_even|]].
  - split; [reflexivity|]. rewrite val_f64, Rabs_pos_eq by (simpl; lra). simpl bpow. lra.
  - unfold margin, step11. change (S (length (map val64 grid11))) with 12%nat. cbn [map nth grid11]. rewrite !val_f64, INR_IZR_INZ. cbn [Z.of_nat Pos.of_succ_nat Pos.succ]. simpl bpow. lra.
Qed.
Example c129_differ_example : let bins := [f64 4503599627370496 (-52); f64 4503599627370496 (-51); f64 4503599627370496 (-50)] in
  increasing (map val64 bins) /\ widths_differ (map val64 bins).
Proof.
  cbv zeta. cbn [map]. rewrite !val_f64. split.
  - repeat constructor; simpl bpow; lra.
  - exists 1%nat. split; [cbn; lia|]. cbn [nth]. simpl bpow. rewrite !Rabs_pos_eq by lra. lra.
Qed.
