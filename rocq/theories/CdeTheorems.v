(** The conditional density loss when the numbers of PDFs and of references differ. *)
From Coq Require Import String List Arith ZArith Bool Lia Reals Lra Sorted.
From Verif Require Import Num NumProofs Py NdArray NumpyLib Utils ScipyWrap Spec Values Ensemble Classes
  HistPdf InterpPdf QuantPdf MixmodPdf Packing PackedPdf
  SortProofs BinProofs EvalProofs NdProofs InterpProofs HistProofs InterpPdfProofs HistTheorems GridTheorems IrrTheorems
  QuantTheorems MixmodTheorems PackingTheorems PackedTheorems Kinds KindProofs EnsembleProofs KindInputs ReachProofs AppendProofs
  RowProofs EnsembleTheorems IntegrateTheorems Hdf5 Hdf5Proofs WriteProofs Hdf5Theorems Metrics MetricsProofs BrierProofs KldProofs MetricsTheorems MetricsExamples.
Import ListNotations.
Local Open Scope string_scope.
Local Open Scope list_scope.
Local Open Scope R_scope.

(** [x] is a grid point nearest to [z]. *)
Definition nearest_point (xs : list R) (z x : R) : Prop := In x xs /\ forall y, In y xs -> Rabs (x - z) <= Rabs (y - z).
(** integral of the squared density over the grid, trapezoidal rule *)
Definition square_integral (xs : list R) (f : R -> R) : R := trapezoid xs (fun x => f x * f x).

Lemma nearest_is xs z : xs <> [] -> nearest_point xs z (nth (nearest xs z) xs 0).
Proof.
  intros H. destruct (nearest_spec xs z H) as [A B]. split; [apply nth_In; exact A|]. intros y Hy. destruct (In_nth _ _ 0 Hy) as (j & Hj & <-). apply B. exact Hj.
Qed.
Lemma terms_other X e m f xs ref : has_density X e m f -> increasing xs -> xs <> [] -> length ref <> m ->
  cde_terms xs e ref = let near z := nth (nearest xs z) xs 0 in
    match ref with
    | [z] => Ok (map (cde_square xs f) (seq 0 m), map (fun j => f j (near z)) (seq 0 m))
    | _ => if (m =? 1)%nat then Ok (map (cde_square xs f) (seq 0 m), map (fun z => f 0%nat (near z)) ref) else Err IndexError
    end.
Proof.
  intros (_ & Hn & _ & Hg) Hinc Hne Hl. unfold cde_terms. rewrite (Hg xs Hinc). unfold table, fin. cbn [bind].
  destruct (Nat.eqb_spec (length xs) 0) as [E|_]; [destruct xs; [congruence|discriminate]|]. cbn [andb]. rewrite map_length, Hn.
  destruct (Nat.eqb_spec (length ref) m) as [E|_]; [congruence|].
  assert (T1 : map (fun line => np_trapz (map (fun y => nmul y y) line) xs) (map (map xval) (map (fun r => map (fun x => Fin (f r x)) xs) (seq 0 m))) = map (cde_square xs f) (seq 0 m)).
  { rewrite !map_map. apply map_ext. intros j. rewrite !map_map. cbn [xval]. apply (trapz_eq (fun x => sq (f j x)) xs). }
  rewrite T1.
  assert (G : forall j z, nth0 (nearest xs z) (map xval (map (fun x => Fin (f j x)) xs)) = f j (nth (nearest xs z) xs 0)).
  { intros j z. rewrite map_map. cbn [xval]. destruct (nearest_spec xs z Hne) as [Hlt _]. unfold nth0. rewrite (nth_indep _ n0 (f j 0)) by (rewrite map_length; exact Hlt). apply (map_nth (f j)). }
  assert (H1 : forall l : list R, m = 1%nat -> map (fun j => nth0 j (hd [] (map (map xval) (map (fun r => map (fun x => Fin (f r x)) xs) (seq 0 m))))) (map (nearest xs) l) =
    map (fun z => f 0%nat (nth (nearest xs z) xs 0)) l).
  { intros l ->. cbn [seq map hd]. rewrite map_map. apply map_ext. intros z. apply G. }
  destruct ref as [|z [|z' ref]]; cbv zeta.
  - cbn [map]. destruct (Nat.eqb_spec m 1) as [E|_]; reflexivity.
  - cbn [map]. do 2 f_equal. rewrite !map_map. apply map_ext. intros j. apply G.
  - cbn [map]. destruct (Nat.eqb_spec m 1) as [E|_]; [|reflexivity]. do 2 f_equal. apply (H1 (z :: z' :: ref) E).
Qed.
Lemma nsum_list (l : list R) : nsum l = rsum (length l) (fun i => nth i l 0).
Proof. rewrite <- nsum_seq. f_equal. rewrite <- (map_id l) at 1. apply (map_nth_seq (fun x => x) l). Qed.
Lemma xmean_list (l : list R) : l <> [] -> xmean l = Fin (rsum (length l) (fun i => nth i l 0) / INR (length l)).
Proof. intros H. unfold xmean, np_mean. destruct l as [|x l]; [congruence|]. rewrite nsum_list. cbn [ndiv nofZ RNum]. rewrite <- INR_IZR_INZ. reflexivity. Qed.

(** One reference for all PDFs. *)
Lemma c147_one_truth : forall X e m f xs z, fill_outside X -> has_density X e m f -> increasing xs -> xs <> [] ->
  exists x, nearest_point xs z x /\
    let loss := rsum m (fun j => square_integral xs (f j)) / INR m - 2 * (rsum m (fun j => f j x) / INR m) in
    cde_evaluate xs e [z] = Ok (Fin loss) /\ exists t, cde_accumulate xs e [z] = Ok t /\ cde_finalize [t] = Ok (Fin loss).
Proof.
  intros X e m f xs z HX He Hi Hne. exists (nth (nearest xs z) xs 0). split; [apply nearest_is; exact Hne|]. cbv zeta.
  pose proof He as ((M & Hm & _) & Hn & _). destruct (made_shape X M e HX Hm) as [_ H1]. rewrite Hn in H1.
  assert (E : cde_terms xs e [z] = Ok (map (cde_square xs f) (seq 0 m), map (fun j => f j (nth (nearest xs z) xs 0)) (seq 0 m))).
  { destruct (Nat.eq_dec (length [z]) m) as [E|E]; [|rewrite (terms_other X e m f xs [z] He Hi Hne E); reflexivity].
    rewrite (cde_terms_eq X e m f xs [z] He Hi Hne E). do 2 f_equal. apply map_ext_in. intros j Hj. apply in_seq in Hj. cbn [length] in E. unfold cde_near. replace j with 0%nat by lia. reflexivity. }
  unfold cde_evaluate, cde_accumulate. rewrite E. cbn [bind fst snd]. rewrite !xmean_seq by lia. split; [reflexivity|]. eexists. split; [reflexivity|].
  unfold cde_finalize. cbn [map fst snd list_sum fold_right]. rewrite Hn, Nat.add_0_r, !nsum_seq. cbn [nofZ RNum]. rewrite <- INR_IZR_INZ. rewrite !xdiv_R by (apply not_0_INR; lia).
  unfold nsum. cbn [fold_left nadd n0 RNum cde_value]. do 2 f_equal. cbn [nsub nmul nofZ RNum fold_right]. rewrite !Rplus_0_r. reflexivity.
Qed.

(** One PDF and several references: [evaluate] takes the mean over the references, accumulating takes their sum. *)
Lemma c147_one_pdf : forall X e f xs ref, fill_outside X -> has_density X e 1 f -> increasing xs -> xs <> [] -> ref <> [] ->
  exists pts, length pts = length ref /\ (forall i, (i < length ref)%nat -> nearest_point xs (nth i ref 0) (nth i pts 0)) /\
    let total := rsum (length ref) (fun i => f 0%nat (nth i pts 0)) in
    cde_evaluate xs e ref = Ok (Fin (square_integral xs (f 0%nat) - 2 * (total / INR (length ref)))) /\
    exists t, cde_accumulate xs e ref = Ok t /\ cde_finalize [t] = Ok (Fin (square_integral xs (f 0%nat) - 2 * total)).
Proof.
  intros X e f xs ref HX He Hi Hne Hr. exists (map (fun z => nth (nearest xs z) xs 0) ref). split; [apply map_length|].
  assert (Np : forall i, (i < length ref)%nat -> nth i (map (fun z => nth (nearest xs z) xs 0) ref) 0 = nth (nearest xs (nth i ref 0)) xs 0).
  { intros i Hl. rewrite (nth_indep _ 0 (nth (nearest xs 0) xs 0)) by (rewrite map_length; exact Hl). apply (map_nth (fun z => nth (nearest xs z) xs 0)). }
  split; [intros i Hl; rewrite Np by exact Hl; apply nearest_is; exact Hne|]. cbv zeta.
  pose proof He as (_ & Hn & _).
  assert (E : cde_terms xs e ref = Ok ([cde_square xs f 0%nat], map (fun z => f 0%nat (nth (nearest xs z) xs 0)) ref)).
  { destruct (Nat.eq_dec (length ref) 1) as [E|E].
    - rewrite (cde_terms_eq X e 1 f xs ref He Hi Hne E). destruct ref as [|z [|? ?]]; [congruence|reflexivity|discriminate].
    - rewrite (terms_other X e 1 f xs ref He Hi Hne E). cbv zeta. destruct ref as [|z [|z' ref]]; reflexivity. }
  set (tot := rsum (length ref) (fun i => f 0%nat (nth i (map (fun z => nth (nearest xs z) xs 0) ref) 0))).
  assert (T : rsum (length (map (fun z => f 0%nat (nth (nearest xs z) xs 0)) ref)) (fun i => nth i (map (fun z => f 0%nat (nth (nearest xs z) xs 0)) ref) 0) = tot).
  { rewrite map_length. apply rsum_ext. intros i Hl. rewrite Np by exact Hl.
    rewrite (nth_indep _ 0 (f 0%nat (nth (nearest xs 0) xs 0))) by (rewrite map_length; exact Hl). apply (map_nth (fun z => f 0%nat (nth (nearest xs z) xs 0))). }
  unfold cde_evaluate, cde_accumulate. rewrite E. cbn [bind fst snd]. rewrite (xmean_list (map _ ref)) by (destruct ref; [congruence|discriminate]). rewrite T, nsum_list, map_length. fold tot.
  rewrite (nsum_list (map _ ref)), T.
  split.
  - unfold xmean, np_mean, nsum. cbn [length fold_right cde_value Z.of_nat Pos.of_succ_nat]. do 2 f_equal. cbn [nsub nmul nadd ndiv n0 nofZ RNum]. unfold square_integral, cde_square, sq. lra.
  - eexists. split; [reflexivity|]. unfold cde_finalize. cbn [map fst snd list_sum fold_right]. rewrite Hn. cbn [Nat.add Z.of_nat Pos.of_succ_nat nofZ RNum].
    rewrite !xdiv_R by lra. unfold nsum. cbn [length fold_right nth rsum nadd n0 RNum cde_value]. do 2 f_equal. cbn [nsub nmul nofZ ndiv RNum]. unfold square_integral, cde_square, sq. lra.
Qed.

(** Everything else is refused; no reference for one PDF is not a number. *)
Lemma c147_refused : forall X e m f xs ref, fill_outside X -> has_density X e m f -> increasing xs -> xs <> [] -> length ref <> m -> length ref <> 1%nat -> m <> 1%nat ->
  cde_evaluate xs e ref = Err IndexError /\ cde_accumulate xs e ref = Err IndexError.
Proof.
  intros X e m f xs ref HX He Hi Hne Hl H1 Hm. unfold cde_evaluate, cde_accumulate. rewrite (terms_other X e m f xs ref He Hi Hne Hl). cbv zeta.
  destruct (Nat.eqb_spec m 1) as [E|_]; [congruence|]. destruct ref as [|z [|z' ref]]; [split; reflexivity|cbn [length] in H1; lia|split; reflexivity].
Qed.
Lemma c147_none : forall X e f xs, fill_outside X -> has_density X e 1 f -> increasing xs -> xs <> [] -> cde_evaluate xs e [] = Ok NaN.
Proof. intros X e f xs HX He Hi Hne. unfold cde_evaluate. rewrite (terms_other X e 1 f xs [] He Hi Hne) by discriminate. reflexivity. Qed.

(** the density 1/2 on [0, 2], and two PDFs *)
Lemma one_density : exists e f, has_density scipy0 e 1 f /\ forall x, 0 <= x < 1 -> f 0%nat x = 1 / 2.
Proof.
  destruct (new_density scipy0 (halves [1/2]) scipy0_fill) as (p & _ & _ & _ & Hp & _); [apply halves_ok; [discriminate|repeat constructor; lra]|cbn; tauto|].
  exists p. eexists. split; [exact Hp|]. intros x Hx. cbv beta. rewrite halves_density by (simpl; try lia; lra). reflexivity.
Qed.
Lemma c147_differs : exists e f xs ref a b t, fill_outside scipy0 /\ has_density scipy0 e 1 f /\ increasing xs /\ length ref = 2%nat /\
  cde_evaluate xs e ref = Ok (Fin a) /\ cde_accumulate xs e ref = Ok t /\ cde_finalize [t] = Ok (Fin b) /\ b = a - 1.
Proof.
  destruct one_density as (e & f & He & Hf). exists e, f, [1/4; 1/2], [1/4; 1/4].
  assert (Hi : increasing [1/4; 1/2]) by (repeat constructor; lra).
  destruct (c147_one_pdf scipy0 e f [1/4; 1/2] [1/4; 1/4] scipy0_fill He Hi ltac:(discriminate) ltac:(discriminate)) as (pts & Hl & Hp & E & t & A & F). cbv zeta in *.
  assert (P : forall i, (i < 2)%nat -> f 0%nat (nth i pts 0) = 1 / 2).
  { intros i H. apply Hf. destruct (Hp i H) as [[<-|[<-|[]]] _]; lra. }
  assert (T : rsum 2 (fun i => f 0%nat (nth i pts 0)) = 1) by (cbn [rsum]; rewrite !P by lia; lra).
  change (length [1/4; 1/4]) with 2%nat in *. rewrite T in E, F. do 3 eexists. split; [exact scipy0_fill|]. split; [exact He|]. split; [exact Hi|]. split; [reflexivity|]. split; [exact E|]. split; [exact A|]. split; [exact F|].
  simpl INR. lra.
Qed.
Lemma c147_one_example : exists e f xs (ref : list R), fill_outside scipy0 /\ has_density scipy0 e 1 f /\ increasing xs /\ xs <> [] /\ ref <> [] /\ length ref = 2%nat.
Proof.
  destruct one_density as (e & f & He & _). exists e, f, [1/4; 1/2], [1/4; 1/4]. split; [exact scipy0_fill|]. split; [exact He|]. split; [repeat constructor; lra|]. repeat split; discriminate.
Qed.
Lemma c147_example : exists e f xs (ref : list R), fill_outside scipy0 /\ has_density scipy0 e 2 f /\ increasing xs /\ xs <> [] /\ length ref <> 2%nat /\ length ref <> 1%nat.
Proof.
  destruct (new_density scipy0 (halves [3/4; 1/4]) scipy0_fill) as (p & _ & _ & _ & Hp & _); [apply halves_ok; [discriminate|repeat constructor; lra]|cbn; tauto|].
  exists p. eexists. exists [1/4; 1/2], [0; 0; 1]. split; [exact scipy0_fill|]. split; [exact Hp|]. split; [repeat constructor; lra|]. repeat split; discriminate.
Qed.
