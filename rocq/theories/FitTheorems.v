(** calculate_goodness_of_fit through the public methods of reachable ensembles (C42, C43, C99, C100). *)
From Coq Require Import String List Arith ZArith Bool Lia Reals Lra Sorted Permutation.
From Verif Require Import Num NumProofs Py NdArray NumpyLib Utils ScipyWrap Spec Values Ensemble Classes QuantPdf
  SortProofs EvalProofs EvalTheorems InterpProofs MixmodTheorems Kinds KindProofs EnsembleTheorems RowProofs IntegrateTheorems MatrixTheorems MetricsProofs Fit FitProofs.
Import ListNotations.
Local Open Scope string_scope.
Local Open Scope list_scope.
Local Open Scope R_scope.

(** The ensemble [q] has [m] PDFs; [F j] is what cdf of PDF [j] answers at a number. *)
Definition has_cdf (X : scipy) (q : ens R) (m : nat) (F : nat -> R -> R) : Prop :=
  (exists M, made X M q) /\ e_npdf q = m /\ evaluates (ens_cdf q) m F.
Definition cdf_like (F : R -> R) : Prop := (forall x y, x <= y -> F x <= F y) /\ (forall x, 0 <= F x <= 1).
(** What each of the three metrics means for the distribution function [F] and the samples [s] *)
Definition fit_value (name : string) (F : R -> R) (s : list R) (v : xnum R) : Prop :=
  (name = "ks" /\ exists D, v = Fin D /\ is_ks F s D) \/
  (name = "cvm" /\ exists W, v = Fin W /\ is_cvm F s W) \/
  (name = "ad" /\ ((exists A, v = Fin A /\ is_ad F s A /\ forall x, In x s -> 0 < F x < 1) \/
                   (v = PInf /\ exists x, In x s /\ (F x = 0 \/ F x = 1)))).
Definition fit_name (name : string) : Prop := name = "ad" \/ name = "cvm" \/ name = "ks".

Lemma has_cdf_numbers X q m F : fill_outside X -> has_cdf X q m F -> exists M, made X M q /\ In MCdf M /\ e_npdf q = m /\ at_numbers q MCdf (fin F).
Proof.
  intros HX ((M & HM) & Hn & He). destruct (made_rep X M q HX HM) as (k & D & Hr & <- & _). exists (methods k).
  split; [exact HM|]. split; [apply cdf_in|]. split; [exact Hn|]. intros t. rewrite Hn. apply He.
Qed.
Lemma allowed_cdf l : allowed MCdf l.
Proof. discriminate. Qed.
Lemma sorted_increasing l : StronglySorted Rle l -> NoDup l -> increasing l.
Proof.
  induction 1 as [|a l Hs IH Hf]; intros Hn; [constructor|]. inversion Hn; subst. specialize (IH H2).
  constructor; auto. rewrite List.Forall_forall in *. intros x Hx. specialize (Hf x Hx). destruct Hf as [Hf|Hf]; [exact Hf|subst; contradiction].
Qed.
Lemma cdf_sorted X q m F l : fill_outside X -> has_cdf X q m F -> ens_cdf q (PGrid (np_sort l)) = table m (fin F) (np_sort l).
Proof.
  intros HX Hq. destruct (has_cdf_numbers X q m F HX Hq) as (M & HM & Hin & <- & Hv).
  apply (c98_grid X M q MCdf (fin F)); auto using allowed_cdf.
  destruct (ListDec.NoDup_dec Req_EM_T (np_sort l)) as [Hd|Hd]; [left; apply sorted_increasing; auto; apply np_sort_sorted|auto].
Qed.

Lemma stat_lines (stat : list R -> res (xnum R)) (F : nat -> R -> R) (l : nat -> list R) (P : nat -> xnum R -> Prop) m :
  (forall r, (r < m)%nat -> exists v, stat (map (F r) (l r)) = Ok v /\ P r v) ->
  exists vs, mapM (fun line => stat (map xval line)) (map (fun r => map (fin F r) (l r)) (seq 0 m)) = Ok vs /\ length vs = m /\
    forall r, (r < m)%nat -> P r (nth r vs NaN).
Proof.
  intros H.
  assert (G : forall n a, (a + n <= m)%nat -> exists vs, mapM (fun line => stat (map xval line)) (map (fun r => map (fin F r) (l r)) (seq a n)) = Ok vs /\ length vs = n /\
    forall r, (r < n)%nat -> P (a + r)%nat (nth r vs NaN)).
  { induction n as [|n IH]; intros a Ha; [exists []; split; [reflexivity|split; [reflexivity|intros; lia]]|].
    destruct (H a) as (v & Ev & Pv); [lia|]. destruct (IH (S a)) as (vs & Evs & L & Pvs); [lia|].
    exists (v :: vs). cbn [seq map mapM].
    replace (map xval (map (fin F a) (l a))) with (map (F a) (l a)) by (rewrite map_map; reflexivity). rewrite Ev. cbn [bind]. rewrite Evs. split; [reflexivity|].
    split; [cbn; lia|]. intros [|r] Hr; cbn [nth]; [rewrite Nat.add_0_r; exact Pv|]. replace (a + S r)%nat with (S a + r)%nat by lia. apply Pvs. lia. }
  destruct (G m 0%nat) as (vs & H1 & H2 & H3); [lia|]. exists vs. auto.
Qed.
Lemma stat_value name F s : fit_name name -> s <> [] -> cdf_like F ->
  exists stat v, fit_metrics ln name = Some stat /\ stat (map F (np_sort s)) = Ok v /\ fit_value name F s v.
Proof.
  intros [->|[->| ->]] Hs [Hm Hr].
  - exists (ad_line ln).
    destruct (Exists_dec (fun x => F x = 0 \/ F x = 1) s) as [He|He].
    { intros x. destruct (Req_EM_T (F x) 0); auto. destruct (Req_EM_T (F x) 1); auto. right. tauto. }
    + apply Exists_exists in He. exists PInf. split; [reflexivity|]. split; [apply ad_edge; auto|]. right. right. split; auto.
    + assert (Hi : forall x, In x s -> 0 < F x < 1).
      { intros x Hx. pose proof (Hr x). assert (F x <> 0 /\ F x <> 1) by (split; intros E; apply He, Exists_exists; exists x; auto). lra. }
      destruct (ad_samples F s Hi) as (A & E & HA). exists (Fin A). split; [reflexivity|]. split; [exact E|]. right. right. split; auto. left. exists A. auto.
  - exists cvm_line. destruct (cvm_samples F s Hs) as (W & E & HW). exists (Fin W). split; [reflexivity|]. split; [exact E|]. right. left. split; auto. exists W. auto.
  - exists ks_line. destruct (ks_samples F s Hs Hm Hr) as (D & E & HD). exists (Fin D). split; [reflexivity|]. split; [exact E|]. left. split; auto. exists D. auto.
Qed.
Lemma stat_fixed name : fit_name name -> exists stat, fit_metrics ln name = Some stat /\
  forall F s, s <> [] -> cdf_like F -> exists v, stat (map F (np_sort s)) = Ok v /\ fit_value name F s v.
Proof.
  intros Hn. destruct (stat_value name (fun _ => 1) [0] Hn) as (stat & _ & E & _); [discriminate|split; intros; lra|].
  exists stat. split; [exact E|]. intros F s Hs HF. destruct (stat_value name F s Hn Hs HF) as (stat' & v & E' & H). rewrite E in E'. injection E' as <-. exists v. exact H.
Qed.

(** Every reachable ensemble except quantile tables has proper distribution functions. *)
Lemma reachable_cdf_like : forall X q m F, fill_outside X -> normal_laws (s_phi X) (s_Phi X) -> has_cdf X q m F -> proper_class q ->
  forall r, (r < m)%nat -> cdf_like (F r).
Proof.
  intros X q m F HX HN ((M & HM) & Hn & He) Hq r Hr. destruct (c81_proper X M q HX HN HM Hq) as (f & G & _ & (HG & _) & Hd). rewrite Hn in *.
  assert (E : forall x, F r x = G r x).
  { intros x. pose proof (He x) as E1. rewrite (HG x) in E1. injection E1 as E1.
    assert (E2 : nth_error (map (fun r => [Fin (G r x)]) (seq 0 m)) r = nth_error (map (fun r => [Fin (F r x)]) (seq 0 m)) r) by (rewrite E1; reflexivity).
    assert (Es : nth_error (seq 0 m) r = Some r) by (rewrite (nth_error_nth' _ 0%nat) by (rewrite seq_length; auto); rewrite seq_nth by auto; reflexivity).
    rewrite !(map_nth_error _ _ _ Es) in E2. congruence. }
  destruct (Hd r Hr) as (_ & H2 & H3). split; intros; rewrite !E; auto.
Qed.

(** One set of samples (an estimate with one PDF): compared with every reference PDF *)
Lemma fit_single : forall X q m F s name, fill_outside X -> has_cdf X q m F -> (forall r, (r < m)%nat -> cdf_like (F r)) -> fit_name name ->
  (2 <= length s)%nat ->
  exists vs, calculate_goodness_of_fit ln [s] q name = Ok vs /\ length vs = m /\ forall r, (r < m)%nat -> fit_value name (F r) s (nth r vs NaN).
Proof.
  intros X q m F s name HX Hq HF Hname Hs. destruct (stat_fixed name Hname) as (stat & E & Hst). unfold calculate_goodness_of_fit. rewrite E.
  assert (Es : sorted_squeezed [s] = Ok (PGrid (np_sort s))) by (destruct s as [|a [|b s]]; cbn in Hs; try lia; reflexivity). rewrite Es. cbn [bind].
  rewrite (cdf_sorted X q m F s HX Hq). cbn [bind]. apply (stat_lines stat F (fun _ => np_sort s) (fun r v => fit_value name (F r) s v)).
  intros r Hr. apply Hst; auto. destruct s; [cbn in Hs; lia|discriminate].
Qed.
(** The samples that numpy pools: one sample of each of several PDFs *)
Lemma fit_pooled : forall X q m F S name, fill_outside X -> has_cdf X q m F -> (forall r, (r < m)%nat -> cdf_like (F r)) -> fit_name name ->
  (2 <= length S)%nat -> (forall row, In row S -> length row = 1%nat) ->
  exists vs, calculate_goodness_of_fit ln S q name = Ok vs /\ length vs = m /\ forall r, (r < m)%nat -> fit_value name (F r) (concat S) (nth r vs NaN).
Proof.
  intros X q m F S name HX Hq HF Hname Hs H1. destruct (stat_fixed name Hname) as (stat & E & Hst). unfold calculate_goodness_of_fit. rewrite E.
  assert (Es : sorted_squeezed S = Ok (PGrid (np_sort (concat S)))).
  { destruct S as [|a [|b S]]; cbn [length] in Hs; try lia. unfold sorted_squeezed. replace (forallb _ _) with true; [reflexivity|].
    symmetry. apply forallb_forall. intros row Hr. apply Nat.eqb_eq. auto. }
  rewrite Es. cbn [bind]. rewrite (cdf_sorted X q m F (concat S) HX Hq). cbn [bind].
  apply (stat_lines stat F (fun _ => np_sort (concat S)) (fun r v => fit_value name (F r) (concat S) v)).
  intros r Hr. apply Hst; auto. destruct S as [|[|y a] S]; cbn in Hs; try lia; [|discriminate]. specialize (H1 [] (or_introl eq_refl)). discriminate.
Qed.

Lemma sort_length l : length (np_sort l) = length l.
Proof. symmetry. apply Permutation_length, np_sort_perm. Qed.
Lemma concat_perm (S : list (list R)) : Permutation (concat S) (concat (map np_sort S)).
Proof. induction S as [|s S IH]; cbn; [constructor|]. apply Permutation_app; auto. apply np_sort_perm. Qed.
Lemma distinct_perm l l' : Permutation l l' -> distinct l = distinct l'.
Proof.
  intros Hp. unfold distinct. apply Permutation_length. apply NoDup_Permutation; try apply NoDup_nodup.
  intros x. rewrite !nodup_In. split; apply Permutation_in; [exact Hp|apply Permutation_sym; exact Hp].
Qed.
Lemma squeezed_mat S w : (2 <= length S)%nat -> (2 <= w)%nat -> (forall row, In row S -> length row = w) -> sorted_squeezed S = Ok (PMat (map np_sort S)).
Proof.
  intros HS Hw Hl. destruct S as [|a [|b S]]; cbn [length] in HS; try lia. unfold sorted_squeezed. cbn [forallb].
  rewrite (Hl a) by (left; auto). destruct (Nat.eqb_spec w 1); [lia|]. reflexivity.
Qed.
(** If no line repeats a value and only [w] values occur, all sorted lines are the same. *)
Lemma equal_lines (S : list (list R)) w : (forall s, In s S -> length s = w /\ NoDup s) -> distinct (concat S) = w ->
  forall s, In s S -> np_sort s = np_unique (concat S).
Proof.
  intros H Hd s Hs. destruct (H s Hs) as [Hl Hn].
  assert (Hi : forall x, In x s <-> In x (nodup Req_EM_T (concat S))).
  { assert (HI : incl s (nodup Req_EM_T (concat S))) by (intros x Hx; apply nodup_In, in_concat; eauto).
    intros x. split; [apply HI|]. revert x. apply NoDup_length_incl; auto. unfold distinct in Hd. lia. }
  rewrite <- np_unique_sort by exact Hn. apply np_unique_ext. intros x. rewrite <- (nodup_In Req_EM_T (concat S)). apply Hi.
Qed.
(** The samples of several PDFs, each compared with its own reference PDF *)
Lemma fit_paired : forall X q m F S w name, fill_outside X -> has_cdf X q m F -> (forall r, (r < m)%nat -> cdf_like (F r)) -> fit_name name ->
  (2 <= m)%nat -> (2 <= w)%nat -> length S = m -> (forall s, In s S -> length s = w) ->
  distinct (concat S) <> w \/ (forall s, In s S -> NoDup s) ->
  exists vs, calculate_goodness_of_fit ln S q name = Ok vs /\ length vs = m /\ forall r, (r < m)%nat -> fit_value name (F r) (nth r S []) (nth r vs NaN).
Proof.
  intros X q m F S w name HX Hq HF Hname Hm Hw HL Hl Hd. destruct (stat_fixed name Hname) as (stat & E & Hst). unfold calculate_goodness_of_fit. rewrite E.
  rewrite (squeezed_mat S w) by (auto; lia). cbn [bind].
  destruct (has_cdf_numbers X q m F HX Hq) as (M & HM & Hin & Hn & Hv).
  assert (Ec : ens_cdf q (PMat (map np_sort S)) = Ok (map (fun r => map (fin F r) (np_sort (nth r S []))) (seq 0 m))).
  { destruct (Nat.eq_dec (distinct (concat S)) w) as [Ed|Ed].
    - destruct Hd as [Hd|Hd]; [contradiction|].
      assert (Hall : forall s, In s S -> np_sort s = np_unique (concat S)) by (apply (equal_lines S w); auto).
      assert (Er : map np_sort S = repeat (np_unique (concat S)) (e_npdf q)).
      { rewrite Hn, <- HL. clear -Hall. set (u := np_unique (concat S)) in *. clearbody u. induction S as [|s S IH]; [reflexivity|]. cbn. f_equal; [apply Hall; left; auto|apply IH; intros; apply Hall; right; auto]. }
      rewrite Er. change (ens_cdf q) with (evaluate MCdf q). rewrite (c98_repeated X M q MCdf (fin F)); auto using allowed_cdf, np_unique_increasing.
      unfold table. rewrite Hn. f_equal. apply map_ext_in. intros r Hr. apply in_seq in Hr. rewrite Hall; [reflexivity|]. apply nth_In. lia.
    - change (ens_cdf q) with (evaluate MCdf q). rewrite (c98_per_pdf X M q MCdf (fin F) (map np_sort S) w); auto using allowed_cdf.
      + rewrite Hn. f_equal. apply map_ext_in. intros r Hr. apply in_seq in Hr. f_equal. exact (nth_map_in np_sort S r [] [] ltac:(lia)).
      + split; [lia|]. split; [destruct S; [cbn in HL; lia|discriminate]|]. intros l Hi. apply in_map_iff in Hi. destruct Hi as (s & <- & Hs). rewrite sort_length. auto.
      + rewrite map_length. lia.
      + right. right. rewrite <- (distinct_perm _ _ (concat_perm S)). exact Ed. }
  rewrite Ec. cbn [bind]. apply (stat_lines stat F (fun r => np_sort (nth r S [])) (fun r v => fit_value name (F r) (nth r S []) v)).
  intros r Hr. apply Hst; auto. intros E0. assert (Hlr : length (nth r S []) = w) by (apply Hl, nth_In; lia). rewrite E0 in Hlr. cbn in Hlr. lia.
Qed.
(** One reference PDF: every set of samples is compared with it *)
Lemma fit_one_reference : forall X q F S w name, fill_outside X -> has_cdf X q 1 F -> cdf_like (F 0%nat) -> fit_name name ->
  (2 <= length S)%nat -> (2 <= w)%nat -> (forall s, In s S -> length s = w) ->
  exists vs, calculate_goodness_of_fit ln S q name = Ok vs /\ length vs = length S /\
    forall r, (r < length S)%nat -> fit_value name (F 0%nat) (nth r S []) (nth r vs NaN).
Proof.
  intros X q F S w name HX Hq HF Hname Hm Hw Hl. destruct (stat_fixed name Hname) as (stat & E & Hst). unfold calculate_goodness_of_fit. rewrite E.
  rewrite (squeezed_mat S w) by auto. cbn [bind]. destruct (has_cdf_numbers X q 1 F HX Hq) as (M & HM & Hin & Hn & Hv).
  change (ens_cdf q) with (evaluate MCdf q). rewrite (c98_single X M q MCdf (fin F) (map np_sort S) w); auto using allowed_cdf.
  - cbn [bind]. replace (map (map (fin F 0%nat)) (map np_sort S)) with (map (fun r => map (fin (fun _ => F 0%nat) r) (np_sort (nth r S []))) (seq 0 (length S))).
    + apply (stat_lines stat (fun _ => F 0%nat) (fun r => np_sort (nth r S [])) (fun r v => fit_value name (F 0%nat) (nth r S []) v)).
      intros r Hr. apply Hst; auto. intros E0. assert (Hlr : length (nth r S []) = w) by (apply Hl, nth_In; lia). rewrite E0 in Hlr. cbn in Hlr. lia.
    + rewrite map_map. clear. induction S as [|s S IH]; [reflexivity|]. cbn [length seq map]. f_equal. rewrite <- seq_shift, map_map. exact IH.
  - split; [lia|]. split; [destruct S; [cbn in Hm; lia|discriminate]|]. intros l Hi. apply in_map_iff in Hi. destruct Hi as (s & <- & Hs). rewrite sort_length. auto.
Qed.

(** Reordering the samples of each PDF changes nothing, for any reference and any metric. *)
Lemma fit_order : forall (nlog : R -> R) S S' q name, Forall2 (@Permutation R) S S' -> calculate_goodness_of_fit nlog S q name = calculate_goodness_of_fit nlog S' q name.
Proof.
  intros nlog S S' q name H. assert (Es : sorted_squeezed S = sorted_squeezed S'); [|unfold calculate_goodness_of_fit; rewrite Es; reflexivity].
  assert (Hmap : map np_sort S = map np_sort S').
  { clear -H. induction H as [|s s' S S' Hs H IH]; [reflexivity|]. cbn. f_equal; auto. apply np_sort_perm_eq; auto. }
  assert (Hc : np_sort (concat S) = np_sort (concat S')).
  { apply np_sort_perm_eq. clear -H. induction H as [|s s' S S' Hs H IH]; cbn; [constructor|]. apply Permutation_app; auto. }
  assert (Hf : forallb (fun row => (length row =? 1)%nat) S = forallb (fun row => (length row =? 1)%nat) S').
  { clear -H. induction H as [|s s' S S' Hs H IH]; [reflexivity|]. cbn. rewrite IH, (Permutation_length Hs). reflexivity. }
  assert (Gen : (if forallb (fun row => (length row =? 1)%nat) S then Ok (PGrid (np_sort (concat S))) else Ok (PMat (map np_sort S))) =
                (if forallb (fun row => (length row =? 1)%nat) S' then Ok (PGrid (np_sort (concat S'))) else Ok (PMat (map np_sort S')))) by (rewrite Hf, Hc, Hmap; reflexivity).
  inversion H as [|s s' S1 S1' Hs H1]; subst; [reflexivity|]. inversion H1; subst; [|exact Gen].
  unfold sorted_squeezed. cbn in Hmap. injection Hmap as Hmap. apply Permutation_length in Hs. destruct s as [|a [|b s]], s' as [|a' [|b' s']]; cbn in Hs; try lia; try reflexivity; rewrite Hmap; reflexivity.
Qed.
Lemma fit_unknown : forall (nlog : R -> R) S q name, ~ fit_name name -> calculate_goodness_of_fit nlog S q name = Err KeyError.
Proof.
  intros nlog S q name Hn. unfold calculate_goodness_of_fit, fit_metrics.
  destruct (String.eqb_spec name "ad") as [->|_]; [exfalso; apply Hn; left; auto|]. destruct (String.eqb_spec name "cvm") as [->|_]; [exfalso; apply Hn; right; left; auto|].
  destruct (String.eqb_spec name "ks") as [->|_]; [exfalso; apply Hn; right; right; auto|]. reflexivity.
Qed.
Lemma fit_one_sample : forall (nlog : R -> R) x q name, fit_name name -> calculate_goodness_of_fit nlog [[x]] q name = Err ValueError.
Proof. intros nlog x q name [->|[->| ->]]; reflexivity. Qed.

Lemma all_fin (vs : list (xnum R)) (P : nat -> R -> Prop) : (forall r, (r < length vs)%nat -> exists D, nth r vs NaN = Fin D /\ P r D) ->
  exists Ds, vs = map Fin Ds /\ forall r, (r < length vs)%nat -> P r (nth r Ds 0).
Proof.
  revert P. induction vs as [|v vs IH]; intros P H; [exists []; split; [reflexivity|intros; cbn in *; lia]|].
  destruct (H 0%nat) as (D & E & HD); [cbn; lia|]. cbn in E. subst v.
  destruct (IH (fun r => P (S r))) as (Ds & -> & HP); [intros r Hr; apply (H (S r)); cbn; lia|].
  exists (D :: Ds). split; [reflexivity|]. intros [|r] Hr; [exact HD|]. apply HP. cbn in Hr. lia.
Qed.
(** C42 *)
Lemma c42_paired : forall X q m F S w, fill_outside X -> has_cdf X q m F -> (forall r, (r < m)%nat -> cdf_like (F r)) ->
  (2 <= m)%nat -> (2 <= w)%nat -> length S = m -> (forall s, In s S -> length s = w) ->
  distinct (concat S) <> w \/ (forall s, In s S -> NoDup s) ->
  exists D, calculate_goodness_of_fit ln S q "ks" = Ok (map Fin D) /\ length D = m /\
    forall r, (r < m)%nat -> let s := nth r S [] in let d := nth r D 0 in
      1 / (2 * INR w) <= d <= 1 /\ (forall x, Rabs (upto s x - F r x) <= d /\ Rabs (under s x - F r x) <= d) /\
      (exists x, In x s /\ (d = upto s x - F r x \/ d = F r x - under s x)).
Proof.
  intros X q m F S w HX Hq HF Hm Hw HL Hl Hd.
  destruct (fit_paired X q m F S w "ks" HX Hq HF ltac:(right; right; reflexivity) Hm Hw HL Hl Hd) as (vs & E & L & Hv).
  destruct (all_fin vs (fun r D => is_ks (F r) (nth r S []) D)) as (Ds & -> & HP).
  { intros r Hr. destruct (Hv r ltac:(lia)) as [(_ & H)|[(C & _)|(C & _)]]; [exact H|discriminate C|discriminate C]. }
  rewrite map_length in *. exists Ds. split; [exact E|]. split; [exact L|]. intros r Hr. destruct (HP r ltac:(lia)) as (H1 & H2 & H3). cbv zeta.
  rewrite (Hl (nth r S [])) in H3 by (apply nth_In; lia). auto.
Qed.
(** C43 *)
Lemma c43_paired : forall X q m F S w, fill_outside X -> has_cdf X q m F -> (forall r, (r < m)%nat -> cdf_like (F r)) ->
  (2 <= m)%nat -> (2 <= w)%nat -> length S = m -> (forall s, In s S -> length s = w) ->
  distinct (concat S) <> w \/ (forall s, In s S -> NoDup s) ->
  exists W, calculate_goodness_of_fit ln S q "cvm" = Ok (map Fin W) /\ length W = m /\
    forall r, (r < m)%nat -> 1 / (12 * INR w) <= nth r W 0 /\
      (nth r W 0 = 1 / (12 * INR w) <->
       forall t, Permutation (nth r S []) t -> StronglySorted Rle t -> forall i, (i < w)%nat -> F r (nth i t 0) = (2 * INR i + 1) / (2 * INR w)).
Proof.
  intros X q m F S w HX Hq HF Hm Hw HL Hl Hd.
  destruct (fit_paired X q m F S w "cvm" HX Hq HF ltac:(right; left; reflexivity) Hm Hw HL Hl Hd) as (vs & E & L & Hv).
  destruct (all_fin vs (fun r D => is_cvm (F r) (nth r S []) D)) as (Ds & -> & HP).
  { intros r Hr. destruct (Hv r ltac:(lia)) as [(C & _)|[(_ & H)|(C & _)]]; [discriminate C|exact H|discriminate C]. }
  rewrite map_length in *. exists Ds. split; [exact E|]. split; [exact L|]. intros r Hr. specialize (HP r ltac:(lia)).
  pose proof (cvm_bound _ _ _ HP) as B. pose proof (cvm_equal _ _ _ HP) as Q. rewrite (Hl (nth r S [])) in B, Q by (apply nth_In; lia). auto.
Qed.
(** AD: smallest exactly at the midpoints *)
Lemma c99_ad : forall F s A, s <> [] -> fit_value "ad" F s (Fin A) ->
  ad_least (length s) <= A /\ (A = ad_least (length s) <->
    forall t, Permutation s t -> StronglySorted Rle t -> forall i, (i < length s)%nat -> F (nth i t 0) = (2 * INR i + 1) / (2 * INR (length s))).
Proof.
  intros F s A Hs [(C & _)|[(C & _)|(_ & [(A' & E & HA & H01)|(C & _)])]]; try discriminate. injection E as <-. apply ad_minimal; auto.
Qed.
