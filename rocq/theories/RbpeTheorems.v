(** Risk based point estimates (C120). *)
From Coq Require Import String List Arith ZArith Bool Lia Reals Lra FunctionalExtensionality Classical.
From Coquelicot Require Import Coquelicot.
From Verif Require Import Num NumProofs Py NdArray NumpyLib Utils ScipyWrap Spec Values Ensemble Classes HistPdf
  SortProofs InterpProofs MixmodTheorems BinProofs HistProofs HistTheorems Kinds KindProofs EnsembleProofs KindInputs ReachProofs AppendProofs EnsembleTheorems RowProofs IntegrateTheorems Rbpe RbpeMath.
Import ListNotations.
Local Open Scope string_scope.
Local Open Scope list_scope.
Local Open Scope R_scope.

(** ** What is asked of scipy *)
(** quad: the integral of a function that is integrable *)
Definition quad_law (quad : (R -> res R) -> R -> R -> res R) : Prop :=
  forall f g a b, a <= b -> (forall z, a <= z <= b -> f z = Ok (g z)) -> ex_RInt g a b -> quad f a b = Ok (RInt g a b).
(** minimize_scalar with bounds: up to [eps] the smallest value of a continuous function between the bounds *)
Definition within_law (eps : R) (within : (R -> res R) -> R -> R -> res R) : Prop :=
  forall f g lo hi, lo <= hi -> (forall x, lo <= x <= hi -> f x = Ok (g x)) -> (forall x, lo <= x <= hi -> continuity_pt g x) ->
    exists m, within f lo hi = Ok m /\ lo <= m <= hi /\ forall x, lo <= x <= hi -> g m <= g x + eps.
(** minimize_scalar without bounds: the same for a continuous function that has a smallest value *)
Definition minimize_law (eps : R) (minimize : (R -> res R) -> res R) : Prop :=
  forall f g, (forall x, f x = Ok (g x)) -> (forall x, continuity_pt g x) -> (exists m, forall x, g m <= g x) ->
    exists m, minimize f = Ok m /\ forall x, g m <= g x + eps.

(** ** What is asked of the ensemble: it comes from qp, its columns of ancillary data are plain, PDF [r] has density [f r],
    which is non-negative and integrable between the 1% and 99% quantiles [Q r], and those lie above -1 *)
Definition rbpe_ready (X : scipy) (M : list method) (e : ens R) (s : atable) (f Q : nat -> R -> R) : Prop :=
  fill_outside X /\ made X M e /\ In MPdf M /\ In MPpf M /\ has_ancil e s /\ anc_plain s /\
  evaluates (ens_pdf e) (e_npdf e) f /\ evaluates_on 0 1 (ens_ppf e) (e_npdf e) Q /\
  forall r, (r < e_npdf e)%nat -> -1 < Q r (1 / 100) /\ Q r (1 / 100) <= Q r (99 / 100) /\
    ex_RInt (f r) (Q r (1 / 100)) (Q r (99 / 100)) /\ forall x, Q r (1 / 100) <= x <= Q r (99 / 100) -> 0 <= f r x.
(** the expected loss of the estimate [zp] for PDF [r] *)
Definition risk_of (f Q : nat -> R -> R) (r : nat) (zp : R) : R := risk (f r) (Q r (1 / 100)) (Q r (99 / 100)) zp.

Lemma loss_same (x : R) : calculate_loss x = loss x.
Proof. unfold calculate_loss, loss. numR. simpl. field. split; nra. Qed.

Section Row.
  Variables (quad : (R -> res R) -> R -> R -> res R) (minimize : (R -> res R) -> res R) (within : (R -> res R) -> R -> R -> res R).
  Lemma rbpe_row X M e s (f Q : nat -> R -> R) r limits : fill_outside X -> made X M e -> In MPdf M -> In MPpf M -> has_ancil e s -> anc_plain s ->
    evaluates (ens_pdf e) (e_npdf e) f -> evaluates_on 0 1 (ens_ppf e) (e_npdf e) Q -> (r < e_npdf e)%nat ->
    rbpe_of (qp X) quad minimize within e limits r = quick_rbpe quad minimize within (fun z => Ok (f r z)) (Q r (1 / 100)) (Q r (99 / 100)) limits.
  Proof.
    intros HX Hm HP HQ Hs Hpl Hf Hq Hr. unfold rbpe_of.
    destruct (c21_slice X M e (KInt (Z.of_nat r)) [r] s HX Hm) as (d & E & _ & Hn & _ & Hev & _); auto; [|discriminate|].
    { exists r. split; [reflexivity|]. split; [exact Hr|]. left. reflexivity. }
    rewrite E. cbn [bind]. rewrite Hn. cbn [length Nat.eqb negb].
    assert (Hppf : forall p, 0 < p < 1 -> ens_ppf d (PScalar p) = Ok [[Fin (Q r p)]]).
    { intros p Hp. destruct (Hev MPpf (PScalar p) HQ I) as (t & Et & _ & Ed). cbn [evaluate] in *. rewrite Hq in Et by exact Hp. injection Et as <-. rewrite Ed.
      unfold select. cbn [map]. rewrite (nth_indep _ [] [Fin (Q 0%nat p)]) by (rewrite map_length, seq_length; exact Hr).
      rewrite (map_nth (fun q => [Fin (Q q p)])), seq_nth by exact Hr. reflexivity. }
    numR. replace (1 / IZR 100) with (1 / 100) by reflexivity. rewrite (Hppf (1 / 100)) by lra. cbn [bind first_value]. rewrite (Hppf (99 / 100)) by lra. cbn [bind first_value].
    f_equal. extensionality z. unfold evaluate_pdf_at_z.
    destruct (Hev MPdf (PScalar z) HP I) as (t & Et & _ & Ed). cbn [evaluate] in *. rewrite Hf in Et. injection Et as <-. rewrite Ed.
    unfold select. cbn [map]. rewrite (nth_indep _ [] [Fin (f 0%nat z)]) by (rewrite map_length, seq_length; exact Hr).
    rewrite (map_nth (fun q => [Fin (f q z)])), seq_nth by exact Hr. reflexivity.
  Qed.
  Lemma risk_found (f : R -> R) a b zp : quad_law quad -> -1 < a -> a <= b -> ex_RInt f a b ->
    find_z_risk quad (fun z => Ok (f z)) a b zp = Ok (risk f a b zp).
  Proof.
    intros HQ Ha Hab Hf. unfold find_z_risk, risk. apply HQ; [exact Hab| |apply risk_ex; assumption].
    intros z Hz. cbn [bind]. unfold neqb. numR. destruct (Rleb_reflect (1 + z) 0) as [A|A]; [lra|]. cbn [andb]. rewrite loss_same. reflexivity.
  Qed.
End Row.

Lemma mapM_found {A B} (g : A -> res B) (P : A -> B -> Prop) (dflt : B) l : (forall a, In a l -> exists b, g a = Ok b /\ P a b) ->
  exists bs, mapM g l = Ok bs /\ Forall2 P l bs.
Proof.
  induction l as [|a l IH]; intros H; [exists []; split; [reflexivity|constructor]|].
  destruct (H a) as (b & E & HP); [left; reflexivity|]. destruct IH as (bs & Eb & HF); [intros x Hx; apply H; right; exact Hx|].
  exists (b :: bs). cbn [mapM]. rewrite E. cbn [bind]. rewrite Eb. cbn [bind]. split; [reflexivity|constructor; assumption].
Qed.
Lemma rows_found {B} (g : nat -> res B) (P : nat -> B -> Prop) (dflt : B) n : (forall r, (r < n)%nat -> exists b, g r = Ok b /\ P r b) ->
  exists bs, mapM g (seq 0 n) = Ok bs /\ length bs = n /\ forall r, (r < n)%nat -> P r (nth r bs dflt).
Proof.
  intros H. destruct (mapM_found g P dflt (seq 0 n)) as (bs & E & HF); [intros a Ha; apply in_seq in Ha; apply H; lia|].
  exists bs. split; [exact E|]. assert (L : length (seq 0 n) = length bs) by (clear - HF; induction HF; simpl; congruence). rewrite seq_length in L. split; [congruence|].
  intros r Hr. clear H E.
  assert (G : forall l s0 r, Forall2 P (seq s0 (length l)) l -> (r < length l)%nat -> P (s0 + r)%nat (nth r l dflt)).
  { clear. induction l as [|b l IH]; intros s0 r HF Hr; [simpl in Hr; lia|]. simpl in HF. inversion HF; subst. destruct r as [|r]; simpl; [rewrite Nat.add_0_r; assumption|].
    replace (s0 + S r)%nat with (S s0 + r)%nat by lia. apply IH; [assumption|simpl in Hr; lia]. }
  subst n. exact (G bs 0%nat r HF Hr).
Qed.

(** ** C120: with finite limits the estimates minimise the risk between them *)
Lemma c120_within : forall X M e s f Q quad minimize within eps lo hi, rbpe_ready X M e s f Q -> quad_law quad -> within_law eps within -> lo <= hi ->
  exists zs, calculate_rbpe (qp X) quad minimize within e (Fin lo, Fin hi) = Ok zs /\ length zs = e_npdf e /\
    forall r, (r < e_npdf e)%nat -> lo <= nth r zs 0 <= hi /\ forall zp, lo <= zp <= hi -> risk_of f Q r (nth r zs 0) <= risk_of f Q r zp + eps.
Proof.
  intros X M e s f Q quad minimize within eps lo hi (HX & Hm & HP & HQ & Hs & Hpl & Hf & Hq & Hrow) Hquad Hw Hlim. unfold calculate_rbpe.
  apply (rows_found _ (fun r z => lo <= z <= hi /\ forall zp, lo <= zp <= hi -> risk_of f Q r z <= risk_of f Q r zp + eps) 0).
  intros r Hr. rewrite (rbpe_row quad minimize within X M e s f Q r (Fin lo, Fin hi)) by auto. unfold quick_rbpe. cbn [fst snd minimize_bounded].
  destruct (nleb_reflect lo hi) as [_|A]; [|contradiction]. destruct (Hrow r Hr) as (H1 & H2 & H3 & H4).
  destruct (Hw (find_z_risk quad (fun z => Ok (f r z)) (Q r (1 / 100)) (Q r (99 / 100))) (risk_of f Q r) lo hi Hlim) as (m & E & Hin & Hmin).
  - intros x _. apply risk_found; assumption.
  - intros x _. apply risk_continuous; assumption.
  - exists m. split; [exact E|]. split; assumption.
Qed.
(** ** C120: without limits (the default) the estimates minimise the risk over all numbers *)
Lemma c120_default : forall X M e s f Q quad minimize within eps, rbpe_ready X M e s f Q -> quad_law quad -> minimize_law eps minimize ->
  exists zs, calculate_rbpe (qp X) quad minimize within e (PInf, PInf) = Ok zs /\ length zs = e_npdf e /\
    forall r, (r < e_npdf e)%nat -> forall zp, risk_of f Q r (nth r zs 0) <= risk_of f Q r zp + eps.
Proof.
  intros X M e s f Q quad minimize within eps (HX & Hm & HP & HQ & Hs & Hpl & Hf & Hq & Hrow) Hquad Hw. unfold calculate_rbpe.
  apply (rows_found _ (fun r z => forall zp, risk_of f Q r z <= risk_of f Q r zp + eps) 0).
  intros r Hr. rewrite (rbpe_row quad minimize within X M e s f Q r (PInf, PInf)) by auto. unfold quick_rbpe. cbn [fst snd].
  destruct (Hrow r Hr) as (H1 & H2 & H3 & H4).
  apply (Hw (find_z_risk quad (fun z => Ok (f r z)) (Q r (1 / 100)) (Q r (99 / 100))) (risk_of f Q r)).
  - intros x. apply risk_found; assumption.
  - intros x. apply risk_continuous; assumption.
  - destruct (risk_attained (f r) (Q r (1 / 100)) (Q r (99 / 100)) H1 H2 H3 H4) as (m & _ & Hmin). exists m. exact Hmin.
Qed.
(** ** C120: the risk of any estimate is between 0 and the probability of the central 98%; it is smallest at a point between the 1% and
    99% quantiles, and nowhere else if that probability is positive *)
Lemma c120_central : forall X M e s f Q r, rbpe_ready X M e s f Q -> (r < e_npdf e)%nat ->
  (forall zp, 0 <= risk_of f Q r zp <= RInt (f r) (Q r (1 / 100)) (Q r (99 / 100))) /\
  (exists m, Q r (1 / 100) <= m <= Q r (99 / 100) /\ forall zp, risk_of f Q r m <= risk_of f Q r zp) /\
  (0 < RInt (f r) (Q r (1 / 100)) (Q r (99 / 100)) -> forall m, (forall zp, risk_of f Q r m <= risk_of f Q r zp) -> Q r (1 / 100) <= m <= Q r (99 / 100)).
Proof.
  intros X M e s f Q r (HX & Hm & HP & HQ & Hs & Hpl & Hf & Hq & Hrow) Hr. destruct (Hrow r Hr) as (H1 & H2 & H3 & H4). split; [|split].
  - intros zp. apply risk_range; assumption.
  - apply risk_attained; assumption.
  - intros Hp m Hmin. apply (risk_minimum_inside (f r)); assumption.
Qed.
(** ** C120: other limits *)
Lemma c120_limits : forall X M e s f Q quad minimize within lo hi, rbpe_ready X M e s f Q -> e_npdf e <> 0%nat ->
  calculate_rbpe (qp X) quad minimize within e (PInf, hi) = calculate_rbpe (qp X) quad minimize within e (PInf, PInf) /\
  (lo <> PInf -> (forall a b, lo = Fin a -> hi = Fin b -> b < a) -> calculate_rbpe (qp X) quad minimize within e (lo, hi) = Err ValueError).
Proof.
  intros X M e s f Q quad minimize within lo hi (HX & Hm & HP & HQ & Hs & Hpl & Hf & Hq & Hrow) Hn. split.
  - unfold calculate_rbpe. assert (G : forall l, (forall r, In r l -> (r < e_npdf e)%nat) -> mapM (rbpe_of (qp X) quad minimize within e (PInf, hi)) l = mapM (rbpe_of (qp X) quad minimize within e (PInf, PInf)) l).
    { induction l as [|r l IH]; intros Hl; [reflexivity|]. cbn [mapM]. rewrite IH by (intros q Hq'; apply Hl; right; exact Hq').
      rewrite !(rbpe_row quad minimize within X M e s f Q r) by (auto; apply Hl; left; reflexivity). reflexivity. }
    apply G. intros r Hr. apply in_seq in Hr. lia.
  - intros Hlo Hb. unfold calculate_rbpe. destruct (e_npdf e) as [|n] eqn:En; [contradiction|]. cbn [seq mapM].
    rewrite (rbpe_row quad minimize within X M e s f Q 0) by (auto; rewrite ?En; auto; lia). unfold quick_rbpe. cbn [fst snd].
    destruct lo as [a| | |]; [|reflexivity|reflexivity|contradiction]. unfold minimize_bounded. destruct hi as [b| | |]; try reflexivity.
    specialize (Hb a b eq_refl eq_refl). destruct (nleb_reflect a b) as [A|A]; [lra|]. reflexivity.
Qed.
(** ** C120: every PDF is estimated on its own: the estimates of a selection of PDFs are the selected estimates *)
Lemma mapM_nth {B} (g : nat -> res B) n bs dflt : mapM g (seq 0 n) = Ok bs -> length bs = n /\ forall r, (r < n)%nat -> g r = Ok (nth r bs dflt).
Proof.
  intros H. assert (G : forall k s0 bs, mapM g (seq s0 k) = Ok bs -> length bs = k /\ forall r, (r < k)%nat -> g (s0 + r)%nat = Ok (nth r bs dflt)).
  { clear. induction k as [|k IH]; intros s0 bs H; [injection H as <-; split; [reflexivity|lia]|]. cbn [seq mapM] in H.
    destruct (g s0) as [b|] eqn:E; [|discriminate]. cbn [bind] in H. destruct (mapM g (seq (S s0) k)) as [t|] eqn:Et; [|discriminate]. injection H as <-.
    destruct (IH _ _ Et) as (L & Hr). split; [simpl; congruence|]. intros [|r] Hlt; simpl; [rewrite Nat.add_0_r; exact E|].
    replace (s0 + S r)%nat with (S s0 + r)%nat by lia. apply Hr. lia. }
  exact (G n 0%nat bs H).
Qed.
Lemma c120_rows : forall X M e s f Q quad minimize within limits zs key ps, rbpe_ready X M e s f Q ->
  calculate_rbpe (qp X) quad minimize within e limits = Ok zs -> picks (e_npdf e) key ps -> ps <> [] -> is_int key = false ->
  exists e', getitem (qp X) e key = Ok e' /\ calculate_rbpe (qp X) quad minimize within e' limits = Ok (select 0 zs ps).
Proof.
  intros X M e s f Q quad minimize within limits zs key ps (HX & Hm & HP & HQ & Hs & Hpl & Hf & Hq & Hrow) Hz Hp Hne Hi.
  destruct (c21_slice X M e key ps s HX Hm Hp Hne Hs) as (e1 & E1 & Hm1 & Hn1 & _ & Hev1 & Ha1); [rewrite Hi; discriminate|].
  assert (Hlt : forall p, In p ps -> (p < e_npdf e)%nat) by (apply (key_positions_lt _ key); apply picks_iff; exact Hp).
  assert (Hs1 : has_ancil e1 (anc_select ps s)).
  { destruct Hs as (Hs & Hg). destruct s as [[A B]|]; (split; [|rewrite Hn1]).
    - rewrite Ha1. destruct key; try discriminate Hi; reflexivity.
    - destruct Hg as (G1 & G2 & G3). split; [apply select_length|]. split; [eapply select_fits; eauto|exact G3].
    - exact Ha1.
    - exact I. }
  assert (Hpl1 : anc_plain (anc_select ps s)) by (destruct s as [[A B]|]; exact Hpl).
  exists e1. split; [exact E1|].
  assert (Hsel : forall (G : nat -> R -> R) x, select [] (map (fun r => [Fin (G r x)]) (seq 0 (e_npdf e))) ps = map (fun r => [Fin (G (nth r ps 0%nat) x)]) (seq 0 (length ps))).
  { intros G x. unfold select. transitivity (map (fun p => [Fin (G p x)]) ps).
    - apply map_ext_in. intros p Hin. specialize (Hlt p Hin). rewrite (nth_indep _ [] [Fin (G 0%nat x)]) by (rewrite map_length, seq_length; exact Hlt).
      rewrite (map_nth (fun q => [Fin (G q x)])), seq_nth by exact Hlt. reflexivity.
    - clear. induction ps as [|p ps IH]; [reflexivity|]. cbn [map length seq nth]. f_equal. rewrite IH, <- seq_shift, map_map. reflexivity. }
  assert (Hf1 : evaluates (ens_pdf e1) (e_npdf e1) (fun r => f (nth r ps 0%nat))).
  { intros x. destruct (Hev1 MPdf (PScalar x) HP I) as (t & Et & _ & Ed). cbn [evaluate] in *. rewrite Hf in Et. injection Et as <-. rewrite Ed, Hn1. f_equal. apply (Hsel f). }
  assert (Hq1 : evaluates_on 0 1 (ens_ppf e1) (e_npdf e1) (fun r => Q (nth r ps 0%nat))).
  { intros x Hx. destruct (Hev1 MPpf (PScalar x) HQ I) as (t & Et & _ & Ed). cbn [evaluate] in *. rewrite Hq in Et by exact Hx. injection Et as <-. rewrite Ed, Hn1. f_equal. apply (Hsel Q). }
  unfold calculate_rbpe in *. destruct (mapM_nth _ _ _ 0 Hz) as (Lz & Hrz). rewrite Hn1.
  rewrite (mapM_ok _ (fun r => nth (nth r ps 0%nat) zs 0)).
  - f_equal. unfold select. clear. induction ps as [|p ps IH]; [reflexivity|]. cbn [map length seq nth]. f_equal. rewrite <- IH, <- seq_shift, map_map. reflexivity.
  - intros r Hr. apply in_seq in Hr. assert (Hin : (nth r ps 0 < e_npdf e)%nat) by (apply Hlt, nth_In; lia).
    rewrite (rbpe_row quad minimize within X M e1 (anc_select ps s) (fun r => f (nth r ps 0%nat)) (fun r => Q (nth r ps 0%nat)) r limits) by (auto; lia).
    rewrite <- (Hrz _ Hin). symmetry. exact (rbpe_row quad minimize within X M e s f Q (nth r ps 0%nat) limits HX Hm HP HQ Hs Hpl Hf Hq Hin).
Qed.

(** ** C120: histograms meet the conditions; the central 98% have probability 0.98 *)
Lemma c120_histograms : forall X bins rows s e, fill_outside X -> input_ok (IHist bins rows) -> sound_bins bins -> -1 < nth0 0 bins ->
  anc_good (input_npdf (IHist bins rows)) s -> anc_plain s ->
  ens_new (create_of (qp X) "hist") (input_dict (IHist bins rows)) (anc_dict s) = Ok e ->
  exists f Q, rbpe_ready X (input_methods (IHist bins rows)) e s f Q /\
    forall r, (r < e_npdf e)%nat -> RInt (f r) (Q r (1 / 100)) (Q r (99 / 100)) = 98 / 100.
Proof.
  intros X bins rows s e HX Hok Hsound Hb Hs Hpl E.
  destruct (made_new X (IHist bins rows) s HX Hok Hs) as (e' & _ & E' & Hm & Hn & Ha & _). cbn [input_name] in E'. rewrite E in E'. injection E' as <-.
  assert (Hin : hist_input bins rows) by exact Hok.
  assert (Eh : exists h, hist_ctor bins (nd2 (pred (length bins)) rows) true = Ok h /\ e_obj e = hist_obj h).
  { unfold ens_new in E. destruct (create_of (qp X) "hist" (input_dict (IHist bins rows))) as [g|] eqn:Eg; [|discriminate]. cbn [bind] in E.
    destruct (check_array_shapes (anc_dict s) (g_npdf g)) as [u|]; [|discriminate]. cbn [bind] in E. injection E as <-. cbn [e_obj].
    unfold create_of, qp, Kinds.classes in Eg. change (hist_create (input_dict (IHist bins rows)) = Ok g) in Eg. cbn [input_dict] in Eg. rewrite (hist_create_eq bins _ _ (or_introl eq_refl)) in Eg.
    destruct (hist_ctor bins (nd2 (pred (length bins)) rows) true) as [h|] eqn:Eh; [|discriminate].
    exists h. split; [reflexivity|]. injection Eg as <-. reflexivity. }
  destruct Eh as (h & Eh & Eo). cbn [input_npdf] in Hn.
  destruct (c01_integral bins rows h Hin Hsound Eh) as (f & Hf & Hfr).
  destruct (c04_ppf bins rows h Hin Eh) as (F & Q & HF & HQ & HQr).
  destruct (c03_cdf bins rows h Hin Eh) as (F' & HF' & HFr).
  assert (HFF : forall r x, (r < length rows)%nat -> F' r x = F r x).
  { intros r x Hr. apply (evaluates_unique _ _ _ _ HF' HF r x Hr). }
  assert (Epdf : ens_pdf e = hist_ens_pdf h) by (unfold ens_pdf; rewrite Eo; reflexivity).
  assert (Eppf : ens_ppf e = hist_ens_ppf h) by (unfold ens_ppf; rewrite Eo; reflexivity).
  assert (Hint : forall r, (r < length rows)%nat -> is_RInt (f r) (Q r (1 / 100)) (Q r (99 / 100)) (98 / 100)).
  { intros r Hr. destruct (HQr r Hr) as (Hq1 & Hq2 & _). assert (P1 : 0 < 1 / 100 < 1) by lra. assert (P2 : 0 < 99 / 100 < 1) by lra.
    destruct (Hq1 _ P1) as (B1 & V1). destruct (Hq1 _ P2) as (B2 & V2).
    destruct (HFr r Hr) as (_ & _ & _ & _ & _ & HI). pose proof (HI Hsound f Hf _ B1) as I1. pose proof (HI Hsound f Hf _ B2) as I2.
    rewrite HFF in I1, I2 by exact Hr. rewrite V1 in I1. rewrite V2 in I2.
    pose proof (is_RInt_Chasles (V := R_NormedModule) (f r) _ _ _ _ _ (is_RInt_swap (V := R_NormedModule) _ _ _ _ I1) I2) as I3.
    replace (98 / 100) with (plus (opp (1 / 100)) (99 / 100)) by (change (- (1 / 100) + 99 / 100 = 98 / 100); lra). exact I3. }
  exists f, Q. rewrite Hn in *. split.
  - unfold rbpe_ready. rewrite Hn, Epdf, Eppf. cbn [input_methods]. repeat (split; [first [assumption|cbn; tauto]|]).
    intros r Hr. destruct (HQr r Hr) as (Hq1 & Hq2 & _). assert (P1 : 0 < 1 / 100 < 1) by lra. assert (P2 : 0 < 99 / 100 < 1) by lra.
    destruct (Hq1 _ P1) as (B1 & V1). split; [lra|]. split; [apply Hq2; lra|]. split; [exists (98 / 100); apply Hint; exact Hr|].
    intros x _. apply (Hfr r Hr).
  - intros r Hr. apply is_RInt_unique, Hint, Hr.
Qed.

(** ** Functions that satisfy the laws *)
Definition value_of (f : R -> res R) (x : R) : R := match f x with Ok v => v | _ => 0 end.
Definition quad0 (f : R -> res R) (a b : R) : res R := Ok (RInt (value_of f) a b).
Lemma quad0_law : quad_law quad0.
Proof.
  intros f g a b Hab Hf Hg. unfold quad0. f_equal. apply RInt_ext. intros x. rewrite Rmin_left, Rmax_right by exact Hab. intros Hx. unfold value_of. rewrite Hf by lra. reflexivity.
Qed.
Definition decide_prop (P : Prop) : {P} + {~ P} := match ClassicalDedekindReals.sig_not_dec P with left H => left (NNPP P H) | right H => right H end.
(** the element of [E] nearest to 0 *)
Definition below (E : R -> Prop) (y : R) : Prop := forall x, E x -> y <= Rabs x.
Lemma below_bound E : (exists m, E m) -> bound (below E).
Proof. intros (m & Hm). exists (Rabs m). intros y Hy. apply Hy. exact Hm. Qed.
Lemma below_some E : exists y, below E y.
Proof. exists 0. intros x _. apply Rabs_pos. Qed.
Definition nearest (E : R -> Prop) : R :=
  match decide_prop (exists m, E m) with
  | left H => let d := proj1_sig (completeness (below E) (below_bound E H) (below_some E)) in if decide_prop (E d) then d else - d
  | right _ => 0
  end.
Definition closed_set (E : R -> Prop) : Prop := forall p, (forall eps, 0 < eps -> exists x, E x /\ Rabs (x - p) < eps) -> E p.
Lemma nearest_in E : (exists m, E m) -> closed_set E -> E (nearest E).
Proof.
  intros H C. unfold nearest. destruct (decide_prop (exists m, E m)) as [H'|H']; [|contradiction].
  destruct (completeness (below E) (below_bound E H') (below_some E)) as (d & U & L). cbn [proj1_sig].
  destruct (decide_prop (E d)) as [A|A]; [exact A|]. apply NNPP. intros B.
  assert (far : forall p, ~ E p -> exists eps, 0 < eps /\ forall x, E x -> eps <= Rabs (x - p)).
  { intros p Hp. apply NNPP. intros G. apply Hp. apply C. intros eps He. apply NNPP. intros G'. apply G. exists eps. split; [exact He|].
    intros x Hx. apply Rnot_lt_le. intros Hlt. apply G'. exists x. split; assumption. }
  destruct (far _ A) as (e1 & P1 & F1). destruct (far _ B) as (e2 & P2 & F2).
  assert (Hd : forall x, E x -> d <= Rabs x) by (intros x Hx; apply L; intros y Hy; apply Hy; exact Hx).
  assert (Hup : below E (d + Rmin e1 e2)).
  { intros x Hx. specialize (F1 x Hx). specialize (F2 x Hx). specialize (Hd x Hx). pose proof (Rmin_l e1 e2). pose proof (Rmin_r e1 e2).
    revert F1 F2 Hd. unfold Rabs. destruct (Rcase_abs x), (Rcase_abs (x - d)), (Rcase_abs (x - - d)); lra. }
  specialize (U _ Hup). pose proof (Rmin_glb_lt e1 e2 0 P1 P2). lra.
Qed.
Definition minima (g : R -> R) (D : R -> Prop) (m : R) : Prop := D m /\ forall x, D x -> g m <= g x.
Definition minimize0 (f : R -> res R) : res R := Ok (nearest (minima (value_of f) (fun _ => True))).
Definition within0 (f : R -> res R) (lo hi : R) : res R := Ok (nearest (minima (value_of f) (fun x => lo <= x <= hi))).
Lemma minima_ext g g' (D : R -> Prop) m : (forall x, D x -> g x = g' x) -> minima g D m <-> minima g' D m.
Proof. intros H. split; intros (Hm & Hx); (split; [exact Hm|]); intros x Hd; [rewrite <- !H|rewrite !H]; auto. Qed.
Lemma minima_closed g (D : R -> Prop) : closed_set D -> (forall x, D x -> continuity_pt g x) -> closed_set (minima g D).
Proof.
  intros C Hg p Hp. assert (Dp : D p). { apply C. intros eps He. destruct (Hp eps He) as (x & (Hx & _) & Hd). exists x. split; assumption. }
  split; [exact Dp|]. intros x Hx. apply Rnot_lt_le. intros Hlt. destruct (Hg p Dp (g p - g x)) as (d & Hd & Hc); [lra|].
  destruct (Hp d Hd) as (m & (Hm & Hmin) & Hmd). specialize (Hmin x Hx). destruct (Req_dec m p) as [->|Hne]; [lra|].
  assert (Hdm : Rabs (g m - g p) < g p - g x). { apply (Hc m). split; [split; [exact I|intros E; apply Hne; symmetry; exact E]|exact Hmd]. }
  apply Rabs_def2 in Hdm. lra.
Qed.
Lemma minimize0_law : minimize_law 0 minimize0.
Proof.
  intros f g Hf Hc (m & Hm). assert (E : value_of f = g) by (extensionality x; unfold value_of; rewrite Hf; reflexivity).
  exists (nearest (minima (value_of f) (fun _ => True))). split; [reflexivity|]. rewrite E.
  assert (Hin : minima g (fun _ => True) (nearest (minima g (fun _ => True)))).
  { apply nearest_in; [exists m; split; auto|]. apply minima_closed; [intros p _; exact I|auto]. }
  intros x. pose proof (proj2 Hin x I). lra.
Qed.
Lemma within0_law : within_law 0 within0.
Proof.
  intros f g lo hi Hl Hf Hc. set (D := fun x => lo <= x <= hi). exists (nearest (minima (value_of f) D)). split; [reflexivity|].
  assert (Ext : forall m, minima (value_of f) D m <-> minima g D m).
  { intros m. apply minima_ext. intros x Hx. unfold value_of. rewrite Hf by exact Hx. reflexivity. }
  assert (Cg : closed_set (minima g D)).
  { apply minima_closed; [|exact Hc]. intros p Hp. unfold D. split; apply Rnot_lt_le; intros Hlt.
    - destruct (Hp (lo - p)) as (x & (H1 & _) & H2); [lra|]. apply Rabs_def2 in H2. lra.
    - destruct (Hp (p - hi)) as (x & (_ & H1) & H2); [lra|]. apply Rabs_def2 in H2. lra. }
  assert (Hin : minima g D (nearest (minima (value_of f) D))).
  { apply Ext. apply nearest_in.
    - destruct (continuity_ab_min g lo hi Hl Hc) as (m & Hm & Hd). exists m. apply Ext. split; [exact Hd|exact Hm].
    - intros p Hp. apply Ext, Cg. intros eps He. destruct (Hp eps He) as (x & Hx & Hd). exists x. split; [apply Ext; exact Hx|exact Hd]. }
  split; [exact (proj1 Hin)|]. intros x Hx. pose proof (proj2 Hin x Hx). lra.
Qed.

(** three histograms with ancillary data *)
Lemma c120_example : exists X M e s f Q quad minimize within lo hi, rbpe_ready X M e s f Q /\ quad_law quad /\ minimize_law 0 minimize /\ within_law 0 within /\ lo < hi /\
  e_npdf e = 3%nat /\ s <> None /\ forall r, (r < e_npdf e)%nat -> 0 < RInt (f r) (Q r (1 / 100)) (Q r (99 / 100)).
Proof.
  destruct (made_new scipy0 hist0 table0 scipy0_fill hist0_ok (proj1 table0_ok)) as (e & _ & E & Hm & Hn & _). cbn [input_name hist0] in E.
  destruct (c120_histograms scipy0 [0; 1; 3] [[1; 2]; [0; 1]; [2; 0]] table0 e scipy0_fill hist0_ok (proj2 hist_input_example)) as (f & Q & H & HI); [unfold nth0; simpl; lra|apply table0_ok|apply table0_ok|exact E|].
  exists scipy0, (input_methods hist0), e, table0, f, Q, quad0, minimize0, within0, 0, 3. split; [exact H|]. split; [apply quad0_law|]. split; [apply minimize0_law|]. split; [apply within0_law|].
  split; [lra|]. split; [exact Hn|]. split; [discriminate|]. intros r Hr. rewrite (HI r Hr). lra.
Qed.
