(** sf, isf, median and interval (C108, C109). *)
From Coq Require Import QArith String List Arith ZArith Bool Sorted Permutation Lia Reals Lra.
From Verif Require Import Num NumProofs Py NdArray NumpyLib Utils ScipyWrap Spec HistPdf InterpPdf QuantPdf MixmodPdf Packing PackedPdf
  Values Ensemble Classes Kinds EnsembleProofs KindInputs ReachProofs EnsembleTheorems Convert ConvertTheorems
  SortProofs EvalProofs NdProofs InterpProofs IntegralProofs BinProofs HistProofs HistTheorems KindProofs ShapeTheorems ConvertExamples
  EvalTheorems MatrixTheorems EdgeTheorems TableProofs InterpPdfProofs GridTheorems IrrTheorems IntegrateTheorems Derived.
Import ListNotations.
Local Open Scope list_scope.
Local Open Scope R_scope.

(** ** Specification *)
Definition complement (q : points R) : points R :=
  match q with PScalar p => PScalar (1 - p) | PGrid l => PGrid (map (fun p => 1 - p) l) | PMat Y => PMat (map (map (fun p => 1 - p)) Y) end.
Definition one_minus (v : xnum R) : xnum R := match v with Fin x => Fin (1 - x) | w => w end.
(** [isf] is the method isf of the ensemble: scipy's, around the same function of the class as ppf *)
Definition isf_method (e : ens R) (isf : points R -> res (tbl R)) : Prop :=
  exists f, ens_ppf e = rv_ppf (e_npdf e) f /\ isf = rv_isf (e_npdf e) f.
(** a column with one value per PDF *)
Definition column (n : nat) (v : nat -> xnum R) : tbl R := map (fun r => [v r]) (seq 0 n).
(** central intervals with the probability asked for, for [n] PDFs with the distribution functions [F] *)
Definition central (n : nat) (F : nat -> R -> R) (interval : R -> res (tbl R * tbl R)) (median : res (tbl R)) : Prop :=
  (forall alpha, 0 <= alpha < 1 -> exists a b, interval alpha = Ok (column n (fun r => Fin (a r)), column n (fun r => Fin (b r))) /\
     forall r, (r < n)%nat -> a r <= b r /\ F r (a r) = (1 - alpha) / 2 /\ F r (b r) - F r (a r) = alpha) /\
  interval 1 = Ok (column n (fun _ => NInf), column n (fun _ => PInf)) /\
  (forall alpha, alpha < 0 \/ 1 < alpha -> interval alpha = Err ValueError) /\
  exists m, median = Ok (column n (fun r => Fin (m r))) /\ forall r, (r < n)%nat -> F r (m r) = 1 / 2.

(** ** Changing the points *)
Section Change.
  Variables (h : R -> R) (cond cond' : R -> bool) (other other' : R -> xnum R).
  Hypothesis Hc : forall p, cond p = cond' (h p).
  Hypothesis Ho : forall p, cond p = false -> other p = other' (h p).
  Lemma place_change pts : forall vals, place cond other pts vals = place cond' other' (map h pts) vals.
  Proof using Hc Ho.
    induction pts as [|p pts IH]; intros vals; [reflexivity|]. cbn [place map]. rewrite <- Hc. destruct (cond p) eqn:E; [destruct vals; rewrite IH; reflexivity|rewrite IH, (Ho p E); reflexivity].
  Qed.
  Lemma filter_change l : map h (filter cond l) = filter cond' (map h l).
  Proof using Hc. induction l as [|p l IH]; [reflexivity|]. cbn [filter map]. rewrite <- Hc. destruct (cond p); cbn [map]; rewrite IH; reflexivity. Qed.
  Lemma forallb_change l : forallb cond l = forallb cond' (map h l).
  Proof using Hc. induction l as [|p l IH]; [reflexivity|]. cbn [forallb map]. rewrite <- Hc, IH. reflexivity. Qed.
  Lemma existsb_change l : existsb cond l = existsb cond' (map h l).
  Proof using Hc. induction l as [|p l IH]; [reflexivity|]. cbn [existsb map]. rewrite <- Hc, IH. reflexivity. Qed.
  Lemma combine_change {B} l : forall rf : list B, map snd (filter (fun p => cond (fst p)) (combine l rf)) = map snd (filter (fun p => cond' (fst p)) (combine (map h l) rf)).
  Proof using Hc. induction l as [|p l IH]; intros [|r rf]; try reflexivity. cbn [combine map filter fst]. rewrite <- Hc. destruct (cond p); cbn [map]; rewrite IH; reflexivity. Qed.
  Definition hpoints (q : points R) : points R := match q with PScalar p => PScalar (h p) | PGrid l => PGrid (map h l) | PMat Y => PMat (map (map h) Y) end.
  Lemma broadcast_change n q : broadcast_points n (hpoints q) = match broadcast_points n q with Ok (xs, rows) => Ok (map (map h) xs, rows) | Err e => Err e end.
  Proof using.
    destruct q as [p|l|Y]; cbn [hpoints broadcast_points]; [rewrite map_repeat; reflexivity|rewrite map_repeat; reflexivity|]. rewrite map_length.
    destruct (length Y =? n)%nat; [reflexivity|]. destruct (length Y =? 1)%nat; [|destruct (n =? 1)%nat; reflexivity]. rewrite map_repeat. destruct Y; reflexivity.
  Qed.
  Lemma flat_rows_change (xs : list (list R)) : forall rows, flat_rows (map (map h) xs) rows = flat_rows xs rows.
  Proof using. unfold flat_rows. induction xs as [|l xs IH]; intros [|r rows]; try reflexivity. cbn [map map2 concat]. rewrite map_map, IH. reflexivity. Qed.
  Lemma eval_change n (m : nd R -> nd nat -> res (list R)) q :
    rv_eval n cond other (fun x row => m (mknd (shp x) (map h (dat x))) row) q = rv_eval n cond' other' m (hpoints q).
  Proof using Hc Ho.
    unfold rv_eval. rewrite broadcast_change. destruct (broadcast_points n q) as [[xs rows]|]; [|reflexivity]. cbn [bind]. cbv zeta.
    rewrite flat_rows_change, <- !concat_map, <- forallb_change, <- existsb_change, <- filter_change, <- combine_change. rewrite !map_length.
    assert (Hn : forall l : list R, mknd (shp (nd1 l)) (map h (dat (nd1 l))) = nd1 (map h l)) by (intros l; unfold nd1; cbn [shp dat]; rewrite map_length; reflexivity). rewrite !Hn.
    assert (Hw : (match map (map h) xs with [] => 0%nat | l :: _ => length l end) = (match xs with [] => 0%nat | l :: _ => length l end)) by (destruct xs as [|l xs]; [reflexivity|cbn; apply map_length]). rewrite Hw.
    match goal with |- bind ?a _ = bind ?b _ => replace a with b by reflexivity; destruct b as [vals|]; [|reflexivity] end. cbn [bind]. rewrite place_change. reflexivity.
  Qed.
End Change.

(** ** C108 *)
Lemma isf_ppf n (m : nd R -> nd nat -> res (list R)) q : rv_isf n m q = rv_ppf n m (complement q).
Proof.
  unfold rv_isf, rv_ppf. change (complement q) with (hpoints (fun p => 1 - p) q).
  apply (eval_change (fun p => 1 - p)); intros p; [|intros E]; cbn beta.
  - destruct (nltb_reflect n0 p) as [A|A], (nltb_reflect p n1) as [B|B], (nltb_reflect n0 (1 - p)) as [C|C], (nltb_reflect (1 - p) n1) as [D|D]; revert A B C D; numR; intros; try reflexivity; exfalso; lra.
  - clear E. destruct (neqb_reflect p n1) as [A|A], (neqb_reflect p n0) as [B|B], (neqb_reflect (1 - p) n0) as [C|C], (neqb_reflect (1 - p) n1) as [D|D]; revert A B C D; numR; intros; try reflexivity; exfalso; lra.
Qed.
Lemma c108_sf : forall n (cdf : nd R -> nd nat -> res (list R)) x,
  rv_sf n cdf x = match rv_cdf n cdf x with Ok t => Ok (map (map one_minus) t) | Err e => Err e end.
Proof.
  intros n cdf x. unfold rv_sf, rv_cdf, rv_eval. destruct (broadcast_points n x) as [[xs rows]|]; [|reflexivity]. cbn [bind]. cbv zeta.
  assert (P : forall pts vals, place (fun _ : R => true) (fun _ => NaN) pts (map (fun v => nsub n1 v) vals) = map one_minus (place (fun _ => true) (fun _ => NaN) pts vals)).
  { induction pts as [|p pts IH]; intros vals; [reflexivity|]. destruct vals as [|v vals]; cbn [place map]; f_equal; [apply (IH [])|apply IH]. }
  assert (C : forall k w (l : list (xnum R)), chunks k w (map one_minus l) = map (map one_minus) (chunks k w l)).
  { induction k as [|k IH]; intros w l; [reflexivity|]. cbn [chunks map]. rewrite firstn_map, skipn_map, IH. reflexivity. }
  assert (E : forallb (fun _ : R => true) (concat xs) = true) by (apply forallb_forall; reflexivity). rewrite E. clear E.
  destruct (length (concat xs) =? 0)%nat.
  - cbn [bind]. rewrite <- C, <- P. reflexivity.
  - destruct (cdf _ _) as [v|]; [|reflexivity]. cbn [bind]. rewrite <- C, <- P. reflexivity.
Qed.
Lemma c108_isf : forall X M e, made X M e -> g_name (e_obj e) <> "norm"%string ->
  (exists isf, isf_method e isf) /\ forall isf, isf_method e isf -> forall q, isf q = ens_ppf e (complement q).
Proof.
  intros X M e He Hn. split.
  - destruct (made_asked X M e He) as [_ [H|(m & Hp & _)]]; [contradiction|]. exists (rv_isf (e_npdf e) m), m. split; [|reflexivity]. unfold ens_ppf. rewrite Hp. reflexivity.
  - intros isf (f & H1 & ->) q. rewrite H1. apply isf_ppf.
Qed.
Lemma inc_nodup l : increasing l -> NoDup l.
Proof.
  unfold increasing. induction 1 as [|a l Hs IH Hf]; [constructor|]. constructor; [|exact IH]. intros Hin. rewrite List.Forall_forall in Hf. specialize (Hf a Hin). lra.
Qed.
Lemma inc_unique l : forall l', increasing l -> increasing l' -> Permutation l l' -> l = l'.
Proof.
  unfold increasing. induction l as [|a l IH]; intros l' H1 H2 Hp; [apply Permutation_nil in Hp; congruence|].
  destruct l' as [|b l']; [apply Permutation_sym, Permutation_nil in Hp; discriminate|].
  apply StronglySorted_inv in H1. apply StronglySorted_inv in H2. destruct H1 as [S1 F1], H2 as [S2 F2]. rewrite List.Forall_forall in F1, F2.
  assert (a = b). { assert (Ha : In a (b :: l')) by (apply (Permutation_in _ Hp); left; reflexivity). assert (Hb : In b (a :: l)) by (apply (Permutation_in _ (Permutation_sym Hp)); left; reflexivity).
    destruct Ha as [Ha|Ha]; [auto|]. destruct Hb as [Hb|Hb]; [auto|]. specialize (F1 b Hb). specialize (F2 a Ha). lra. }
  subst b. f_equal. apply IH; [exact S1|exact S2|]. apply Permutation_cons_inv with a. exact Hp.
Qed.
Lemma complement_rev l : increasing l -> increasing (rev (map (fun p => 1 - p) l)).
Proof.
  unfold increasing. induction 1 as [|a l Hs IH Hf]; [constructor|]. cbn [map rev]. rewrite List.Forall_forall in Hf.
  assert (G : forall u z, StronglySorted Rlt u -> (forall y, In y u -> y < z) -> StronglySorted Rlt (u ++ [z])).
  { induction u as [|y u IHu]; intros z Hu Hz; [repeat constructor|]. apply StronglySorted_inv in Hu. destruct Hu as [Su Fu]. cbn [app]. constructor; [apply IHu; [exact Su|intros; apply Hz; right; assumption]|].
    rewrite List.Forall_forall in *. intros w Hw. apply in_app_iff in Hw. destruct Hw as [Hw|[<-|[]]]; [apply Fu; exact Hw|apply Hz; left; reflexivity]. }
  apply G; [exact IH|]. intros y Hy. apply in_rev in Hy. apply in_map_iff in Hy. destruct Hy as (p & <- & Hp). specialize (Hf p Hp). lra.
Qed.
(** every PDF's answers on a strictly increasing grid come in the order of the decreasing grid *)
Lemma c108_reversed : forall X M e isf v q, fill_outside X -> made X M e -> In MPpf M -> at_numbers e MPpf v ->
  g_name (e_obj e) <> "norm"%string -> g_name (e_obj e) <> "mixmod"%string -> (2 <= e_npdf e)%nat -> isf_method e isf ->
  increasing q -> (forall p, In p q -> inner p) ->
  (forall p, isf (PScalar p) = Ok (map (fun r => [v r (1 - p)]) (seq 0 (e_npdf e)))) /\
  isf (PGrid q) = Ok (map (fun r => rev (map (fun p => v r (1 - p)) q)) (seq 0 (e_npdf e))).
Proof.
  intros X M e isf v q HX He Hin Hv Hn1 Hn2 H2 Hi Hq Hp. pose proof (proj2 (c108_isf X M e He Hn1) isf Hi) as Ei. split; [intros p; rewrite Ei; apply (Hv (1 - p))|]. rewrite Ei. cbn [complement].
  destruct q as [|q0 q']; [pose proof (c98_grid X M e MPpf v [] HX He Hin Hv ltac:(intros _ p []) ltac:(left; constructor)) as E; exact E|]. set (q := q0 :: q') in *.
  destruct (made_asked X M e He) as [_ [H|(m & Hm & Hs)]]; [contradiction|]. destruct Hs as [Hs|Hs]; [contradiction|].
  assert (Em : ens_ppf e = rv_ppf (e_npdf e) m) by (unfold ens_ppf; rewrite Hm; reflexivity). fold (e_npdf e) in Hs. 
  set (z := map (fun p => 1 - p) q) in *. assert (Hz : forall p, In p z -> inner p) by (intros p Hpz; apply in_map_iff in Hpz; destruct Hpz as (p' & <- & Hp'); specialize (Hp p' Hp'); unfold inner in *; lra).
  assert (Hrev : increasing (rev z)) by (apply complement_rev; exact Hq).
  transitivity (ens_ppf e (PGrid (rev z))).
  - destruct Hs as [[err ->]|[g Hd]].
    + exfalso. pose proof (Hv (1 - q0)) as E. cbn [evaluate] in E. rewrite Em in E. assert (Hi0 : inner (1 - q0)) by (apply Hz; left; reflexivity). apply icond_inner in Hi0.
      change (rv_ppf (e_npdf e)) with (rv_eval (e_npdf e) icond iother) in E. unfold rv_eval in E. cbn [broadcast_points bind] in E. cbv zeta in E.
      assert (Hall : forallb icond (concat (repeat [1 - q0] (e_npdf e))) = true). { apply forallb_forall. intros p Hpp. apply in_concat in Hpp. destruct Hpp as (l & Hl & Hpp). apply repeat_spec in Hl. subst l. destruct Hpp as [<-|[]]. exact Hi0. }
      rewrite Hall in E. destruct (e_npdf e) as [|n]; [lia|]. cbn [repeat concat app length Nat.eqb bind] in E. discriminate.
    + assert (Hcond : forall x, In x z -> icond x = true) by (intros x Hx; apply icond_inner; auto). rewrite !Em. change (rv_ppf (e_npdf e)) with (rv_eval (e_npdf e) icond iother).
      assert (Hnd : NoDup z) by (apply (Permutation_NoDup (Permutation_sym (Permutation_rev z))); apply inc_nodup; exact Hrev).
      destruct (gen_grid_other g (e_npdf e) m Hd ltac:(lia) icond iother z Hcond H2 Hnd) as (ys & P1 & P2 & ->).
      assert (ys = rev z) by (apply inc_unique; [exact P2|exact Hrev|]; rewrite <- P1; apply Permutation_rev). subst ys.
      symmetry. apply (gen_grid g (e_npdf e) m Hd ltac:(lia)). right. left. exact Hrev.
  - pose proof (c98_grid X M e MPpf v (rev z) HX He Hin Hv) as E. cbn [evaluate] in E. rewrite E; [|intros _ p Hpp; apply Hz; apply in_rev; exact Hpp|left; exact Hrev].
    unfold table, z. f_equal. apply map_ext. intros r. rewrite map_rev, map_map. reflexivity.
Qed.
Lemma c108_isf_refuted : exists (bins : list Q) (rows : list (list Q)) (h : hist Q),
  hist_ctor bins (nd2 2 rows) true = Ok h /\ length rows = 2%nat /\
  rv_isf 2 (hist_ppf h) (PScalar (1 # 4)) = Ok [[Fin (3 # 2)]; [Fin (5 # 3)]] /\ rv_isf 2 (hist_ppf h) (PScalar (1 # 2)) = Ok [[Fin 1%Q]; [Fin (4 # 3)]] /\
  rv_isf 2 (hist_ppf h) (PGrid [1 # 4; 1 # 2]) = Ok [[Fin 1%Q; Fin (3 # 2)]; [Fin (4 # 3); Fin (5 # 3)]].
Proof.
  exists [0%Q; 1%Q; 2 # 1], [[1%Q; 1%Q]; [1%Q; 3 # 1]]. eexists. split; [vm_compute; reflexivity|]. split; [reflexivity|]. split; [|split]; vm_compute; reflexivity.
Qed.
(** ** C109 *)
Lemma interval_out n (f : nd R -> nd nat -> res (list R)) alpha : alpha < 0 \/ 1 < alpha -> rv_interval n f alpha = Err ValueError.
Proof. intros H. unfold rv_interval. destruct (nltb_reflect n1 alpha) as [A|A], (nltb_reflect alpha n0) as [B|B]; try reflexivity. exfalso. revert A B. numR. lra. Qed.
Lemma interval_in n (f : nd R -> nd nat -> res (list R)) alpha : 0 <= alpha <= 1 ->
  rv_interval n f alpha = bind (rv_ppf n f (PScalar ((1 - alpha) / 2))) (fun a => bind (rv_ppf n f (PScalar ((1 + alpha) / 2))) (fun b => Ok (a, b))).
Proof. intros H. unfold rv_interval. destruct (nltb_reflect n1 alpha) as [A|A], (nltb_reflect alpha n0) as [B|B]; try (exfalso; revert A B; numR; lra). reflexivity. Qed.
Lemma scalar_edge n (f : nd R -> nd nat -> res (list R)) p : ~ inner p -> rv_ppf n f (PScalar p) = Ok (column n (fun _ => edge p)).
Proof.
  intros H. change (rv_ppf n f (PScalar p)) with (rv_ppf n f (PGrid [p])). rewrite rv_ppf_edges by (intros q [<-|[]]; exact H). reflexivity.
Qed.
Lemma interval_one n (f : nd R -> nd nat -> res (list R)) : rv_interval n f 1 = Ok (column n (fun _ => NInf), column n (fun _ => PInf)).
Proof.
  rewrite interval_in by lra. replace ((1 - 1) / 2) with 0 by lra. replace ((1 + 1) / 2) with 1 by lra. rewrite !scalar_edge by (unfold inner; lra). cbn [bind].
  assert (E0 : edge 0 = NInf) by (unfold edge; destruct (Req_EM_T 0 0); [reflexivity|lra]). assert (E1 : edge 1 = PInf) by (unfold edge; destruct (Req_EM_T 1 0); [lra|]; destruct (Req_EM_T 1 1); [reflexivity|lra]).
  rewrite E0, E1. reflexivity.
Qed.
Lemma interval_values n (f : nd R -> nd nat -> res (list R)) Q alpha : evaluates_on 0 1 (rv_ppf n f) n Q -> 0 <= alpha < 1 ->
  rv_interval n f alpha = Ok (column n (fun r => Fin (Q r ((1 - alpha) / 2))), column n (fun r => Fin (Q r ((1 + alpha) / 2)))).
Proof. intros H Ha. rewrite interval_in by lra. rewrite !H by lra. reflexivity. Qed.
Lemma median_values n (f : nd R -> nd nat -> res (list R)) Q : evaluates_on 0 1 (rv_ppf n f) n Q -> rv_median n f = Ok (column n (fun r => Fin (Q r (1 / 2)))).
Proof. intros H. unfold rv_median. rewrite nhalf_R, H by lra. reflexivity. Qed.
Lemma central_inverse n F (f : nd R -> nd nat -> res (list R)) Q : evaluates_on 0 1 (rv_ppf n f) n Q -> 
  (forall r, (r < n)%nat -> (forall p, 0 < p < 1 -> F r (Q r p) = p) /\ forall p q, 0 < p -> p <= q -> q < 1 -> Q r p <= Q r q) ->
  central n F (rv_interval n f) (rv_median n f).
Proof.
  intros HQ H. split; [|split; [apply interval_one|split; [apply interval_out|]]].
  - intros alpha Ha. exists (fun r => Q r ((1 - alpha) / 2)), (fun r => Q r ((1 + alpha) / 2)). split; [apply interval_values; assumption|]. intros r Hr. destruct (H r Hr) as [H1 H2]. split; [apply H2; lra|]. rewrite !H1 by lra. split; lra.
  - exists (fun r => Q r (1 / 2)). split; [apply median_values; eassumption|]. intros r Hr. apply H; [exact Hr|lra].
Qed.
Lemma c110_hist : forall bins rows h, hist_input bins rows -> hist_ctor bins (nd2 (pred (length bins)) rows) true = Ok h ->
  exists F, evaluates (hist_ens_cdf h) (length rows) F /\ central (length rows) F (hist_ens_interval h) (hist_ens_median h).
Proof.
  intros bins rows h Hi Hc. destruct (c04_ppf bins rows h Hi Hc) as (F & Q & HF & HQ & H). exists F. split; [exact HF|]. destruct (input_ok _ _ _ Hi Hc) as [Hok Eh].
  assert (Hk : h_npdf h = length rows) by (rewrite Eh; apply npdf_built). unfold hist_ens_interval, hist_ens_median. rewrite <- Hk in *. apply central_inverse with Q; [exact HQ|]. intros r Hr. destruct (H r Hr) as (H1 & H2 & _). split; [intros p Hp; apply H1; exact Hp|exact H2].
Qed.
Lemma c110_irr : forall n xr yr o, irr_input n xr yr -> irr_ctor (nd2 n xr) (nd2 n yr) true = Ok o ->
  exists F, evaluates (irr_ens_cdf o) (length xr) F /\ central (length xr) F (irr_ens_interval o) (irr_ens_median o).
Proof.
  intros n xr yr o Hi Hc. destruct (c55_irr_ppf n xr yr o Hi Hc) as (F & Q & HF & HQ & H). exists F. split; [exact HF|]. pose proof (r_np n xr yr o Hi Hc) as Hk. unfold irr_ens_interval, irr_ens_median. rewrite <- Hk in *.
  apply central_inverse with Q; [exact HQ|]. intros r Hr. destruct (H r Hr) as (H1 & H2). split; [intros p Hp; apply H1; exact Hp|exact H2].
Qed.
(** interpolated PDFs: nothing lies below the first grid point, where the distribution function is positive already *)
Lemma c110_interp : forall xs rows i, interp_input xs rows -> interp_ctor xs (nd2 (length xs) rows) true = Ok i ->
  exists F, evaluates (interp_ens_cdf i) (length rows) F /\
    interp_ens_interval i 1 = Ok (column (length rows) (fun _ => NInf), column (length rows) (fun _ => PInf)) /\
    (forall alpha, alpha < 0 \/ 1 < alpha -> interp_ens_interval i alpha = Err ValueError) /\
    (exists m, interp_ens_median i = Ok (column (length rows) (fun r => Fin (m r))) /\ forall r, (r < length rows)%nat -> F r (nth0 0 xs) <= 1 / 2 -> F r (m r) = 1 / 2) /\
    forall alpha, 0 <= alpha < 1 -> exists a b, interp_ens_interval i alpha = Ok (column (length rows) (fun r => Fin (a r)), column (length rows) (fun r => Fin (b r))) /\
      forall r, (r < length rows)%nat -> a r <= b r /\
        (F r (nth0 0 xs) <= (1 - alpha) / 2 -> F r (a r) = (1 - alpha) / 2 /\ F r (b r) - F r (a r) = alpha) /\
        ((1 - alpha) / 2 < F r (nth0 0 xs) <= (1 + alpha) / 2 -> a r = nth0 0 xs /\ F r (b r) = (1 + alpha) / 2 /\ F r (b r) - F r (a r) < alpha).
Proof.
  intros xs rows i Hi Hc. destruct (c10 xs rows i Hi Hc) as (F & Q & HF & HQ & H). exists F. split; [exact HF|]. pose proof (i_np xs rows i Hi Hc) as Hk. unfold interp_ens_interval, interp_ens_median. rewrite <- Hk in *.
  split; [apply interval_one|]. split; [apply interval_out|]. split.
  - exists (fun r => Q r (1 / 2)). split; [apply median_values; exact HQ|]. intros r Hr Hl. destruct (H r Hr) as (_ & _ & H3 & _). apply H3; [lra|exact Hl].
  - intros alpha Ha. exists (fun r => Q r ((1 - alpha) / 2)), (fun r => Q r ((1 + alpha) / 2)). split; [apply interval_values; [exact HQ|exact Ha]|]. intros r Hr. destruct (H r Hr) as (_ & H2 & H3 & H4 & _). split; [apply H2; lra|]. split; intros Hl.
    + rewrite !H3 by lra. split; lra.
    + rewrite (H4 ((1 - alpha) / 2)) by lra. rewrite (H3 ((1 + alpha) / 2)) by lra. split; [reflexivity|]. split; [reflexivity|lra].
Qed.
(** one number: the value below which v r puts 1 - p *)
Lemma c108_scalar : forall X M e isf v p, fill_outside X -> made X M e -> In MPpf M -> at_numbers e MPpf v ->
  g_name (e_obj e) <> "norm"%string -> isf_method e isf -> isf (PScalar p) = Ok (column (e_npdf e) (fun r => v r (1 - p))).
Proof. intros X M e isf v p HX He Hin Hv Hn Hi. rewrite (proj2 (c108_isf X M e He Hn) isf Hi). apply (Hv (1 - p)). Qed.
(** ** Examples *)
Lemma c108_example : exists X M e isf v, fill_outside X /\ made X M e /\ In MPpf M /\ at_numbers e MPpf v /\
  g_name (e_obj e) <> "norm"%string /\ g_name (e_obj e) <> "mixmod"%string /\ e_npdf e = 2%nat /\ isf_method e isf /\
  increasing [1/4; 1/2] /\ (forall p, In p [1/4; 1/2] -> inner p) /\
  isf (PGrid [1/4; 1/2]) = Ok (map (fun r => [v r (1/2); v r (3/4)]) (seq 0 2)).
Proof.
  destruct (created scipy1 _ scipy1_fill interp1_ok) as (e & _ & Hm & HD & Hsh & Hname & _).
  assert (Hin : In MPpf [MPdf; MCdf; MPpf]) by (right; right; left; reflexivity).
  destruct (c98_numbers scipy1 _ e MPpf scipy1_fill Hm Hin) as (v & Hv).
  assert (N1 : g_name (e_obj e) <> "norm"%string) by (rewrite Hname; discriminate). assert (N2 : g_name (e_obj e) <> "mixmod"%string) by (rewrite Hname; discriminate).
  destruct (c108_isf scipy1 _ e Hm N1) as ((isf & Hi) & _). exists scipy1, [MPdf; MCdf; MPpf], e, isf, v.
  assert (Hn : e_npdf e = 2%nat) by exact (rep_npdf' _ _ _ _ HD). assert (HI : increasing [1/4; 1/2]) by (repeat constructor; lra).
  assert (HP : forall p, In p [1/4; 1/2] -> inner p) by (intros p [<-|[<-|[]]]; unfold inner; lra).
  repeat (split; [first [apply scipy1_fill|assumption]|]).
  rewrite (proj2 (c108_reversed scipy1 _ e isf v _ scipy1_fill Hm Hin Hv N1 N2 ltac:(lia) Hi HI HP)), Hn. cbn [map rev app].
  replace (1 - 1 / 2) with (1 / 2) by lra. replace (1 - 1 / 4) with (3 / 4) by lra. reflexivity.
Qed.
