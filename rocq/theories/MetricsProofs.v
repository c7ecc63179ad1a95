(** Lemmas on metric grids, gridded values and the simple metrics. *)
From Coq Require Import String List Arith ZArith Bool Lia Reals Lra Sorted.
From Verif Require Import Num NumProofs Py NdArray NumpyLib Utils ScipyWrap Spec Values Ensemble Classes
  HistPdf InterpPdf QuantPdf MixmodPdf Packing PackedPdf
  SortProofs BinProofs EvalProofs NdProofs InterpProofs HistProofs InterpPdfProofs HistTheorems GridTheorems IrrTheorems
  QuantTheorems MixmodTheorems PackingTheorems PackedTheorems Kinds KindProofs EnsembleProofs KindInputs ReachProofs AppendProofs
  RowProofs EnsembleTheorems IntegrateTheorems Metrics.
Import ListNotations.
Local Open Scope string_scope.
Local Open Scope list_scope.
Local Open Scope R_scope.

(** ** Reachable ensembles have a right cache *)
Lemma new_cache f d anc (e : ens R) : ens_new f d anc = Ok e -> cache_right e.
Proof. intros E. apply ens_new_inv in E. destruct E as (g & _ & _ & ->). exact I. Qed.
Ltac unbind H := repeat match type of H with
  | bind ?m _ = _ => destruct m; cbn [bind] in H; [|discriminate H]
  | (if ?b then _ else _) = _ => destruct b; [|discriminate H]
  | match ?m with _ => _ end = _ => destruct m; try discriminate H
  end.
Lemma made_cache : forall X M e, made X M e -> cache_right e.
Proof.
  intros X M e. unfold made. induction 1;
    try (match goal with E : ens_new _ _ _ = Ok _ |- _ => eapply new_cache; exact E end);
    try (match goal with E : getitem _ _ _ = Ok _ |- _ => unfold getitem in E; unbind E; eapply new_cache; exact E end);
    try (match goal with E : from_tables _ _ = Ok _ |- _ => unfold from_tables in E; unbind E; eapply new_cache; exact E end);
    try (match goal with E : append _ _ = _ |- _ => unfold cache_right; erewrite append_cleared by exact E; exact I end);
    try (match goal with E : update _ _ _ = _ |- _ => unfold cache_right; erewrite update_cleared by exact E; exact I end).
  - match goal with E : concatenate _ = _ |- _ => unfold concatenate in E;
      destruct (compare_dicts _) as [[]|]; cbn [bind] in E; try discriminate E; destruct (concatenate_dicts _); cbn [bind] in E; [|discriminate E];
      destruct (match ancil_list _ with Some _ => _ | None => _ end); cbn [bind] in E; [|discriminate E];
      destruct (ens_new _ _ _) eqn:En; cbn [bind] in E; [|discriminate E]; injection E as <-; eapply new_cache; exact En end.
  - match goal with E : set_ancil _ _ = _ |- _ => unfold set_ancil in E; destruct (check_array_shapes _ _); [injection E as <-|discriminate E]; assumption end.
  - match goal with E : add_to_ancil _ _ = _ |- _ => unfold add_to_ancil in E; destruct (check_columns _ _); [|discriminate E]; destruct (e_ancil _); [injection E as <-|discriminate E]; assumption end.
  - apply gridded_right. assumption.
  - rewrite mode_state. apply gridded_right. assumption.
  - destruct (moment_state e n lo hi dx) as [->|(g & ->)]; [assumption|apply gridded_right; assumption].
Qed.

(** ** Metric grids *)
Lemma half_R : (nhalf : R) = 1 / 2.
Proof. unfold nhalf, nfrac. cbn. lra. Qed.
Lemma trunc_pos (x : R) n : INR n <= x < INR n + 1 -> int_trunc x = Z.of_nat n.
Proof.
  intros H. unfold int_trunc. destruct (nleb_reflect n0 x) as [_|C].
  - apply nfloor_unique. rewrite <- INR_IZR_INZ. exact H.
  - exfalso. cbn in C. pose proof (pos_INR n). lra.
Qed.
Lemma floor_nat (x : R) : 0 <= x -> exists n, INR n <= x < INR n + 1.
Proof.
  intros H. exists (Z.to_nat (nfloor x)). pose proof (nfloor_spec x) as F. pose proof (nfloor_ge x 0 ltac:(simpl; lra)).
  rewrite INR_IZR_INZ, Z2Nat.id by lia. exact F.
Qed.
Definition grid_laws (lo hi : R) (g : mgrid) (n : nat) : Prop :=
  mg_card g = n /\ length (mg_values g) = n /\ length (mg_edges g) = S n /\ 0 < mg_res g /\
  (forall i, (i < n)%nat -> nth0 i (mg_values g) = lo + INR i * mg_res g) /\
  lo + INR (pred n) * mg_res g = hi /\
  (forall i, (i <= n)%nat -> nth0 i (mg_edges g) = lo + (INR i - 1 / 2) * mg_res g) /\ increasing (mg_values g).
Lemma grid_ok lo hi dx n : 0 < dx -> (2 <= n)%nat -> INR n <= (hi - lo) / dx < INR n + 1 ->
  exists g, grid_parameters lo hi dx = Ok g /\ grid_laws lo hi g n.
Proof.
  intros Hdx Hn Hx. unfold grid_parameters. destruct (neqb_reflect dx n0) as [C|_]; [cbn in C; lra|].
  change (ndiv (nsub hi lo) dx) with ((hi - lo) / dx). rewrite (trunc_pos _ n Hx).
  destruct (Z.ltb_spec (Z.of_nat n) 0); [lia|]. destruct (Z.eqb_spec (Z.of_nat n) 1); [lia|]. destruct (Z.eqb_spec (Z.of_nat n) 0); [lia|].
  rewrite Nat2Z.id. destruct n as [|[|n]]; [lia|lia|]. 
  assert (Hlt : lo < hi).
  { assert (H2 : 0 < (hi - lo) / dx) by (rewrite !S_INR in Hx; pose proof (pos_INR n); lra). 
    apply Rmult_lt_compat_r with (r := dx) in H2; [|exact Hdx]. unfold Rdiv in H2. rewrite Rmult_assoc, Rinv_l, Rmult_1_r in H2 by lra. lra. }
  assert (HnP : 0 < INR (S n)) by (apply lt_0_INR; lia).
  set (r := (hi - lo) / INR (S n)).
  assert (Hr : 0 < r) by (apply Rdiv_lt_0_compat; lra).
  assert (Er : @ndiv R RNum (nsub hi lo) (nofZ (Z.of_nat (S (S n)) - 1)) = r).
  { unfold r. cbn [ndiv nsub nofZ RNum]. f_equal. rewrite INR_IZR_INZ. f_equal. lia. }
  eexists. split; [reflexivity|]. rewrite Er, half_R. cbn [nsub nadd nmul RNum].
  assert (Ha : nmin (lo - r * (1 / 2)) (hi + r * (1 / 2)) = lo - r * (1 / 2)).
  { unfold nmin. destruct (nleb_reflect (lo - r * (1 / 2)) (hi + r * (1 / 2))); [reflexivity|lra]. }
  assert (Hb : nmax (lo - r * (1 / 2)) (hi + r * (1 / 2)) = hi + r * (1 / 2)).
  { unfold nmax. destruct (nleb_reflect (lo - r * (1 / 2)) (hi + r * (1 / 2))); [reflexivity|lra]. }
  rewrite Ha, Hb. unfold grid_laws. cbn [mg_card mg_values mg_edges mg_res]. rewrite !linspace_length.
  assert (Erange : INR (S n) * r = hi - lo) by (unfold r; field; lra).
  split; [reflexivity|]. split; [reflexivity|]. split; [reflexivity|]. split; [exact Hr|].
  split; [intros i Hi; rewrite linspace_nth by lia; reflexivity|]. split; [cbn [pred]; lra|]. split.
  - intros i Hi. rewrite linspace_nth by lia. replace ((hi + r * (1 / 2) - (lo - r * (1 / 2))) / INR (S (S n))) with r; [lra|].
    rewrite S_INR. rewrite <- (Rmult_1_r r) at 1. replace (hi + r * (1 / 2) - (lo - r * (1 / 2))) with (r * (INR (S n) + 1)) by lra. field. lra.
  - apply linspace_inc. exact Hlt.
Qed.

Lemma div_bounds a dx n : 0 < dx -> (INR n * dx <= a < (INR n + 1) * dx <-> INR n <= a / dx < INR n + 1).
Proof.
  intros H. assert (E : a = a / dx * dx) by (field; lra). split; intros [H1 H2].
  - split; [apply Rmult_le_reg_r with dx|apply Rmult_lt_reg_r with dx]; try exact H; rewrite <- E; auto.
  - rewrite E. split; [apply Rmult_le_compat_r; auto; lra|apply Rmult_lt_compat_r; auto].
Qed.
Lemma grid_none lo hi dx : 0 < dx -> hi - lo < dx -> grid_parameters lo hi dx = Err ValueError.
Proof.
  intros Hdx H. unfold grid_parameters. destruct (neqb_reflect dx n0) as [C|_]; [cbn in C; lra|].
  change (ndiv (nsub hi lo) dx) with ((hi - lo) / dx). destruct (Rle_lt_dec 0 (hi - lo)) as [Hp|Hn].
  - rewrite (trunc_pos _ 0); [reflexivity|]. apply (div_bounds _ _ 0%nat); [exact Hdx|]. change (INR 0) with 0. lra.
  - assert (Hq : (hi - lo) / dx < 0) by (apply Rmult_lt_reg_r with dx; [lra|]; unfold Rdiv; rewrite Rmult_assoc, Rinv_l by lra; lra).
    unfold int_trunc. destruct (nleb_reflect n0 ((hi - lo) / dx)) as [C|_]; [cbn in C; lra|].
    assert (Hf : (0 <= nfloor (nopp ((hi - lo) / dx)%R))%Z) by (apply nfloor_ge; change (0 <= - ((hi - lo) / dx)); lra).
    destruct (Z.ltb_spec (- nfloor (nopp ((hi - lo) / dx))) 0) as [|Hz]; [reflexivity|]. replace (Z.opp (nfloor (nopp ((hi - lo) / dx)))) with 0%Z by lia. reflexivity.
Qed.
Lemma grid_one lo hi dx : 0 < dx -> dx <= hi - lo < 2 * dx -> grid_parameters lo hi dx = Err ZeroDivisionError.
Proof.
  intros Hdx H. unfold grid_parameters. destruct (neqb_reflect dx n0) as [C|_]; [cbn in C; lra|].
  change (ndiv (nsub hi lo) dx) with ((hi - lo) / dx). rewrite (trunc_pos _ 1); [reflexivity|]. apply div_bounds; [exact Hdx|]. change (INR 1) with 1. lra.
Qed.
Lemma grid_zero lo hi : grid_parameters lo hi 0 = Err ZeroDivisionError.
Proof. unfold grid_parameters. destruct (neqb_reflect 0 n0) as [|C]; [reflexivity|cbn in C; lra]. Qed.
Lemma grid_total lo hi dx : 0 < dx -> 2 * dx <= hi - lo -> exists g n, grid_parameters lo hi dx = Ok g /\ (2 <= n)%nat /\ INR n * dx <= hi - lo < (INR n + 1) * dx /\ grid_laws lo hi g n.
Proof.
  intros Hdx H. assert (0 <= (hi - lo) / dx) by (apply Rdiv_le_0_compat_l || (apply Rmult_le_pos; [lra|left; apply Rinv_0_lt_compat; lra])).
  destruct (floor_nat _ H0) as (n & Hn). pose proof (proj2 (div_bounds (hi - lo) dx n Hdx) Hn) as Hb.
  assert (Hn2 : (2 <= n)%nat).
  { destruct n as [|[|n]]; [simpl in Hb; lra|simpl in Hb; lra|lia]. }
  destruct (grid_ok lo hi dx n Hdx Hn2 Hn) as (g & Eg & Hg). exists g, n. auto.
Qed.
Lemma grid_inv lo hi dx g : 0 < dx -> grid_parameters lo hi dx = Ok g -> exists n, (2 <= n)%nat /\ INR n * dx <= hi - lo < (INR n + 1) * dx /\ grid_laws lo hi g n.
Proof.
  intros Hdx E. destruct (Rlt_le_dec (hi - lo) dx) as [H|H]; [rewrite grid_none in E by auto; discriminate|].
  destruct (Rlt_le_dec (hi - lo) (2 * dx)) as [H'|H']; [rewrite grid_one in E by auto; discriminate|].
  destruct (grid_total lo hi dx Hdx H') as (g' & n & E' & H1 & H2 & H3). rewrite E in E'. injection E' as <-. exists n. auto.
Qed.

(** The grid point of a truth value: the bins are centred on the grid points *)
Definition falls (x r t : R) : Prop := x - r / 2 <= t < x + r / 2.
Definition hit (x r t : R) : R := if Rle_dec (x - r / 2) t then if Rlt_dec t (x + r / 2) then 1 else 0 else 0.
Lemma hit_one x r t : falls x r t -> hit x r t = 1.
Proof. unfold falls, hit. intros H. destruct (Rle_dec _ _); [|lra]. destruct (Rlt_dec _ _); lra. Qed.
Lemma hit_zero x r t : ~ falls x r t -> hit x r t = 0.
Proof. unfold falls, hit. intros H. destruct (Rle_dec _ _); [|lra]. destruct (Rlt_dec _ _); lra. Qed.
Lemma falls_unique lo r i j t : 0 < r -> falls (lo + INR i * r) r t -> falls (lo + INR j * r) r t -> i = j.
Proof.
  unfold falls. intros Hr [H1 H2] [H3 H4].
  assert (INR i * r < (INR j + 1) * r) by lra. assert (INR j * r < (INR i + 1) * r) by lra.
  apply Rmult_lt_reg_r in H; [|exact Hr]. apply Rmult_lt_reg_r in H0; [|exact Hr]. rewrite <- S_INR in H, H0. apply INR_lt in H, H0. lia.
Qed.
Lemma falls_exists lo hi g n t : grid_laws lo hi g n -> (1 <= n)%nat -> lo <= t <= hi -> exists i, (i < n)%nat /\ falls (nth0 i (mg_values g)) (mg_res g) t.
Proof.
  intros (_ & _ & _ & Hr & Hv & Hhi & _) Hn Ht. set (r := mg_res g) in *.
  destruct (floor_nat ((t - lo) / r + 1 / 2)) as (i & Hi).
  { assert (0 <= (t - lo) / r) by (apply Rmult_le_pos; [lra|left; apply Rinv_0_lt_compat; lra]). lra. }
  assert (E : (t - lo) / r * r = t - lo) by (field; lra). set (u := (t - lo) / r) in *.
  assert (Hir : (INR i - 1 / 2) * r <= u * r < (INR i + 1 / 2) * r).
  { split; [apply Rmult_le_compat_r; lra|apply Rmult_lt_compat_r; lra]. }
  assert (Hlt : (i < n)%nat).
  { assert (INR i * r < (INR (pred n) + 1) * r) by lra. apply Rmult_lt_reg_r in H; [|exact Hr]. rewrite <- S_INR in H. apply INR_lt in H. lia. }
  exists i. split; [exact Hlt|]. rewrite Hv by exact Hlt. unfold falls. lra.
Qed.
Lemma histogram_hits lo hi g n t : grid_laws lo hi g n -> (1 <= n)%nat -> lo <= t <= hi ->
  map (fun c => nofZ (Z.of_nat c)) (np_histogram [t] (mg_edges g)) = map (fun x => hit x (mg_res g) t) (mg_values g).
Proof.
  intros Hg Hn Ht. pose proof Hg as (_ & Hl & He & Hr & Hv & Hhi & Hed & _).
  destruct (falls_exists lo hi g n t Hg Hn Ht) as (i & Hi & Hf). rewrite Hv in Hf by exact Hi.
  unfold np_histogram. rewrite He, map_map. cbn [pred].
  apply nth_ext with (d := 0) (d' := 0); [rewrite !map_length, seq_length; lia|].
  intros j Hj. rewrite map_length, seq_length in Hj.
  rewrite (nth_indep _ 0 ((fun x => nofZ (Z.of_nat (length (filter (in_bin (mg_edges g) x) [t])))) 0%nat)) by (rewrite map_length, seq_length; exact Hj).
  rewrite (map_nth (fun x => nofZ (Z.of_nat (length (filter (in_bin (mg_edges g) x) [t])))) (seq 0 n) 0%nat), seq_nth by exact Hj.
  rewrite (nth_indep _ 0 (hit 0 (mg_res g) t)) by (rewrite map_length; lia).
  rewrite (map_nth (fun x => hit x (mg_res g) t)). change (nth j (mg_values g) 0) with (nth0 j (mg_values g)). rewrite Hv by exact Hj.
  cbn [Nat.add]. assert (Hb : in_bin (mg_edges g) j t = true <-> falls (lo + INR j * mg_res g) (mg_res g) t).
  { unfold in_bin, falls. rewrite !Hed by lia. rewrite He. rewrite S_INR.
    destruct (nleb_reflect (lo + (INR j - 1 / 2) * mg_res g) t) as [H1|H1]; cbn [andb].
    - destruct (nltb_reflect t (lo + (INR j + 1 - 1 / 2) * mg_res g)) as [H2|H2]; cbn [orb].
      + split; [intros _; lra|auto].
      + destruct (neqb_reflect t (lo + (INR j + 1 - 1 / 2) * mg_res g)) as [H3|H3]; [|rewrite andb_false_r; split; [discriminate|lra]].
        destruct (Nat.eqb_spec (S (S j)) (S n)) as [H4|H4]; cbn [andb]; [|split; [discriminate|lra]]. exfalso.
        replace (pred n) with j in Hhi by lia. lra.
    - split; [discriminate|lra]. }
  cbn [filter length]. destruct (in_bin (mg_edges g) j t) eqn:Eb.
  - rewrite hit_one by (apply Hb; reflexivity). reflexivity.
  - rewrite hit_zero; [reflexivity|]. intros C. apply Hb in C. discriminate.
Qed.

(** ** Values on the grid *)
(** [p] is an ensemble built with qp that has [n] PDFs with the densities [f 0], [f 1], ... *)
Definition has_density (X : scipy) (p : ens R) (n : nat) (f : nat -> R -> R) : Prop :=
  (exists M, made X M p /\ In MPdf M) /\ e_npdf p = n /\ computes (ens_pdf p) n f.
Lemma density_exists : forall X M p, fill_outside X -> made X M p -> In MPdf M -> exists f, has_density X p (e_npdf p) f.
Proof.
  intros X M p HX Hm HM. destruct (made_rep X M p HX Hm) as (k & D & HD & Hk & _). subst M.
  exists (fun r => pdf_of X k (nth r D [])). split; [eauto|]. split; [reflexivity|].
  apply (rep_computes X k D p MPdf (pdf_of X k) HD HM). intros d x. apply pdf_fin.
Qed.
Lemma made_shape X M p : fill_outside X -> made X M p -> g_shape (e_obj p) = [e_npdf p] /\ (1 <= e_npdf p)%nat.
Proof.
  intros HX Hm. destruct (made_rep X M p HX Hm) as (k & D & HD & _ & _). pose proof (rep_npdf' X k D p HD) as Hn. rewrite Hn.
  destruct HD as (_ & Hne & _ & _ & (_ & _ & _ & Hs & _)). split; [exact Hs|]. destruct D; [congruence|simpl; lia].
Qed.
Lemma on_grid_eq X p n f l : has_density X p n f -> increasing l -> on_grid p l = Ok (map (fun r => map (f r) l) (seq 0 n)).
Proof.
  intros ((M & Hm & HM) & _ & _ & Hg) Hl. unfold on_grid. pose proof (made_cache X M p Hm) as Hc.
  rewrite (proj1 (gridded_right p l Hc)), (Hg l Hl). unfold table, fin. f_equal. rewrite map_map. apply map_ext. intros r. rewrite map_map. reflexivity.
Qed.
Lemma nsum_seq (h : nat -> R) n : nsum (map h (seq 0 n)) = rsum n h.
Proof.
  rewrite nsum_rsum, map_length, seq_length. apply rsum_ext. intros i Hi. unfold nth0.
  rewrite (nth_indep _ n0 (h 0%nat)) by (rewrite map_length, seq_length; exact Hi). rewrite (map_nth h), seq_nth by exact Hi. reflexivity.
Qed.
(** point [i] of the grid that starts at [lo] with spacing [r] *)
Definition gpoint (lo r : R) (i : nat) : R := lo + INR i * r.
Lemma values_seq lo hi g n : grid_laws lo hi g n -> mg_values g = map (gpoint lo (mg_res g)) (seq 0 n).
Proof.
  intros (_ & Hl & _ & _ & Hv & _). apply nth_ext with (d := 0) (d' := 0); [rewrite map_length, seq_length; exact Hl|].
  intros i Hi. rewrite Hl in Hi. rewrite (nth_indep (map (gpoint lo (mg_res g)) (seq 0 n)) 0 (gpoint lo (mg_res g) 0)) by (rewrite map_length, seq_length; exact Hi).
  rewrite (map_nth (gpoint lo (mg_res g))), seq_nth by exact Hi. apply Hv. exact Hi.
Qed.
(** the grid that metrics.py builds for [lo], [hi], [dx]: [n] points with spacing [r] *)
Definition metric_grid (lo hi dx : R) (n : nat) (r : R) : Prop :=
  0 < dx /\ (2 <= n)%nat /\ INR n * dx <= hi - lo < (INR n + 1) * dx /\ INR (pred n) * r = hi - lo.
Lemma metric_grid_ok lo hi dx n r : metric_grid lo hi dx n r -> exists g, grid_parameters lo hi dx = Ok g /\ grid_laws lo hi g n /\ mg_res g = r.
Proof.
  intros (Hdx & Hn & Hb & Hr). destruct (grid_ok lo hi dx n Hdx Hn (proj1 (div_bounds _ _ _ Hdx) Hb)) as (g & E & Hg). exists g. split; [exact E|]. split; [exact Hg|].
  destruct Hg as (_ & _ & _ & _ & _ & Hh & _). assert (0 < INR (pred n)) by (apply lt_0_INR; lia).
  apply Rmult_eq_reg_l with (INR (pred n)); lra.
Qed.
Lemma metric_grid_exists lo hi dx : 0 < dx -> 2 * dx <= hi - lo -> exists n r, metric_grid lo hi dx n r.
Proof.
  intros Hdx H. destruct (grid_total lo hi dx Hdx H) as (g & n & _ & Hn & Hb & (_ & _ & _ & _ & _ & Hh & _)). exists n, (mg_res g). repeat split; auto; lra.
Qed.
Lemma metric_grid_pos lo hi dx n r : metric_grid lo hi dx n r -> 0 < r.
Proof. intros H. destruct (metric_grid_ok _ _ _ _ _ H) as (g & _ & (_ & _ & _ & Hr & _) & <-). exact Hr. Qed.
Lemma metric_grid_cases lo hi dx : 0 < dx -> (exists n r, metric_grid lo hi dx n r) \/ grid_parameters lo hi dx = Err ValueError \/ grid_parameters lo hi dx = Err ZeroDivisionError.
Proof.
  intros Hdx. destruct (Rlt_le_dec (hi - lo) dx) as [H|H]; [right; left; apply grid_none; auto|].
  destruct (Rlt_le_dec (hi - lo) (2 * dx)) as [H'|H']; [right; right; apply grid_one; auto|left; apply metric_grid_exists; auto].
Qed.

Lemma shape_eqb_spec s t : shape_eqb s t = true <-> s = t.
Proof.
  revert t. induction s as [|a s IH]; intros [|b t]; cbn [shape_eqb]; split; intros H; try discriminate; auto.
  - apply andb_prop in H. destruct H as [H1 H2]. apply Nat.eqb_eq in H1. apply IH in H2. congruence.
  - injection H as -> ->. rewrite Nat.eqb_refl. apply IH. reflexivity.
Qed.
Lemma same_shape X p q n f g : fill_outside X -> has_density X p n f -> has_density X q n g -> shape_eqb (g_shape (e_obj p)) (g_shape (e_obj q)) = true.
Proof.
  intros HX ((M & Hm & HM) & Hn & _) ((M' & Hm' & HM') & Hn' & _). apply shape_eqb_spec.
  rewrite (proj1 (made_shape X M p HX Hm)), (proj1 (made_shape X M' q HX Hm')). congruence.
Qed.
Lemma other_shape X p q n m f g : fill_outside X -> has_density X p n f -> has_density X q m g -> n <> m -> shape_eqb (g_shape (e_obj p)) (g_shape (e_obj q)) = false.
Proof.
  intros HX ((M & Hm & HM) & Hn & _) ((M' & Hm' & HM') & Hn' & _) Hne. destruct (shape_eqb _ _) eqn:E; [|reflexivity]. apply shape_eqb_spec in E.
  rewrite (proj1 (made_shape X M p HX Hm)), (proj1 (made_shape X M' q HX Hm')) in E. injection E as E. lia.
Qed.
(** values of one PDF at the points of the grid *)
Lemma grid_line lo hi g n (h : R -> R) : grid_laws lo hi g n -> map h (mg_values g) = map (fun i => h (gpoint lo (mg_res g) i)) (seq 0 n).
Proof. intros H. rewrite (values_seq lo hi g n H), map_map. reflexivity. Qed.

(** ** calculate_moment *)
Lemma npow_R (x : R) n : npow x n = x ^ n.
Proof. induction n as [|n IH]; [reflexivity|]. cbn [npow pow]. rewrite IH. reflexivity. Qed.
Lemma moment_eq X p m f k lo hi dx n r : has_density X p m f -> metric_grid lo hi dx n r ->
  calculate_moment p k lo hi dx = Ok (map (fun j => rsum n (fun i => f j (gpoint lo r i) * gpoint lo r i ^ k) * r) (seq 0 m)).
Proof.
  intros Hp Hg. destruct (metric_grid_ok _ _ _ _ _ Hg) as (g & Eg & Hl & Er). unfold calculate_moment. rewrite Eg. cbn [bind].
  rewrite (on_grid_eq X p m f _ Hp) by apply Hl. cbn [bind]. f_equal. rewrite map_map. apply map_ext. intros j. unfold quick_moment.
  rewrite !(grid_line lo hi g n _ Hl), map2_map, nsum_seq, Er. cbn [nmul RNum]. f_equal. apply rsum_ext. intros i _. rewrite npow_R. reflexivity.
Qed.

(** ** calculate_rmse *)
Definition rmse (n : nat) (a b : nat -> R) : R := sqrt (rsum n (fun i => (a i - b i) * (a i - b i)) / INR n).
Lemma rmse_eq X p q m f h lo hi dx n r : fill_outside X -> has_density X p m f -> has_density X q m h -> metric_grid lo hi dx n r ->
  calculate_rmse sqrt p q lo hi dx = Ok (map (fun j => rmse n (fun i => f j (gpoint lo r i)) (fun i => h j (gpoint lo r i))) (seq 0 m)).
Proof.
  intros HX Hp Hq Hg. destruct (metric_grid_ok _ _ _ _ _ Hg) as (g & Eg & Hl & Er). unfold calculate_rmse.
  rewrite (same_shape X p q m f h HX Hp Hq). cbn [negb]. rewrite Eg. cbn [bind].
  rewrite (on_grid_eq X p m f _ Hp) by apply Hl. rewrite (on_grid_eq X q m h _ Hq) by apply Hl. cbn [bind]. f_equal. rewrite map2_map. apply map_ext. intros j.
  unfold quick_rmse, rmse. rewrite !(grid_line lo hi g n _ Hl), map2_map, nsum_seq, Er. cbn [nmul nsub ndiv nofZ RNum]. rewrite (proj1 Hl), <- INR_IZR_INZ. reflexivity.
Qed.
Lemma cauchy_schwarz n (a b : nat -> R) : rsum n (fun i => a i * b i) * rsum n (fun i => a i * b i) <= rsum n (fun i => a i * a i) * rsum n (fun i => b i * b i).
Proof.
  induction n as [|n IH]; cbn [rsum]; [lra|].
  set (C := rsum n (fun i => a i * b i)) in *. set (A := rsum n (fun i => a i * a i)) in *. set (B := rsum n (fun i => b i * b i)) in *.
  assert (HA : 0 <= A) by (apply rsum_nonneg; intros; apply Rle_0_sqr). assert (HB : 0 <= B) by (apply rsum_nonneg; intros; apply Rle_0_sqr).
  set (x := a n). set (y := b n). assert (Hs : 2 * (C * (x * y)) <= A * (y * y) + B * (x * x)).
  { assert (H0 : 0 <= A * (y * y) + B * (x * x)) by nra.
    assert (H1 : (2 * (C * (x * y))) * (2 * (C * (x * y))) <= (A * (y * y) + B * (x * x)) * (A * (y * y) + B * (x * x))).
    { assert (H2 : C * C * ((x * y) * (x * y)) <= A * B * ((x * y) * (x * y))) by (apply Rmult_le_compat_r; [apply Rle_0_sqr|exact IH]).
      pose proof (Rle_0_sqr (A * (y * y) - B * (x * x))) as H3. unfold Rsqr in H3. lra. }
    set (s := A * (y * y) + B * (x * x)) in *. set (u := 2 * (C * (x * y))) in *.
    destruct (Rle_lt_dec u s) as [|H2]; [auto|]. exfalso. assert (s * s < u * u) by (apply Rmult_le_0_lt_compat; auto). lra. }
  nra.
Qed.
Lemma minkowski n (a b : nat -> R) : sqrt (rsum n (fun i => (a i + b i) * (a i + b i))) <= sqrt (rsum n (fun i => a i * a i)) + sqrt (rsum n (fun i => b i * b i)).
Proof.
  set (A := rsum n (fun i => a i * a i)). set (B := rsum n (fun i => b i * b i)). set (C := rsum n (fun i => a i * b i)).
  assert (E : rsum n (fun i => (a i + b i) * (a i + b i)) = A + 2 * C + B).
  { unfold A, B, C. clear. induction n as [|n IH]; cbn [rsum]; [lra|]. rewrite IH. ring. }
  assert (HA : 0 <= A) by (apply rsum_nonneg; intros; apply Rle_0_sqr). assert (HB : 0 <= B) by (apply rsum_nonneg; intros; apply Rle_0_sqr).
  pose proof (cauchy_schwarz n a b) as CS. fold A B C in CS. rewrite E.
  pose proof (sqrt_pos A). pose proof (sqrt_pos B). pose proof (sqrt_sqrt A HA). pose proof (sqrt_sqrt B HB).
  apply Rsqr_incr_0_var; [|lra]. unfold Rsqr.
  assert (Hpos : 0 <= A + 2 * C + B).
  { rewrite <- E. apply rsum_nonneg. intros. apply Rle_0_sqr. }
  rewrite sqrt_sqrt by exact Hpos. assert (HC : C <= sqrt A * sqrt B).
  { destruct (Rle_lt_dec C (sqrt A * sqrt B)) as [|Hc]; [auto|exfalso].
    assert (0 <= sqrt A * sqrt B) by nra. assert ((sqrt A * sqrt B) * (sqrt A * sqrt B) = A * B) by (transitivity ((sqrt A * sqrt A) * (sqrt B * sqrt B)); [ring|congruence]). set (P := sqrt A * sqrt B) in *. assert (P * P < C * C) by (apply Rmult_le_0_lt_compat; auto). lra. }
  nra.
Qed.
Lemma rsum_sq_zero n (a : nat -> R) : rsum n (fun i => a i * a i) = 0 <-> forall i, (i < n)%nat -> a i = 0.
Proof.
  split.
  - intros H i Hi. pose proof (rsum_term n (fun i => a i * a i) i ltac:(intros; apply Rle_0_sqr) Hi) as Ht. cbn beta in Ht. rewrite H in Ht. nra.
  - intros H. induction n as [|n IH]; cbn [rsum]; [reflexivity|]. rewrite IH by (intros; apply H; lia). rewrite H by lia. ring.
Qed.
Lemma rmse_nonneg n a b : 0 <= rmse n a b.
Proof. apply sqrt_pos. Qed.
Lemma rmse_sym n a b : rmse n a b = rmse n b a.
Proof. unfold rmse. do 2 f_equal. apply rsum_ext. intros. ring. Qed.
Lemma rmse_zero n a b : (0 < n)%nat -> rmse n a b = 0 <-> forall i, (i < n)%nat -> a i = b i.
Proof.
  intros Hn. apply lt_INR in Hn. change (INR 0) with 0 in Hn. unfold rmse. assert (Hs : 0 <= rsum n (fun i => (a i - b i) * (a i - b i))) by (apply rsum_nonneg; intros; apply Rle_0_sqr).
  split.
  - intros H i Hi. apply sqrt_eq_0 in H; [|apply Rmult_le_pos; [exact Hs|left; apply Rinv_0_lt_compat; exact Hn]].
    assert (E : rsum n (fun i => (a i - b i) * (a i - b i)) = 0).
    { apply Rmult_eq_reg_r with (/ INR n); [|apply Rinv_neq_0_compat; lra]. unfold Rdiv in H. lra. }
    rewrite (rsum_sq_zero n (fun i => a i - b i)) in E. specialize (E i Hi). lra.
  - intros H. rewrite (proj2 (rsum_sq_zero n (fun i => a i - b i))); [|intros i Hi; rewrite H by exact Hi; lra]. unfold Rdiv. rewrite Rmult_0_l. apply sqrt_0.
Qed.
Lemma rmse_triangle n a b c : (0 < n)%nat -> rmse n a c <= rmse n a b + rmse n b c.
Proof.
  intros Hn. apply lt_INR in Hn. change (INR 0) with 0 in Hn. unfold rmse.
  rewrite !sqrt_div by (first [exact Hn|apply rsum_nonneg; intros; apply Rle_0_sqr]).
  pose proof (minkowski n (fun i => a i - b i) (fun i => b i - c i)) as H. cbn beta in H.
  rewrite (rsum_ext n (fun i => (a i - c i) * (a i - c i)) (fun i => (a i - b i + (b i - c i)) * (a i - b i + (b i - c i)))) by (intros; ring).
  assert (0 < sqrt (INR n)) by (apply sqrt_lt_R0; exact Hn). unfold Rdiv. rewrite <- Rmult_plus_distr_r. apply Rmult_le_compat_r; [left; apply Rinv_0_lt_compat; auto|exact H].
Qed.
