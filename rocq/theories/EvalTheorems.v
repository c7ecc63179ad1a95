(** Evaluation on grids and matrices of points: assembled facts. *)
From Coq Require Import List Arith ZArith QArith Bool Sorted Permutation Lia Reals Lra.
From Verif Require Import Num NumProofs Py NdArray NumpyLib Utils ScipyWrap HistPdf InterpPdf Spec
  SortProofs EvalProofs NdProofs InterpProofs BinProofs HistProofs HistTheorems TableProofs InterpPdfProofs
  GridTheorems IrrTheorems.
Import ListNotations.
Local Open Scope R_scope.

(** A method answers correctly on every grid that is sorted, or has a repeated
    point, or when there is one PDF. *)
Definition faithful_on_grids (e : points R -> res (list (list (xnum R)))) (npdf : nat) (F : nat -> R -> xnum R) : Prop :=
  forall xs, npdf = 1%nat \/ increasing xs \/ ~ NoDup xs -> e (PGrid xs) = table npdf F xs.
(** On any other grid it returns the values at the sorted points. *)
Definition sorts_other_grids (e : points R -> res (list (list (xnum R)))) (npdf : nat) (F : nat -> R -> xnum R) : Prop :=
  forall xs, (2 <= npdf)%nat -> NoDup xs ->
    exists ys, Permutation xs ys /\ increasing ys /\ e (PGrid xs) = table npdf F ys.

(** One line of points per PDF. *)
Definition distinct (l : list R) : nat := length (nodup Req_EM_T l).
Definition faithful_on_matrices (e : points R -> res (list (list (xnum R)))) (npdf : nat) (F : nat -> R -> xnum R) : Prop :=
  forall X w, (0 < w)%nat -> length X = npdf -> (forall l, In l X -> length l = w) ->
    npdf = 1%nat \/ w = 1%nat \/ distinct (concat X) <> w ->
    e (PMat X) = Ok (map (fun r => map (F r) (nth r X [])) (seq 0 npdf)).
Definition mixes_other_matrices (e : points R -> res (list (list (xnum R)))) (npdf : nat) (F : nat -> R -> xnum R) : Prop :=
  forall X w, (2 <= npdf)%nat -> (2 <= w)%nat -> length X = npdf -> (forall l, In l X -> length l = w) ->
    distinct (concat X) = w ->
    exists ys, increasing ys /\ (forall x, In x ys <-> In x (concat X)) /\ e (PMat X) = table npdf F ys.

Lemma np_unique_increasing (l : list R) : increasing (np_unique l).
Proof.
  unfold increasing, np_unique.
  eapply ss_weaken; [|apply unique_by_sorted; [apply Rnleb_total|apply Rnleb_trans|apply Rnleb_antisym]].
  intros a b [H1 H2]. destruct (nleb_reflect a b); [|discriminate]. lra.
Qed.
Lemma np_unique_distinct (l : list R) : length (np_unique l) = distinct l.
Proof.
  unfold distinct. apply Permutation_length. apply NoDup_Permutation.
  - apply np_unique_nodup.
  - apply NoDup_nodup.
  - intros x. rewrite np_unique_in, nodup_In. tauto.
Qed.
Lemma reordered_faithful npdf xs : npdf = 1%nat \/ increasing xs \/ ~ NoDup xs -> reordered npdf xs = xs.
Proof.
  unfold reordered. intros [->|[H|H]]; auto.
  - destruct (_ || _); auto. apply (unique_by_id (@nleb R RNum) Rnleb_total Rnleb_trans Rnleb_antisym).
    eapply ss_weaken; [|exact H]. intros a b Hab. split; [|lra]. destruct (nleb_reflect a b); auto. lra.
  - destruct (Nat.eqb_spec (length (np_unique xs)) (length xs)) as [E|E].
    + apply np_unique_length_nodup in E. contradiction.
    + rewrite orb_true_r. auto.
Qed.
Lemma reordered_other npdf xs : (2 <= npdf)%nat -> NoDup xs -> reordered npdf xs = np_unique xs.
Proof.
  intros H1 H2. unfold reordered. destruct (Nat.eqb_spec npdf 1); [lia|].
  apply np_unique_length_nodup in H2. rewrite H2, Nat.eqb_refl. reflexivity.
Qed.

Section Generic.
  Variables (g : R -> nat -> R) (npdf : nat) (m : nd R -> nd nat -> res (list R)).
  Hypothesis Hd : dispatches g npdf m.
  Hypothesis Hn : (0 < npdf)%nat.
  Variables (cond : R -> bool) (other : R -> xnum R).
  Definition total (r : nat) (x : R) : xnum R := if cond x then Fin (g x r) else other x.

  Lemma place_total r xs : place cond other xs (map (fun x => g x r) (filter cond xs)) = map (total r) xs.
  Proof.
    induction xs as [|x xs IH]; auto. simpl. unfold total at 1. destruct (cond x) eqn:E; simpl; f_equal; auto.
  Qed.
  Lemma gen_grid xs : npdf = 1%nat \/ increasing xs \/ ~ NoDup (filter cond xs) ->
    rv_eval npdf cond other m (PGrid xs) = table npdf total xs.
  Proof.
    intros H. rewrite (rv_eval_grid g) by auto. unfold table. f_equal. apply map_ext. intros r.
    rewrite reordered_faithful; [apply place_total|].
    destruct H as [H|[H|H]]; auto. right. left. clear -H. unfold increasing in *.
    induction H as [|a l Hs IH Hf]; simpl; [constructor|].
    destruct (cond a); auto. constructor; auto. rewrite List.Forall_forall in *. intros x Hx. apply filter_In in Hx. apply Hf, Hx.
  Qed.
  Lemma filter_all xs : (forall x, In x xs -> cond x = true) -> filter cond xs = xs.
  Proof. induction xs; simpl; intros; auto. rewrite H by auto. f_equal; auto. Qed.
  Lemma gen_grid_other xs : (forall x, In x xs -> cond x = true) -> (2 <= npdf)%nat -> NoDup xs ->
    exists ys, Permutation xs ys /\ increasing ys /\ rv_eval npdf cond other m (PGrid xs) = table npdf total ys.
  Proof.
    intros Hc H2 Hx. exists (np_unique xs). split; [|split].
    - rewrite np_unique_sort by auto. apply np_sort_perm.
    - apply np_unique_increasing.
    - rewrite (rv_eval_grid g) by auto. unfold table. f_equal. apply map_ext. intros r.
      rewrite filter_all, reordered_other by auto. 
      rewrite place_all by (auto; rewrite map_length; apply np_unique_length_nodup; auto).
      rewrite map_map. apply map_ext_in. intros x Hx'. rewrite np_unique_in in Hx'. unfold total. rewrite Hc; auto.
  Qed.
  Lemma pointwise_nth X : length X = npdf ->
    pointwise g X (seq 0 npdf) = map (fun r => map (fun x => g x r) (nth r X [])) (seq 0 npdf).
  Proof using.
    unfold pointwise. intros HX. rewrite <- HX. clear.
    assert (G : forall s, map2 (fun l r => map (fun x => g x r) l) X (seq s (length X)) =
      map (fun r => map (fun x => g x r) (nth (r - s) X [])) (seq s (length X))).
    { induction X as [|l X IH]; intros s; auto. cbn [length seq map2 map]. rewrite Nat.sub_diag. f_equal.
      rewrite IH. apply map_ext_in. intros r Hr. apply in_seq in Hr. replace (r - s)%nat with (S (r - S s)) by lia. auto. }
    rewrite G. apply map_ext. intros. rewrite Nat.sub_0_r. auto.
  Qed.
  Lemma gen_mat X w : (0 < w)%nat -> length X = npdf -> (forall l, In l X -> length l = w) ->
    (forall x, In x (concat X) -> cond x = true) ->
    npdf = 1%nat \/ w = 1%nat \/ distinct (concat X) <> w ->
    rv_eval npdf cond other m (PMat X) = Ok (map (fun r => map (total r) (nth r X [])) (seq 0 npdf)).
  Proof.
    intros Hw HX Hl Hc Hor. rewrite (rv_eval_mat g npdf cond other m X w) by auto.
    assert (M : mat_ok X w = true).
    { unfold mat_ok. rewrite np_unique_distinct, HX.
      destruct (Nat.eqb_spec npdf 1); auto. destruct (Nat.eqb_spec w 1); auto.
      destruct (Nat.eqb_spec (distinct (concat X)) w); auto. intuition lia. }
    rewrite M, pointwise_nth by auto. f_equal. rewrite map_map. apply map_ext_in. intros r Hr. rewrite map_map.
    apply map_ext_in. intros x Hx. unfold total. rewrite Hc; auto. apply in_concat.
    exists (nth r X []). split; auto. apply nth_In. apply in_seq in Hr. lia.
  Qed.
  Lemma gen_mat_other X w : (2 <= npdf)%nat -> (2 <= w)%nat -> length X = npdf -> (forall l, In l X -> length l = w) ->
    (forall x, In x (concat X) -> cond x = true) -> distinct (concat X) = w ->
    exists ys, increasing ys /\ (forall x, In x ys <-> In x (concat X)) /\
      rv_eval npdf cond other m (PMat X) = table npdf total ys.
  Proof.
    intros H2 Hw HX Hl Hc Hdist. exists (np_unique (concat X)). split; [apply np_unique_increasing|].
    split; [intros; apply np_unique_in|].
    rewrite (rv_eval_mat g npdf cond other m X w) by (auto; lia).
    assert (M : mat_ok X w = false).
    { unfold mat_ok. rewrite np_unique_distinct, HX, Hdist, Nat.eqb_refl.
      destruct (Nat.eqb_spec npdf 1); [lia|]. destruct (Nat.eqb_spec w 1); [lia|]. auto. }
    rewrite M. unfold table. f_equal. rewrite map_map. apply map_ext. intros r. rewrite map_map. apply map_ext_in.
    intros x Hx. rewrite np_unique_in in Hx. unfold total. rewrite Hc; auto.
  Qed.
End Generic.

(** pdf and cdf *)
Lemma gen_pdf g npdf m F e : dispatches g npdf m -> (0 < npdf)%nat ->
  (forall x, e x = rv_pdf npdf m x) -> (forall r x, (r < npdf)%nat -> g x r = F r x) ->
  faithful_on_grids e npdf (fin F) /\ sorts_other_grids e npdf (fin F) /\
  faithful_on_matrices e npdf (fin F) /\ mixes_other_matrices e npdf (fin F).
Proof.
  intros Hd Hn He Hg.
  assert (T : forall xs, table npdf (total g (fun _ => true) (fun _ => NaN)) xs = table npdf (fin F) xs).
  { intros xs. unfold table. f_equal. apply map_seq_ext. intros r Hr. apply map_ext. intros x.
    unfold total, fin. rewrite Hg; auto. }
  split; [|split; [|split]].
  - intros xs H. rewrite He. unfold rv_pdf. rewrite (gen_grid g) by (auto; rewrite filter_all by auto; auto). apply T.
  - intros xs H2 Hx. destruct (gen_grid_other g npdf m Hd Hn (fun _ => true) (fun _ => NaN) xs) as (ys & P & I & E); auto.
    exists ys. split; auto. split; auto. rewrite He. unfold rv_pdf. rewrite E. apply T.
  - intros X w Hw HX Hl Hor. rewrite He. unfold rv_pdf. rewrite (gen_mat g npdf m Hd Hn _ _ X w) by auto. f_equal.
    apply map_seq_ext. intros r Hr. apply map_ext. intros x. unfold total, fin. rewrite Hg; auto.
  - intros X w H2 Hw HX Hl Hdist.
    destruct (gen_mat_other g npdf m Hd Hn (fun _ => true) (fun _ => NaN) X w) as (ys & I & M & E); auto.
    exists ys. split; auto. split; auto. rewrite He. unfold rv_pdf. rewrite E. apply T.
Qed.

(** ppf: probabilities outside (0,1) are answered without calling the class *)
Definition inside01 (l : list R) : list R := filter (fun p => if Rlt_dec 0 p then if Rlt_dec p 1 then true else false else false) l.
Definition ppf_on_grids (e : points R -> res (list (list (xnum R)))) (npdf : nat) (Q : nat -> R -> R) : Prop :=
  forall ps, npdf = 1%nat \/ increasing ps \/ ~ NoDup (inside01 ps) -> e (PGrid ps) = table npdf (with_ends Q) ps.

Lemma gen_ppf g npdf m Q e : dispatches g npdf m -> (0 < npdf)%nat ->
  (forall x, e x = rv_ppf npdf m x) -> (forall r x, (r < npdf)%nat -> g x r = Q r x) ->
  ppf_on_grids e npdf Q /\ forall p, e (PScalar p) = Ok (map (fun r => [with_ends Q r p]) (seq 0 npdf)).
Proof.
  intros Hd Hn He Hg.
  assert (G : ppf_on_grids e npdf Q).
  { intros ps Hp. rewrite He. unfold rv_ppf. rewrite (gen_grid g); auto.
    - unfold table. f_equal. apply map_seq_ext. intros r Hr. apply map_ext. intros p. unfold total, with_ends.
      destruct (nltb_reflect n0 p) as [L|L], (Rlt_dec 0 p) as [L'|L']; try (exfalso; revert L L'; numR; lra).
      + destruct (nltb_reflect p n1) as [L2|L2], (Rlt_dec p 1) as [L2'|L2']; try (exfalso; revert L2 L2'; numR; lra); cbn [andb].
        * rewrite Hg; auto.
        * destruct (neqb_reflect p n0) as [L3|L3]; [exfalso; revert L3; numR; lra|].
          destruct (neqb_reflect p n1) as [L4|L4], (Req_EM_T p 1) as [L4'|L4']; auto; exfalso; revert L4 L4'; numR; lra.
      + cbn [andb]. destruct (neqb_reflect p n0) as [L3|L3], (Req_EM_T p 0) as [L3'|L3']; auto; try (exfalso; revert L3 L3'; numR; lra).
        destruct (neqb_reflect p n1) as [L4|L4]; auto. exfalso. revert L4 L'. numR. lra.
    - destruct Hp as [Hp|[Hp|Hp]]; auto. right. right. intros Hnd. apply Hp. unfold inside01.
      erewrite filter_ext; [exact Hnd|]. intros p. cbn beta.
      destruct (nltb_reflect n0 p) as [L|L], (Rlt_dec 0 p) as [L'|L']; try (exfalso; revert L L'; numR; lra); auto.
      destruct (nltb_reflect p n1) as [L2|L2], (Rlt_dec p 1) as [L2'|L2']; try (exfalso; revert L2 L2'; numR; lra); auto. }
  split; auto. intros p.
  assert (E : e (PScalar p) = e (PGrid [p])) by (rewrite !He; reflexivity).
  rewrite E. rewrite G; [reflexivity|]. right. left. repeat constructor.
Qed.

(** ** Classes *)
Lemma hist_eval bins rows h : hist_input bins rows -> hist_ctor bins (nd2 (pred (length bins)) rows) true = Ok h ->
  exists f F Q,
    (evaluates (hist_ens_pdf h) (length rows) f /\ evaluates (hist_ens_cdf h) (length rows) F /\
     evaluates_on 0 1 (hist_ens_ppf h) (length rows) Q) /\
    (faithful_on_grids (hist_ens_pdf h) (length rows) (fin f) /\ sorts_other_grids (hist_ens_pdf h) (length rows) (fin f) /\
     faithful_on_matrices (hist_ens_pdf h) (length rows) (fin f) /\ mixes_other_matrices (hist_ens_pdf h) (length rows) (fin f)) /\
    (faithful_on_grids (hist_ens_cdf h) (length rows) (fin F) /\ sorts_other_grids (hist_ens_cdf h) (length rows) (fin F) /\
     faithful_on_matrices (hist_ens_cdf h) (length rows) (fin F) /\ mixes_other_matrices (hist_ens_cdf h) (length rows) (fin F)) /\
    (ppf_on_grids (hist_ens_ppf h) (length rows) Q /\
     forall p, hist_ens_ppf h (PScalar p) = Ok (map (fun r => [with_ends Q r p]) (seq 0 (length rows)))).
Proof.
  intros Hi E. destruct (input_ok _ _ _ Hi E) as [Hok Eh].
  assert (Hk : h_npdf h = length rows) by (rewrite Eh; apply npdf_built).
  exists (hf h), (hF h), (hQ h). rewrite <- Hk. assert (Hp := ho_npdf h Hok).
  split; [split; [apply hist_pdf_eval; auto|split; [apply hist_cdf_eval; auto|apply hist_ppf_eval; auto]]|].
  split; [|split].
  - apply (gen_pdf _ _ _ _ _ (hist_pdf_dispatches h)); auto. 
  - apply (gen_pdf _ _ _ _ _ (hist_cdf_dispatches h (ho_inc h Hok) (ho_len h Hok))); auto.
    intros r x Hr. rewrite h_cdfs_nth by auto. reflexivity.
  - apply (gen_ppf _ _ _ _ _ (hist_ppf_dispatches h)); auto. intros r x Hr. rewrite h_cdfs_nth by auto. reflexivity.
Qed.
Lemma interp_eval xs rows i : interp_input xs rows -> interp_ctor xs (nd2 (length xs) rows) true = Ok i ->
  exists f F Q,
    (evaluates (interp_ens_pdf i) (length rows) f /\ evaluates (interp_ens_cdf i) (length rows) F /\
     evaluates_on 0 1 (interp_ens_ppf i) (length rows) Q) /\
    (faithful_on_grids (interp_ens_pdf i) (length rows) (fin f) /\ sorts_other_grids (interp_ens_pdf i) (length rows) (fin f) /\
     faithful_on_matrices (interp_ens_pdf i) (length rows) (fin f) /\ mixes_other_matrices (interp_ens_pdf i) (length rows) (fin f)) /\
    (faithful_on_grids (interp_ens_cdf i) (length rows) (fin F) /\ sorts_other_grids (interp_ens_cdf i) (length rows) (fin F) /\
     faithful_on_matrices (interp_ens_cdf i) (length rows) (fin F) /\ mixes_other_matrices (interp_ens_cdf i) (length rows) (fin F)) /\
    (ppf_on_grids (interp_ens_ppf i) (length rows) Q /\
     forall p, interp_ens_ppf i (PScalar p) = Ok (map (fun r => [with_ends Q r p]) (seq 0 (length rows)))).
Proof.
  intros Hi E. pose proof (i_eq xs rows i Hi E) as Ei. pose proof (i_np xs rows i Hi E) as Hk.
  pose proof (i_rows xs rows Hi) as Hp. pose proof Hi as (Hs & Hn & _).
  exists (if_ xs rows), (iF xs rows), (iQ xs rows). split; [apply interp_evals; auto|]. rewrite <- Hk in *.
  assert (Hx : i_xvals i = xs) by (rewrite Ei; auto).
  assert (Hy : forall r, (r < i_npdf i)%nat -> nth r (i_yvals i) [] = inorm xs (irow rows r) /\ nth r (i_cumul i) [] = icum xs (irow rows r)).
  { intros r Hr. rewrite Hk in Hr. rewrite Ei. cbn [i_yvals i_cumul]. rewrite !nth_map_in with (d' := []) by auto. auto. }
  split; [|split].
  - apply (gen_pdf _ _ _ _ _ (interp_pdf_dispatches i ltac:(rewrite Hx; auto) ltac:(rewrite Hx; auto))); auto.
    intros r x Hr. rewrite Hx. destruct (Hy r Hr) as [-> _]. reflexivity.
  - apply (gen_pdf _ _ _ _ _ (interp_cdf_dispatches i ltac:(rewrite Hx; auto) ltac:(rewrite Hx; auto)
       ltac:(rewrite Ei; unfold i_npdf; cbn [i_yvals i_cumul]; rewrite !map_length; auto))); auto.
    intros r x Hr. rewrite Hx. destruct (Hy r Hr) as [_ ->]. reflexivity.
  - apply (gen_ppf _ _ _ _ _ (interp_ppf_dispatches i)); auto. intros r x Hr. rewrite Hx. destruct (Hy r Hr) as [_ ->]. reflexivity.
Qed.
Lemma irr_eval n xr yr o : irr_input n xr yr -> irr_ctor (nd2 n xr) (nd2 n yr) true = Ok o ->
  exists f F Q,
    (evaluates (irr_ens_pdf o) (length xr) f /\ evaluates (irr_ens_cdf o) (length xr) F /\
     evaluates_on 0 1 (irr_ens_ppf o) (length xr) Q) /\
    (faithful_on_grids (irr_ens_pdf o) (length xr) (fin f) /\ sorts_other_grids (irr_ens_pdf o) (length xr) (fin f) /\
     faithful_on_matrices (irr_ens_pdf o) (length xr) (fin f) /\ mixes_other_matrices (irr_ens_pdf o) (length xr) (fin f)) /\
    (faithful_on_grids (irr_ens_cdf o) (length xr) (fin F) /\ sorts_other_grids (irr_ens_cdf o) (length xr) (fin F) /\
     faithful_on_matrices (irr_ens_cdf o) (length xr) (fin F) /\ mixes_other_matrices (irr_ens_cdf o) (length xr) (fin F)) /\
    (ppf_on_grids (irr_ens_ppf o) (length xr) Q /\
     forall p, irr_ens_ppf o (PScalar p) = Ok (map (fun r => [with_ends Q r p]) (seq 0 (length xr)))).
Proof.
  intros Hi E. pose proof (r_np n xr yr o Hi E) as Hk. pose proof (r_rows n xr yr Hi) as Hp.
  exists (rf xr yr), (rF xr yr), (rQ xr yr (r_xmin o) (r_xmax o)). split; [apply irr_evals with n; auto|]. 
  assert (Hrow := fun r => r_yrow n xr yr o r Hi E).
  rewrite <- Hk in *. split; [|split].
  - apply (gen_pdf _ _ _ _ _ (irr_pdf_dispatches o (r_npdf o))); auto.
    intros r x Hr. destruct (Hrow r Hr) as (-> & -> & _). reflexivity.
  - apply (gen_pdf _ _ _ _ _ (irr_cdf_dispatches o (r_npdf o))); auto.
    intros r x Hr. destruct (Hrow r Hr) as (-> & _ & ->). reflexivity.
  - apply (gen_ppf _ _ _ _ _ (irr_ppf_dispatches o (r_npdf o))); auto.
    intros r x Hr. destruct (Hrow r Hr) as (-> & _ & ->). reflexivity.
Qed.

(** ** Refutations *)
Lemma c05_refuted :
  exists (h : hist Q),
    hist_ctor [0; 1; 2]%Q (nd2 2 [[1; 3]; [3; 1]]%Q) true = Ok h /\
    hist_ens_pdf h (PGrid [3 # 2; 1 # 2]%Q) = Ok [[Fin (1 # 4); Fin (3 # 4)]; [Fin (3 # 4); Fin (1 # 4)]]%Q /\
    hist_ens_pdf h (PScalar (3 # 2)%Q) = Ok [[Fin (3 # 4)]; [Fin (1 # 4)]]%Q.
Proof. exists (mkhist [0; 1; 2] [[1 # 4; 3 # 4]; [3 # 4; 1 # 4]] [2%nat])%Q. vm_compute. auto. Qed.
Lemma c06_refuted :
  exists (h : hist Q),
    hist_ctor [0; 1; 2]%Q (nd2 2 [[1; 3]; [3; 1]]%Q) true = Ok h /\
    hist_ens_pdf h (PMat [[1 # 2; 3 # 2]; [3 # 2; 1 # 2]]%Q)
      = Ok [[Fin (1 # 4); Fin (3 # 4)]; [Fin (3 # 4); Fin (1 # 4)]]%Q /\
    hist_ens_pdf h (PScalar (3 # 2)%Q) = Ok [[Fin (3 # 4)]; [Fin (1 # 4)]]%Q.
Proof. exists (mkhist [0; 1; 2] [[1 # 4; 3 # 4]; [3 # 4; 1 # 4]] [2%nat])%Q. vm_compute. auto. Qed.

(** ** Bin lookup *)
Lemma c07 : forall bins x, increasing bins -> (2 <= length bins)%nat ->
  let '(i, mask) := get_bin_indices bins x in
  (i < pred (length bins))%nat /\
  (sound_bins bins ->
     (mask = true -> nth0 i bins <= x <= nth0 (S i) bins) /\
     (nth0 0 bins < x < nlast bins -> mask = true) /\
     (x < nth0 0 bins \/ nlast bins < x -> mask = false)).
Proof.
  intros bins x Hs Hn. pose proof (lookup_index_range bins x Hn) as Hr.
  destruct (get_bin_indices bins x) as [i m] eqn:E. cbn [fst] in Hr. split; [auto|]. intros Hb. split; [|split].
  - intros ->. eapply lookup_contains; eauto.
  - intros Hx.
    destruct Hb as [Hb|Hb].
    + destruct (segment_exists bins x) as (j & Hj & Hxj); [apply inc_nd; auto| |split; lra|].
      * intros ->. simpl in Hn. lia.
      * rewrite (lookup_uniform bins x j) in E by auto. congruence.
    + destruct (segment_exists_closed bins x) as (j & Hj & Hxj); [apply inc_nd; auto|auto|split; lra|].
      destruct (Rle_lt_dec x (nth0 j bins)) as [L|L].
      * assert (Ex : x = nth0 j bins) by lra. destruct j; [lra|].
        rewrite (lookup_irregular bins x j) in E; auto; [congruence|lia|].
        assert (nth0 j bins < nth0 (S j) bins) by (apply inc_lt; auto; lia). split; lra.
      * rewrite (lookup_irregular bins x j) in E by (auto; split; lra). congruence.
  - intros Hx. pose proof (lookup_out bins x Hs Hb Hn Hx). rewrite E in H. auto.
Qed.
Lemma c62 : forall bins x, increasing bins -> (2 <= length bins)%nat -> sound_bins bins ->
  let '(i, mask) := get_bin_indices bins x in
  (i < pred (length bins))%nat /\
  (mask = true -> nth0 i bins <= x <= nth0 (S i) bins) /\
  (nth0 0 bins < x < nlast bins -> mask = true) /\
  (x < nth0 0 bins \/ nlast bins < x -> mask = false).
Proof.
  intros bins x Hs Hn Hb. pose proof (c07 bins x Hs Hn). destruct (get_bin_indices bins x) as [i m]. intuition.
Qed.
Lemma c07_refuted_tiny :
  let bins := [0; 1 # 1000000000; 1 # 100000000]%Q in
  exists x, (nth 1 bins 0 < x)%Q /\ (x < nth 2 bins 0)%Q /\ snd (get_bin_indices bins x) = false.
Proof. exists (5 # 1000000000)%Q. vm_compute. repeat split; reflexivity. Qed.
Lemma c07_refuted_near :
  let bins := [0; 1; 200001 # 100000; 300001 # 100000]%Q in
  exists x, (nth 1 bins 0 < x)%Q /\ (x < nth 2 bins 0)%Q /\ get_bin_indices bins x = (2%nat, true).
Proof. exists (2000005 # 1000000)%Q. vm_compute. repeat split; reflexivity. Qed.
