(** Irregular-grid ensembles: assembled facts. *)
From Coq Require Import List Arith ZArith QArith Bool Sorted Lia Reals Lra Psatz.
From Coquelicot Require Import Coquelicot.
From Verif Require Import Num NumProofs PairwiseProofs Py NdArray NumpyLib Utils ScipyWrap Spec InterpPdf
  SortProofs EvalProofs NdProofs InterpProofs IntegralProofs BinProofs HistProofs HistTheorems TableProofs InterpPdfProofs.
Import ListNotations.
Local Open Scope R_scope.

(** Legal input: one grid and one row of values per PDF, all of length [n] >= 2. *)
Definition irr_input (n : nat) (xr yr : list (list R)) : Prop :=
  (2 <= n)%nat /\ xr <> [] /\ length yr = length xr /\
  (forall xs, In xs xr -> length xs = n /\ increasing xs) /\
  (forall ys, In ys yr -> length ys = n /\ forall i, (i < n)%nat -> 0 <= nth0 i ys) /\
  forall r, (r < length xr)%nat ->
    0 < rsum (pred n) (fun i => (at2 xr r (S i) - at2 xr r i) * at2 yr r (S i)).

Lemma irr_init_build n xr yr chk : length yr = length xr ->
  (forall xs, In xs xr -> length xs = n) -> (forall ys, In ys yr -> length ys = n) ->
  irr_init (nd2 n xr) (nd2 n yr) chk =
  Ok (mkirr xr (if chk then map2 normalize_interp1d_row xr yr else yr) [length xr] : irregular R).
Proof.
  intros Hl Hx Hy. unfold irr_init. unfold nd2 at 1 2. cbn [shp].
  destruct (list_eq_dec Nat.eq_dec [length xr; n] [length yr; n]); [|congruence].
  rewrite !reshape_nd2 by auto. cbn [bind]. rewrite !rows_of_nd2 by auto. reflexivity.
Qed.
(** Normalising a second time changes nothing. *)
Lemma rect_terms_scaled s xs (ys : list R) :
  right_rect_terms xs (map (fun y => y / s) ys) = map (fun y => y / s) (right_rect_terms xs ys).
Proof.
  unfold right_rect_terms. rewrite tl_map.
  assert (F : forall l l' : list R, map2 nmul l (map (fun y => y / s) l') = map (fun y => y / s) (map2 nmul l l')).
  { induction l; intros [|b l']; simpl; auto. f_equal; auto. unfold Rdiv. ring. }
  assert (E : forall l l' : list R, map2 nsub (map (fun y => y / s) l) (map (fun y => y / s) l') = map (fun y => y / s) (map2 nsub l l')).
  { induction l; intros [|b l']; simpl; auto. f_equal; auto. unfold Rdiv. ring. }
  rewrite !F, E. reflexivity.
Qed.
Lemma nsum_div s (l : list R) : nsum (map (fun y => y / s) l) = nsum l * / s.
Proof. induction l; [simpl; lra|]. cbn [map]. rewrite !nsum_cons, IHl. simpl. unfold Rdiv. ring. Qed.
Lemma irr_norm_twice xs (ys : list R) :
  normalize_interp1d_row xs (normalize_interp1d_row xs ys) = normalize_interp1d_row xs ys.
Proof.
  rewrite !normalize_row_R.
  change (ndiv (T := R)) with Rdiv. rewrite rect_terms_scaled, nsum_div. apply scaled_twice.
Qed.
(** The frozen object is normalised whatever [check_input] was. *)
Lemma irr_build n xr yr chk : (2 <= n)%nat -> length yr = length xr ->
  (forall xs, In xs xr -> length xs = n) -> (forall ys, In ys yr -> length ys = n) ->
  irr_ctor (nd2 n xr) (nd2 n yr) chk =
  Ok (mkirr xr (map2 normalize_interp1d_row xr yr) [length xr] : irregular R).
Proof.
  intros Hn Hl Hx Hy. unfold irr_ctor. rewrite irr_init_build by auto. cbn [bind]. unfold irr_freeze. cbn [r_xvals r_yvals r_shape].
  change (last (shp (nd2 n xr)) 0%nat) with n.
  rewrite irr_init_build; auto.
  - cbn [bind r_xvals r_yvals]. destruct chk; [|reflexivity]. do 2 f_equal.
    clear. revert yr. induction xr as [|x xr IH]; intros [|y yr]; auto. cbn [map2]. rewrite irr_norm_twice. f_equal. apply IH.
  - destruct chk; auto. rewrite map2_len. lia.
  - destruct chk; auto. intros ys H. revert H. clear - Hy. revert yr Hy.
    induction xr as [|x xr IH]; intros [|y yr] Hy H; try (destruct H; fail).
    cbn [map2] in H. destruct H as [<-|H]; [unfold normalize_interp1d_row; rewrite map_length; apply Hy; left; auto|].
    apply (IH yr); auto. intros; apply Hy; right; auto.
Qed.

Section Row.
  Variables (xs ys : list R).
  Hypothesis Hs : increasing xs.
  Hypothesis Hn : (2 <= length xs)%nat.
  Hypothesis Hl : length ys = length xs.
  Definition rect (i : nat) : R := (nth0 (S i) xs - nth0 i xs) * nth0 (S i) ys.
  Definition rsumr : R := rsum (pred (length xs)) rect.
  Lemma rect_length : length (right_rect_terms xs ys) = pred (length xs).
  Proof. unfold right_rect_terms. rewrite !map2_len, !tl_length, removelast_length. lia. Qed.
  Lemma rect_nth i : (S i < length xs)%nat -> nth0 i (right_rect_terms xs ys) = rect i.
  Proof.
    intros Hi. unfold right_rect_terms.
    rewrite nth0_map2 by (rewrite ?map2_len, ?tl_length, ?removelast_length; lia).
    rewrite !nth0_map2 by (rewrite ?tl_length, ?removelast_length; lia).
    assert (E1 : nth0 i (tl ys) = nth0 (S i) ys) by apply tl_nth.
    assert (E2 : nth0 i (tl xs) = nth0 (S i) xs) by apply tl_nth.
    assert (E3 : nth0 i (removelast xs) = nth0 i xs) by (apply removelast_nth; lia).
    rewrite E1, E2, E3. numR. unfold rect. lra.
  Qed.
  Lemma rect_sum j : (j <= pred (length xs))%nat -> nsum (firstn j (right_rect_terms xs ys)) = rsum j rect.
  Proof.
    intros Hj. rewrite nsum_rsum, firstn_length, rect_length, Nat.min_l by auto. apply rsum_ext.
    intros i Hi. rewrite <- rect_nth by lia. unfold nth0.
    rewrite <- (firstn_skipn j (right_rect_terms xs ys)) at 2. rewrite app_nth1; auto.
    rewrite firstn_length, rect_length. lia.
  Qed.
  Lemma rect_total : nsum (right_rect_terms xs ys) = rsumr.
  Proof. rewrite <- (firstn_all (right_rect_terms xs ys)), rect_length. apply rect_sum. lia. Qed.
  Let c := irr_cumul_row xs ys.
  Lemma ic_length : length c = length xs.
  Proof. unfold c, irr_cumul_row, ncumsum. cbn [length]. rewrite cumsum_length, rect_length. lia. Qed.
  Lemma ic_nth j : (j < length xs)%nat -> nth0 j c = rsum j rect.
  Proof.
    intros. unfold c, irr_cumul_row, ncumsum. rewrite cum_nth by (rewrite rect_length; lia).
    rewrite rect_sum by lia. numR. lra.
  Qed.
  Lemma ic_last : nlast c = rsumr.
  Proof. rewrite nlast_nth0, ic_length. apply ic_nth. lia. Qed.
  Lemma ic_nondec : (forall i, (i < length xs)%nat -> 0 <= nth0 i ys) -> nondecreasing c.
  Proof.
    intros Hp. apply step_nondecreasing. intros j Hj. rewrite ic_length in Hj. rewrite !ic_nth by lia. cbn [rsum].
    assert (nth0 j xs < nth0 (S j) xs) by (apply inc_lt; auto; lia).
    assert (0 <= rect j) by (apply Rmult_le_pos; [lra|apply Hp; lia]). lra.
  Qed.
End Row.

Section Built.
  Variables (n : nat) (xr yr : list (list R)) (o : irregular R).
  Hypothesis Hi : irr_input n xr yr.
  Hypothesis E : irr_ctor (nd2 n xr) (nd2 n yr) true = Ok o.
  Lemma r_eq : o = mkirr xr (map2 normalize_interp1d_row xr yr) [length xr].
  Proof.
    pose proof Hi as (Hn & _ & Hl & Hx & Hy & _).
    rewrite (irr_build n xr yr true Hn Hl (fun xs H => proj1 (Hx xs H)) (fun ys H => proj1 (Hy ys H))) in E.
    injection E as <-. auto.
  Qed.
  Lemma r_rows : (0 < length xr)%nat.
  Proof. pose proof (proj1 (proj2 Hi)) as Hne. destruct (length xr) eqn:L; [apply length_zero_iff_nil in L; congruence|lia]. Qed.
  Lemma r_np : r_npdf o = length xr.
  Proof. rewrite r_eq. unfold r_npdf. cbn [r_yvals]. rewrite map2_len. pose proof Hi as (_ & _ & Hl & _). lia. Qed.
  Variable r : nat.
  Hypothesis Hr : (r < length xr)%nat.
  Definition rx : list R := nth r xr [].
  Definition ry0 : list R := nth r yr [].
  Definition ry : list R := normalize_interp1d_row rx ry0.
  Lemma rx_facts : length rx = n /\ increasing rx.
  Proof. pose proof Hi as (_ & _ & _ & Hx & _). apply Hx. apply nth_In; auto. Qed.
  Lemma ry0_facts : length ry0 = n /\ forall i, (i < n)%nat -> 0 <= nth0 i ry0.
  Proof. pose proof Hi as (_ & _ & Hl & _ & Hy & _). apply Hy. apply nth_In. rewrite Hl. auto. Qed.
  Lemma r_n : (2 <= length rx)%nat.
  Proof. destruct rx_facts as [-> _]. apply Hi. Qed.
  Lemma r_total : 0 < rsumr rx ry0.
  Proof. unfold rsumr. destruct rx_facts as [-> _]. apply Hi; auto. Qed.
  Lemma ry_nth k : nth0 k ry = nth0 k ry0 / rsumr rx ry0.
  Proof. unfold ry. rewrite normalize_row_R, nth0_map_div, rect_total; auto.
    - apply r_n. - destruct rx_facts, ry0_facts. congruence. Qed.
  Lemma ry_len : length ry = length rx.
  Proof. unfold ry, normalize_interp1d_row. rewrite map_length. destruct rx_facts, ry0_facts. congruence. Qed.
  Lemma ry_pos k : (k < length rx)%nat -> 0 <= nth0 k ry.
  Proof.
    intros. rewrite ry_nth. destruct ry0_facts as [_ P]. destruct rx_facts as [L _].
    apply Rmult_le_pos; [apply P; lia|]. apply Rlt_le, Rinv_0_lt_compat, r_total.
  Qed.
  Lemma rect_norm j : rsum j (rect rx ry) = rsum j (rect rx ry0) / rsumr rx ry0.
  Proof.
    unfold Rdiv. rewrite <- rsum_scale. apply rsum_ext. intros. unfold rect. rewrite ry_nth. unfold Rdiv. ring.
  Qed.
  Lemma r_one : rsumr rx ry = 1.
  Proof. unfold rsumr at 1. rewrite rect_norm. fold (rsumr rx ry0). pose proof r_total. field. lra. Qed.
  Definition rc : list R := irr_cumul_row rx ry.
  Lemma rc_len : length rc = length rx.
  Proof. apply ic_length; [apply r_n|apply ry_len]. Qed.
  Lemma rc_nondec : nondecreasing rc.
  Proof. apply ic_nondec; [apply rx_facts|apply r_n|apply ry_len|apply ry_pos]. Qed.
  Lemma rc_0 : nth0 0 rc = 0.
  Proof. reflexivity. Qed.
  Lemma rc_last : nlast rc = 1.
  Proof. unfold rc. rewrite ic_last by (apply r_n || apply ry_len). apply r_one. Qed.
  Lemma trap_ratio j : rsum j (trap rx ry) = rsum j (trap rx ry0) / rsumr rx ry0.
  Proof.
    unfold Rdiv. rewrite <- rsum_scale. apply rsum_ext. intros. unfold trap. rewrite !ry_nth. unfold Rdiv. ring.
  Qed.
End Built.
Definition rF xr yr r (x : R) : R := tF (rx xr r) (rc xr yr r) x.
Definition rQ xr yr lo hi r (p : R) : R := tQ (rx xr r) (rc xr yr r) lo hi p.
Definition rf xr yr r (x : R) : R := pl (rx xr r) (ry xr yr r) x.

Lemma r_yrow n xr yr o r : irr_input n xr yr -> irr_ctor (nd2 n xr) (nd2 n yr) true = Ok o -> (r < length xr)%nat ->
  nth r (r_xvals o) [] = rx xr r /\ nth r (r_yvals o) [] = ry xr yr r /\ nth r (r_cumul o) [] = rc xr yr r.
Proof.
  intros Hi E Hr. rewrite (r_eq n xr yr o Hi E). unfold r_cumul. cbn [r_xvals r_yvals].
  pose proof Hi as (_ & _ & Hl & _).
  assert (E1 : nth r (map2 normalize_interp1d_row xr yr) [] = ry xr yr r).
  { rewrite (map2_nth normalize_interp1d_row xr yr r [] []) by lia. reflexivity. }
  split; auto. split; auto.
  rewrite (map2_nth irr_cumul_row xr _ r [] []) by (rewrite ?map2_len; lia). rewrite E1. reflexivity.
Qed.

Lemma irr_pdf_dispatches o npdf :
  dispatches (fun x r => interp1d (nth r (r_xvals o) []) (nth r (r_yvals o) []) 0 0 x) npdf (irr_pdf o).
Proof. exact (multi_x_multi_y_dispatches (fun xs ys => interp1d xs ys n0 n0) (r_xvals o) (r_yvals o) npdf). Qed.
Lemma irr_cdf_dispatches o npdf :
  dispatches (fun x r => interp1d (nth r (r_xvals o) []) (nth r (r_cumul o) []) 0 1 x) npdf (irr_cdf o).
Proof. exact (multi_x_multi_y_dispatches (fun xs ys => interp1d xs ys n0 n1) (r_xvals o) (r_cumul o) npdf). Qed.
Lemma irr_ppf_dispatches o npdf :
  dispatches (fun x r => interp1d (nth r (r_cumul o) []) (nth r (r_xvals o) []) (r_xmin o) (r_xmax o) x) npdf (irr_ppf o).
Proof. exact (multi_x_multi_y_dispatches (fun xs ys => interp1d xs ys (r_xmin o) (r_xmax o)) (r_cumul o) (r_xvals o) npdf). Qed.

Lemma irr_evals n xr yr o : irr_input n xr yr -> irr_ctor (nd2 n xr) (nd2 n yr) true = Ok o ->
  evaluates (irr_ens_pdf o) (length xr) (rf xr yr) /\
  evaluates (irr_ens_cdf o) (length xr) (rF xr yr) /\
  evaluates_on 0 1 (irr_ens_ppf o) (length xr) (rQ xr yr (r_xmin o) (r_xmax o)).
Proof.
  intros Hi E. pose proof (r_np n xr yr o Hi E) as En. pose proof (r_rows n xr yr Hi) as Hp.
  assert (Hrow := r_yrow n xr yr o). repeat split.
  - intros x. unfold irr_ens_pdf, rv_pdf. rewrite En.
    rewrite (rv_eval_scalar _ _ _ _ _ _ (irr_pdf_dispatches o (length xr))) by auto.
    f_equal. apply map_seq_ext. intros r Hr. destruct (Hrow r Hi E Hr) as (E1 & E2 & _). rewrite E1, E2. reflexivity.
  - intros x. unfold irr_ens_cdf, rv_cdf. rewrite En.
    rewrite (rv_eval_scalar _ _ _ _ _ _ (irr_cdf_dispatches o (length xr))) by auto.
    f_equal. apply map_seq_ext. intros r Hr. destruct (Hrow r Hi E Hr) as (E1 & E2 & E3). rewrite E1, E3. reflexivity.
  - intros x Hx. unfold irr_ens_ppf, rv_ppf. rewrite En.
    rewrite (rv_eval_scalar _ _ _ _ _ _ (irr_ppf_dispatches o (length xr))); auto.
    + f_equal. apply map_seq_ext. intros r Hr. destruct (Hrow r Hi E Hr) as (E1 & E2 & E3). rewrite E1, E3. reflexivity.
    + numR. destruct (nltb_reflect 0 x); [|lra]. destruct (nltb_reflect x 1); [auto|lra].
Qed.

Lemma c11 : forall n xr yr, irr_input n xr yr ->
  exists o, irr_ctor (nd2 n xr) (nd2 n yr) true = Ok o /\
  exists f F, evaluates (irr_ens_pdf o) (length xr) f /\ evaluates (irr_ens_cdf o) (length xr) F /\
    forall r, (r < length xr)%nat ->
      (forall x, 0 <= f r x) /\
      is_RInt (f r) (at2 xr r 0) (at2 xr r (pred n))
        (rsum (pred n) (fun i => (at2 xr r (S i) - at2 xr r i) * (at2 yr r i + at2 yr r (S i)) / 2) /
         rsum (pred n) (fun i => (at2 xr r (S i) - at2 xr r i) * at2 yr r (S i))) /\
      (forall x y, x <= y -> F r x <= F r y) /\
      (forall x, 0 <= F r x <= 1) /\
      (forall x, x <= at2 xr r 0 -> F r x = 0) /\
      (forall x, at2 xr r (pred n) <= x -> F r x = 1) /\
      (forall j, (j < n)%nat ->
         F r (at2 xr r j) = rsum j (fun i => (at2 xr r (S i) - at2 xr r i) * f r (at2 xr r (S i)))).
Proof.
  intros n xr yr Hi. pose proof Hi as (Hn & Hne & Hl & Hx & Hy & Hm).
  eexists. split; [apply irr_build; auto; intros; [apply Hx|apply Hy]; auto|].
  match goal with |- exists f F, evaluates (irr_ens_pdf ?x) _ _ /\ _ => set (o := x) end.
  assert (E : irr_ctor (nd2 n xr) (nd2 n yr) true = Ok o)
    by (apply irr_build; auto; intros; [apply Hx|apply Hy]; auto).
  exists (rf xr yr), (rF xr yr). destruct (irr_evals n xr yr o Hi E) as (Ep & Ec & _).
  split; auto. split; auto. intros r Hr.
  destruct (rx_facts n xr yr Hi r Hr) as [Lx Sx]. assert (Hn2 := r_n n xr yr Hi r Hr).
  assert (Lc := rc_len n xr yr Hi r Hr). assert (Nc := rc_nondec n xr yr Hi r Hr).
  assert (C1 := rc_last n xr yr Hi r Hr).
  assert (C0 : 0 <= nth0 0 (rc xr yr r)) by (rewrite rc_0; lra).
  assert (El : nlast (rx xr r) = at2 xr r (pred n)) by (rewrite nlast_nth0, Lx; reflexivity).
  assert (Hlt : nth0 0 (rx xr r) < nlast (rx xr r)) by (apply t_range; auto).
  split; [|split; [|split; [|split; [|split; [|split]]]]].
  - intros x. unfold rf, pl.
    destruct (Rlt_le_dec x (nth0 0 (rx xr r))); [rewrite interp1d_below by auto; lra|].
    destruct (Rlt_le_dec (nlast (rx xr r)) x); [rewrite interp1d_above by (auto; lra); lra|].
    destruct (segment_exists_closed (rx xr r) x) as (j & Hj & Hxj); auto; [apply inc_nd; auto|].
    rewrite (interp1d_closed _ _ _ _ _ j) by auto.
    apply seg_ge; auto; try (apply (ry_pos n xr yr Hi r Hr); lia). apply inc_lt; auto; lia.
  - change (at2 xr r 0) with (nth0 0 (rx xr r)). change (at2 xr r (pred n)) with (nth0 (pred n) (rx xr r)).
    replace (_ / _) with (rsum (pred n) (trap (rx xr r) (ry xr yr r))).
    + apply pl_integral_knot; auto. lia.
    + rewrite (trap_ratio n xr yr Hi r Hr). f_equal. f_equal. unfold rsumr. rewrite Lx. reflexivity.
  - intros. apply tF_mono; auto.
  - intros. apply tF_range; auto.
  - intros x [Lt|Eq]; [apply tF_below; auto|]. rewrite Eq. unfold rF. 
    change (at2 xr r 0) with (nth0 0 (rx xr r)). rewrite tF_first by auto. apply rc_0.
  - intros x Hxx. apply tF_above; auto. rewrite El. auto.
  - intros j Hj. unfold rF. change (at2 xr r j) with (nth0 j (rx xr r)). rewrite tF_knot by (auto; lia).
    unfold rc. rewrite ic_nth by (auto; try lia; apply (ry_len n xr yr Hi r Hr)).
    apply rsum_ext. intros i Hii. unfold rect, rf, pl. change (at2 xr r (S i)) with (nth0 (S i) (rx xr r)).
    change (at2 xr r i) with (nth0 i (rx xr r)). rewrite interp1d_knot by (auto; lia). reflexivity.
Qed.

Lemma c11_refuted :
  exists (xr yr : list (list Q)) (o : irregular Q),
    irr_ctor (nd2 2 xr) (nd2 2 yr) true = Ok o /\
    xr = [[0; 1]]%Q /\ r_yvals o = [[0; 1]]%Q /\
    irr_ens_pdf o (PScalar (1 # 2)%Q) = Ok [[Fin (1 # 2)%Q]].
Proof. exists [[0; 1]]%Q, [[0; 1]]%Q, (mkirr [[0; 1]] [[0; 1]] [1%nat])%Q. vm_compute. repeat split; reflexivity. Qed.

Lemma c11_not_normalised :
  exists n xr yr o f, irr_input n xr yr /\ irr_ctor (nd2 n xr) (nd2 n yr) true = Ok o /\
    evaluates (irr_ens_pdf o) (length xr) f /\ is_RInt (f 0%nat) (at2 xr 0 0) (at2 xr 0 (pred n)) (1 / 2).
Proof.
  exists 2%nat, [[0; 1]], [[0; 1]].
  assert (Hi : irr_input 2 [[0; 1]] [[0; 1]]).
  { split; [lia|]. split; [discriminate|]. split; [auto|]. split; [|split].
    - intros xs [<-|[]]. split; auto. repeat constructor; lra.
    - intros ys [<-|[]]. split; auto. intros [|[|i]] H; unfold nth0; simpl in *; try lra; lia.
    - intros [|r] H; simpl in *; [|lia]. unfold at2, nth0. simpl. lra. }
  destruct (c11 2 [[0; 1]] [[0; 1]] Hi) as (o & E & f & F & Hf & _ & Hp).
  exists o, f. split; auto. split; auto. split; auto.
  destruct (Hp 0%nat ltac:(simpl; lia)) as (_ & Hint & _).
  replace (1 / 2) with (rsum (pred 2) (fun i => (at2 [[0; 1]] 0 (S i) - at2 [[0; 1]] 0 i) * (at2 [[0; 1]] 0 i + at2 [[0; 1]] 0 (S i)) / 2) /
         rsum (pred 2) (fun i => (at2 [[0; 1]] 0 (S i) - at2 [[0; 1]] 0 i) * at2 [[0; 1]] 0 (S i))); auto.
  unfold at2, nth0. simpl. numR. field.
Qed.

Lemma irr_input_example : irr_input 3 [[0; 1; 3]; [1; 2; 5]] [[1; 2; 0]; [0; 5; 5]].
Proof.
  split; [lia|]. split; [discriminate|]. split; [auto|]. split; [|split].
  - intros xs [<-|[<-|[]]]; split; auto; repeat constructor; lra.
  - intros ys [<-|[<-|[]]]; (split; auto; intros [|[|[|i]]] H; unfold nth0; simpl in *; try lra; lia).
  - intros [|[|r]] H; simpl in *; try lia; unfold at2, nth0; simpl; lra.
Qed.

(** ppf inverts the cdf *)
Lemma c55_irr_ppf : forall n xr yr o, irr_input n xr yr -> irr_ctor (nd2 n xr) (nd2 n yr) true = Ok o ->
  exists F Q, evaluates (irr_ens_cdf o) (length xr) F /\ evaluates_on 0 1 (irr_ens_ppf o) (length xr) Q /\
    forall r, (r < length xr)%nat ->
      (forall p, 0 < p < 1 -> at2 xr r 0 <= Q r p <= at2 xr r (pred n) /\ F r (Q r p) = p) /\
      (forall p q, 0 < p -> p <= q -> q < 1 -> Q r p <= Q r q).
Proof.
  intros n xr yr o Hi E. destruct (irr_evals n xr yr o Hi E) as (_ & Ec & Eq).
  exists (rF xr yr), (rQ xr yr (r_xmin o) (r_xmax o)). split; auto. split; auto. intros r Hr.
  destruct (rx_facts n xr yr Hi r Hr) as [Lx Sx]. assert (Hn2 := r_n n xr yr Hi r Hr).
  assert (Lc := rc_len n xr yr Hi r Hr). assert (Nc := rc_nondec n xr yr Hi r Hr).
  assert (C1 := rc_last n xr yr Hi r Hr).
  assert (C0 : 0 <= nth0 0 (rc xr yr r)) by (rewrite rc_0; lra).
  assert (El : nlast (rx xr r) = at2 xr r (pred n)) by (rewrite nlast_nth0, Lx; reflexivity).
  split.
  - intros p Hp. rewrite <- El. split.
    + apply (tQ_range (rx xr r) (rc xr yr r)); auto. rewrite rc_0. split; lra.
    + apply tFQ; auto. rewrite rc_0. split; lra.
  - intros p q Hp Hpq Hq. apply (tQ_mono (rx xr r) (rc xr yr r)); auto. rewrite rc_0. lra.
Qed.
