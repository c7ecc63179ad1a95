(** Splines made from points (x, y) and from samples. *)
From Coq Require Import String List Arith ZArith Bool Lia Reals Lra.
From Coquelicot Require Import Coquelicot.
From Verif Require Import Num NumProofs Py NdArray NumpyLib Utils ScipyWrap Spec Values Ensemble Classes SplinePdf SplineXy
  SortProofs BinProofs EvalProofs NdProofs InterpProofs IntegralProofs HistProofs PackedTheorems PackingTheorems MixmodTheorems SplineProofs SplineMath Kinds KindProofs EnsembleProofs KindInputs ReachProofs EnsembleTheorems RowProofs IntegrateTheorems SplineTheorems.
Import ListNotations.
Local Open Scope string_scope.
Local Open Scope list_scope.
Local Open Scope R_scope.

(** ** Specification *)
(** what is asked of scipy's [splrep] for one PDF: a spline (knots [t], coefficients [c], order [k]) through the points, which is scaled
    when the values are *)
Definition interpolant (splrep : list R -> list R -> res (list R * list R * nat)) (x y t c : list R) (k : nat) : Prop :=
  splrep x y = Ok (t, c, k) /\ (forall s, s <> 0 -> splrep x (map (fun v => v / s) y) = Ok (t, map (fun v => v / s) c, k)) /\
  ordered t /\ length c = length t /\ (k <= 5)%nat /\ (2 * k + 2 <= length t)%nat /\ (forall i, (i < length x)%nat -> splev t c k (nth0 i x) = nth0 i y).
(** scipy's [quad] as an exact integral *)
Definition quad_exact (quad : (R -> R) -> R -> R -> R) : Prop := forall f a b, ex_RInt f a b -> quad f a b = RInt f a b.
Definition least_of (lo : R) (xs : list (list R)) : Prop := In lo (concat xs) /\ forall v, In v (concat xs) -> lo <= v.
Definition greatest_of (hi : R) (xs : list (list R)) : Prop := In hi (concat xs) /\ forall v, In v (concat xs) -> v <= hi.

(** ** Proofs *)
Lemma nminimum_in (l : list R) d : In (nminimum d l) (d :: l).
Proof.
  unfold nminimum. revert d. induction l as [|a l IH]; intros d; cbn [fold_left]; [left; reflexivity|]. destruct (IH (nmin d a)) as [E|E]; [|right; right; exact E].
  rewrite <- E. unfold nmin. destruct (nleb d a); [left; reflexivity|right; left; reflexivity].
Qed.
Lemma least_eq l lo : In lo l -> (forall v, In v l -> lo <= v) -> nminimum (nhead l) (tl l) = lo.
Proof.
  intros Hi Hl. destruct l as [|a l]; [destruct Hi|]. pose proof (nminimum_in l a) as H. apply Rle_antisym; [apply (min_in_list (a :: l)); exact Hi|apply Hl; exact H].
Qed.
Lemma greatest_eq l hi : In hi l -> (forall v, In v l -> v <= hi) -> nmaximum (nhead l) (tl l) = hi.
Proof.
  intros Hi Hl. destruct l as [|a l]; [destruct Hi|]. pose proof (nmaximum_in l a) as H. apply Rle_antisym; [apply Hl; exact H|apply (max_in_list (a :: l)); exact Hi].
Qed.
Lemma nth0_div s c i : nth0 i (map (fun v => v / s) c) = nth0 i c / s.
Proof. unfold nth0. destruct (Nat.lt_ge_cases i (length c)) as [H|H]; [apply (nth_map_in (fun v => v / s) c i n0 n0 H)|]. rewrite !nth_overflow by (rewrite ?map_length; exact H). numR. unfold Rdiv. ring. Qed.
Lemma splev_scaled t c k s x : splev t (map (fun v => v / s) c) k x = splev t c k x / s.
Proof.
  unfold splev, piece. rewrite <- nsum_map_div, map_map. apply f_equal. apply map_ext. intros i. rewrite nth0_div. numR. unfold Rdiv. ring.
Qed.
Lemma splint_scaled t c k s a x : splint t (map (fun v => v / s) c) k a x = splint t c k a x / s.
Proof.
  unfold splint. rewrite <- nsum_map_div, map_map. apply f_equal. apply map_ext. intros l.
  assert (P : forall z, piece t (map (fun v => v / s) c) k l z = piece t c k l z / s).
  { intros z. unfold piece. rewrite <- nsum_map_div, map_map. apply f_equal. apply map_ext. intros i. rewrite nth0_div. numR. unfold Rdiv. ring. }
  unfold boole. rewrite !P. numR. unfold Rdiv. ring.
Qed.
Lemma combine_rows {A B} (da : A) (db : B) : forall xs ys, length ys = length xs -> combine xs ys = map (fun r => (nth r xs da, nth r ys db)) (seq 0 (length xs)).
Proof.
  induction xs as [|x xs IH]; intros [|y ys] H; try discriminate; [reflexivity|]. injection H as H. cbn [combine length seq map nth]. apply f_equal. rewrite IH by exact H. rewrite <- seq_shift, map_map. reflexivity.
Qed.
Lemma seq_rows {A} (d : A) (h : nat -> A) n r : (r < n)%nat -> nth r (map h (seq 0 n)) d = h r.
Proof. intros H. rewrite (nth_map_in h (seq 0 n) r d 0%nat) by (rewrite seq_length; exact H). rewrite seq_nth by exact H. reflexivity. Qed.
Lemma in_seq_rows {A} (h : nat -> A) n a : In a (map h (seq 0 n)) -> exists r, (r < n)%nat /\ a = h r.
Proof. intros H. apply in_map_iff in H. destruct H as (r & <- & Hr). apply in_seq in Hr. exists r. split; [lia|reflexivity]. Qed.
Lemma same_rows n n' (a b : list (list R)) : nd2 n a = nd2 n' b -> (forall l, In l a -> length l = n) -> (forall l, In l b -> length l = n') -> a = b.
Proof. intros E Ha Hb. rewrite <- (rows_of_nd2 n a Ha), <- (rows_of_nd2 n' b Hb), E. reflexivity. Qed.
Lemma spline_lengths X n D e : represents_in X (KSpline n) D e -> (forall l, In l (map (num_at 0) D) -> length l = n) /\ (forall l, In l (map (num_at 1) D) -> length l = n).
Proof.
  intros HD. destruct (table_of X n D e HD) as (_ & _ & _ & _ & _ & _ & H). exact H.
Qed.
Lemma computes_ext f n F G : computes f n F -> (forall r x, (r < n)%nat -> F r x = G r x) -> computes f n G.
Proof.
  intros [H1 H2] E. split; [intros x|intros l Hl].
  - rewrite H1. apply f_equal. apply map_ext_in. intros r Hr. apply in_seq in Hr. rewrite E by lia. reflexivity.
  - rewrite H2 by exact Hl. unfold table. apply f_equal. apply map_ext_in. intros r Hr. apply in_seq in Hr. apply map_ext. intros x. unfold fin. rewrite E by lia. reflexivity.
Qed.
(** an ensemble of splines made from rows given one by one *)
Lemma spline_rows n N (Ts Cs : nat -> list R) (Ks : nat -> nat) : (0 < N)%nat ->
  (forall r, (r < N)%nat -> length (Ts r) = n /\ length (Cs r) = n /\ (Ks r <= 5)%nat /\ (2 * Ks r + 2 <= n)%nat) ->
  exists g, spline_create [("splx", VArr (nd2 n (map Ts (seq 0 N)))); ("sply", VArr (nd2 n (map Cs (seq 0 N)))); ("spln", VArr (nd2 1 (map (fun r => [INR (Ks r)]) (seq 0 N))))] = Ok g /\
    g_npdf g = N /\ g_name g = "spline" /\
    g_data g = [("splx", VArr (nd2 n (map Ts (seq 0 N)))); ("sply", VArr (nd2 n (map Cs (seq 0 N)))); ("spln", VArr (nd2 1 (map (fun r => [INR (Ks r)]) (seq 0 N))))] /\
    (exists e M, made scipy1 M e /\ e_obj e = g) /\
    forall func anc grid, let e := mkens func g anc grid in
      computes (ens_pdf e) N (fun r => splev (Ts r) (Cs r) (Ks r)) /\
      computes (ens_cdf e) N (fun r => splint (Ts r) (Cs r) (Ks r) (nminimum (nhead (Ts r)) (tl (Ts r)))).
Proof.
  intros HN H. set (i := ISpline n (map Ts (seq 0 N)) (map Cs (seq 0 N)) (map Ks (seq 0 N))).
  assert (Hi : input_ok i).
  { cbn [i input_ok]. rewrite !map_length, seq_length. split; [destruct (H 0%nat HN); lia|]. split; [destruct N; [lia|discriminate]|]. split; [reflexivity|]. split; [reflexivity|].
    split; [|split]; intros a Ha; apply in_seq_rows in Ha; destruct Ha as (r & Hr & ->); destruct (H r Hr) as (H1 & H2 & H3 & H4); auto. }
  destruct (made_new scipy1 i None scipy1_fill Hi I) as (e & Ee & _ & Hm & Hn & _ & Hname).
  unfold qp_create in Ee. change (qp scipy1 (input_name i)) with (Some (@spline_create R _)) in Ee. cbv iota beta in Ee.
  assert (Ed : input_dict i = [("splx", VArr (nd2 n (map Ts (seq 0 N)))); ("sply", VArr (nd2 n (map Cs (seq 0 N)))); ("spln", VArr (nd2 1 (map (fun r => [INR (Ks r)]) (seq 0 N))))]).
  { cbn [i input_dict]. unfold column. rewrite !map_map. reflexivity. }
  unfold ens_new in Ee. rewrite Ed in Ee. destruct (spline_create _) as [g|] eqn:Eg; [|discriminate]. cbn [bind check_array_shapes] in Ee. injection Ee as _ Eo.
  assert (Hg : g_data g = [("splx", VArr (nd2 n (map Ts (seq 0 N)))); ("sply", VArr (nd2 n (map Cs (seq 0 N)))); ("spln", VArr (nd2 1 (map (fun r => [INR (Ks r)]) (seq 0 N))))]).
  { revert Eg. rewrite (spline_create_eq n 1 _ _ _ _ eq_refl). rewrite spline_build; [cbn [bind]; intros E; injection E as <-; reflexivity| | | | | |].
    - destruct (H 0%nat HN); lia.
    - destruct N; [lia|discriminate].
    - rewrite !map_length; reflexivity.
    - intros l Hl. apply in_seq_rows in Hl. destruct Hl as (r & Hr & ->). apply H; exact Hr.
    - intros l Hl. apply in_seq_rows in Hl. destruct Hl as (r & Hr & ->). apply H; exact Hr.
    - intros l Hl. apply in_seq_rows in Hl. destruct Hl as (r & Hr & ->). reflexivity. }
  exists g. split; [reflexivity|]. assert (Ex : exists e M, made scipy1 M e /\ e_obj e = g) by (exists e, (input_methods i); split; [exact Hm|congruence]). assert (Eo' : g = e_obj e) by congruence. clear Eo; rename Eo' into Eo; subst g. assert (Nn : e_npdf e = N) by (rewrite Hn; cbn [i input_npdf]; rewrite map_length, seq_length; reflexivity).
  split; [exact Nn|]. split; [exact Hname|]. split; [exact Hg|]. split; [exact Ex|].
  destruct (spline_kind scipy1 _ e scipy1_fill Hm Hname) as (n' & D & HD).
  intros func anc grid. cbv zeta.
  destruct (row_functions scipy1 n' D e HD) as [Hf HF]. rewrite Nn in *.
  pose proof (rep_npdf' scipy1 _ D e HD) as LD. rewrite Nn in LD.
  destruct (table_of scipy1 n' D e HD) as (T1 & T2 & T3 & _).
  unfold objdata in T1, T2, T3. rewrite Hg in T1, T2, T3. cbn [vget dget String.eqb Ascii.eqb Bool.eqb] in T1, T2, T3.
  destruct (spline_lengths _ _ _ _ HD) as (L1 & L2).
  assert (Lt : forall l, In l (map Ts (seq 0 N)) -> length l = n) by (intros l Hl; apply in_seq_rows in Hl; destruct Hl as (r & Hr & ->); apply H; exact Hr).
  assert (Lc : forall l, In l (map Cs (seq 0 N)) -> length l = n) by (intros l Hl; apply in_seq_rows in Hl; destruct Hl as (r & Hr & ->); apply H; exact Hr).
  assert (E1 : map Ts (seq 0 N) = map (num_at 0) D) by (apply (same_rows n n'); auto; congruence).
  assert (E2 : map Cs (seq 0 N) = map (num_at 1) D) by (apply (same_rows n n'); auto; congruence).
  assert (E3 : map (fun r => [INR (Ks r)]) (seq 0 N) = map (fun k => [INR k]) (map order_at D)).
  { apply (same_rows 1 1); [congruence| |]; intros l Hl; apply in_map_iff in Hl; destruct Hl as (r & <- & _); reflexivity. }
  assert (R : forall r, (r < N)%nat -> num_at 0 (nth r D []) = Ts r /\ num_at 1 (nth r D []) = Cs r /\ order_at (nth r D []) = Ks r).
  { intros r Hr. assert (Hd : (r < length D)%nat) by lia. split; [|split].
    - rewrite <- (seq_rows [] Ts N r Hr), E1. symmetry. apply nth_map_in. exact Hd.
    - rewrite <- (seq_rows [] Cs N r Hr), E2. symmetry. apply nth_map_in. exact Hd.
    - pose proof (seq_rows [] (fun r => [INR (Ks r)]) N r Hr) as Q. rewrite E3, map_map in Q. rewrite (nth_map_in (fun d => [INR (order_at d)]) D r [] [] Hd) in Q. injection Q as Q. apply INR_eq. exact Q. }
  split.
  - apply (computes_ext _ _ (fun r => row_pdf (nth r D []))); [|intros r x Hr; unfold row_pdf; destruct (R r Hr) as (-> & -> & ->); reflexivity].
    revert Hf. unfold ens_pdf. cbn [e_obj]. auto.
  - apply (computes_ext _ _ (fun r => row_cdf (nth r D []))); [|intros r x Hr; unfold row_cdf; destruct (R r Hr) as (-> & -> & ->); reflexivity].
    revert HF. unfold ens_cdf. cbn [e_obj]. auto.
Qed.

(** ** Creation from points *)
Lemma spline_xy_built splrep quad m n xs ys (Ts Cs : nat -> list R) (Ks : nat -> nat) lo hi :
  (0 < m)%nat -> xs <> [] -> length ys = length xs -> (forall l, In l xs -> length l = m) -> (forall l, In l ys -> length l = m) ->
  (forall r, (r < length xs)%nat -> interpolant splrep (nth r xs []) (nth r ys []) (Ts r) (Cs r) (Ks r)) -> (forall r, (r < length xs)%nat -> length (Ts r) = n) ->
  quad_exact quad -> least_of lo xs -> greatest_of hi xs -> (forall r, (r < length xs)%nat -> RInt (splev (Ts r) (Cs r) (Ks r)) lo hi <> 0) ->
  let I := fun r => RInt (splev (Ts r) (Cs r) (Ks r)) lo hi in
  spline_from_xy splrep quad [("xvals", VArr (nd2 m xs)); ("yvals", VArr (nd2 m ys))] =
  spline_create [("splx", VArr (nd2 n (map Ts (seq 0 (length xs))))); ("sply", VArr (nd2 n (map (fun r => map (fun v => v / I r) (Cs r)) (seq 0 (length xs)))));
                 ("spln", VArr (nd2 1 (map (fun r => [INR (Ks r)]) (seq 0 (length xs)))))].
Proof.
  intros Hm Hne Hl Lx Ly HI Hn Hq Hlo Hhi HI0 I.
  unfold spline_from_xy. cbn [known forallb map fst existsb String.eqb Ascii.eqb Bool.eqb orb andb negb arg vget dget bind as_numbers].
  unfold build_normed_splines. cbn [shp dat nd2]. destruct (list_eq_dec Nat.eq_dec [length xs; m] [length ys; m]) as [_|C]; [|exfalso; apply C; rewrite Hl; reflexivity]. cbn [negb].
  destruct Hlo as [Hlo1 Hlo2]. destruct Hhi as [Hhi1 Hhi2].
  destruct (length (concat xs) =? 0)%nat eqn:E0; [apply Nat.eqb_eq, length_zero_iff_nil in E0; rewrite E0 in Hlo1; destruct Hlo1|].
  rewrite (least_eq _ lo Hlo1 Hlo2), (greatest_eq _ hi Hhi1 Hhi2). change (mknd [length xs; m] (concat xs)) with (nd2 m xs). change (mknd [length ys; m] (concat ys)) with (nd2 m ys).
  rewrite (rows_of_nd2 m xs Lx), (rows_of_nd2 m ys Ly). unfold normalize_spline. rewrite (combine_rows [] [] xs ys Hl), mapM_map.
  rewrite (mapM_ok _ (fun r => map (fun v => v / I r) (nth r ys []))).
  2:{ intros r Hr. apply in_seq in Hr. cbn [fst snd]. unfold normalize_spline_row. destruct (HI r ltac:(lia)) as (E & _ & O & LC & K5 & K2 & _). rewrite E. cbn [bind]. rewrite Hq; [reflexivity|]. apply splev_integrable; auto. }
  cbn [bind]. unfold build_splines. rewrite (combine_rows [] [] xs) by (rewrite map_length, seq_length; reflexivity). rewrite mapM_map.
  rewrite (mapM_ok _ (fun r => (Ts r, map (fun v => v / I r) (Cs r), Ks r))).
  2:{ intros r Hr. apply in_seq in Hr. cbn [fst snd]. rewrite seq_rows by lia. assert (Hr' : (r < length xs)%nat) by lia. destruct (HI r Hr') as (_ & E & _). exact (E _ (HI0 r Hr')). }
  cbn [bind]. rewrite !map_map. cbn [fst snd].
  assert (En : length (hd [] (map Ts (seq 0 (length xs)))) = n).
  { destruct xs as [|x0 xs']; [congruence|]. cbn [length seq map hd]. apply Hn. cbn [length]. lia. }
  change (fun x : nat => Ts x) with Ts. rewrite En. replace (forallb _ _) with true.
  2:{ symmetry. apply forallb_forall. intros l Hl'. apply Nat.eqb_eq. apply in_app_or in Hl'. destruct Hl' as [Hl'|Hl']; apply in_seq_rows in Hl'; destruct Hl' as (r & Hr & ->); [apply Hn; exact Hr|].
      rewrite map_length. destruct (HI r Hr) as (_ & _ & _ & -> & _). apply Hn. exact Hr. }
  cbn [bind]. replace (map (fun x : nat => [nofZ (Z.of_nat (Ks x))]) (seq 0 (length xs))) with (map (fun r => [INR (Ks r)]) (seq 0 (length xs))); [reflexivity|].
  apply map_ext. intros r. rewrite INR_IZR_INZ. reflexivity.
Qed.
Lemma c116_xy : forall splrep quad m n xs ys (Ts Cs : nat -> list R) (Ks : nat -> nat) lo hi,
  (0 < m)%nat -> xs <> [] -> length ys = length xs -> (forall l, In l xs -> length l = m) -> (forall l, In l ys -> length l = m) ->
  (forall r, (r < length xs)%nat -> interpolant splrep (nth r xs []) (nth r ys []) (Ts r) (Cs r) (Ks r)) -> (forall r, (r < length xs)%nat -> length (Ts r) = n) ->
  quad_exact quad -> least_of lo xs -> greatest_of hi xs -> (forall r, (r < length xs)%nat -> RInt (splev (Ts r) (Cs r) (Ks r)) lo hi <> 0) ->
  exists e f F, ens_new (spline_from_xy splrep quad) [("xvals", VArr (nd2 m xs)); ("yvals", VArr (nd2 m ys))] None = Ok e /\
    e_npdf e = length xs /\ g_name (e_obj e) = "spline" /\ computes (ens_pdf e) (length xs) f /\ computes (ens_cdf e) (length xs) F /\
    forall r, (r < length xs)%nat ->
      (exists I, I <> 0 /\ is_RInt (splev (Ts r) (Cs r) (Ks r)) lo hi I /\ forall i, (i < m)%nat -> f r (nth0 i (nth r xs [])) = nth0 i (nth r ys []) / I) /\
      is_spline (Ts r) (map (fun v => v / RInt (splev (Ts r) (Cs r) (Ks r)) lo hi) (Cs r)) (Ks r) (f r) /\
      is_RInt (f r) lo hi 1 /\ is_base_integral (Ts r) (Ks r) (f r) (F r) /\
      (first_knot (Ts r) (Ks r) = lo -> last_knot (Ts r) (Ks r) = hi -> forall x, hi <= x -> F r x = 1).
Proof.
  intros splrep quad m n xs ys Ts Cs Ks lo hi Hm Hne Hl Lx Ly HI Hn Hq Hlo Hhi HI0.
  pose proof (spline_xy_built splrep quad m n xs ys Ts Cs Ks lo hi Hm Hne Hl Lx Ly HI Hn Hq Hlo Hhi HI0) as EB. cbv zeta in EB.
  set (I := fun r => RInt (splev (Ts r) (Cs r) (Ks r)) lo hi) in *.
  destruct (spline_rows n (length xs) Ts (fun r => map (fun v => v / I r) (Cs r)) Ks) as (g & Eg & Gn & Gname & _ & _ & G).
  { destruct xs; [congruence|cbn; lia]. }
  { intros r Hr. destruct (HI r Hr) as (_ & _ & _ & LC & K5 & K2 & _). rewrite map_length. rewrite LC, (Hn r Hr) in *. auto. }
  unfold ens_new. rewrite EB. unfold I. unfold I in Eg. rewrite Eg. cbn [bind check_array_shapes].
  exists (mkens (spline_from_xy splrep quad) g None None). 
  destruct (G (spline_from_xy splrep quad) None None) as [Gf GF].
  eexists _, _. split; [reflexivity|]. split; [exact Gn|]. split; [exact Gname|]. split; [exact Gf|]. split; [exact GF|].
  intros r Hr. destruct (HI r Hr) as (_ & _ & O & LC & K5 & K2 & P). pose proof (HI0 r Hr) as H0. fold (I r) in *.
  assert (EI : is_RInt (splev (Ts r) (Cs r) (Ks r)) lo hi (I r)) by (apply (RInt_correct (V := R_CompleteNormedModule)), splev_integrable; auto).
  assert (One : is_RInt (splev (Ts r) (map (fun v => v / I r) (Cs r)) (Ks r)) lo hi 1).
  { apply (is_RInt_ext (fun x => / I r * splev (Ts r) (Cs r) (Ks r) x)); [intros x _; rewrite splev_scaled; unfold Rdiv; apply Rmult_comm|].
    replace 1 with (/ I r * I r) by (field; exact H0). apply (is_RInt_scal (V := R_NormedModule)). exact EI. }
  assert (Base : is_base_integral (Ts r) (Ks r) (splev (Ts r) (map (fun v => v / I r) (Cs r)) (Ks r)) (splint (Ts r) (map (fun v => v / I r) (Cs r)) (Ks r) (nminimum (nhead (Ts r)) (tl (Ts r))))).
  { intros x. apply splint_integral; auto. intros y Hy. apply min_in_list. exact Hy. }
  split; [|split; [|split; [|split]]].
  - exists (I r). split; [exact H0|]. split; [exact EI|]. intros i Hi. rewrite splev_scaled, P; [reflexivity|]. rewrite (Lx _ (nth_In xs [] Hr)). exact Hi.
  - apply row_is_spline; auto.
  - exact One.
  - exact Base.
  - intros E1 E2 x Hx. pose proof (Base x) as Bx. rewrite E1, E2 in Bx. replace (clamp lo hi x) with hi in Bx.
    + pose proof (is_RInt_unique (V := R_CompleteNormedModule) _ _ _ _ Bx) as U1. pose proof (is_RInt_unique (V := R_CompleteNormedModule) _ _ _ _ One) as U2. congruence.
    + assert (lo <= hi) by (rewrite <- E1, <- E2; apply ends_order; auto). unfold clamp. clamps.
Qed.

(** ** Creation from samples *)
Lemma samples_xy splrep quad kde w x ss (D : nat -> R -> R) : ss <> [] -> (forall l, In l ss -> length l = w) ->
  (forall r, (r < length ss)%nat -> kde (nth r ss []) = Ok (D r)) ->
  spline_from_samples splrep quad kde [("xvals", VArr (nd1 x)); ("samples", VArr (nd2 w ss))] =
  spline_from_xy splrep quad [("xvals", VArr (nd2 (length x) (map (fun _ => x) (seq 0 (length ss))))); ("yvals", VArr (nd2 (length x) (map (fun r => map (D r) x) (seq 0 (length ss)))))].
Proof.
  intros Hne Hw HD. unfold spline_from_samples. cbn [known forallb map fst existsb String.eqb Ascii.eqb Bool.eqb orb andb negb arg vget dget bind as_numbers].
  assert (Eg : as_grid (VArr (nd1 x)) = Ok x) by reflexivity. rewrite Eg. cbn [bind shp nd2]. change (mknd [length ss; w] (concat ss)) with (nd2 w ss). rewrite (rows_of_nd2 w ss Hw).
  assert (Es : ss = map (fun r => nth r ss []) (seq 0 (length ss))).
  { clear. induction ss as [|a ss IH]; [reflexivity|]. cbn [length seq map nth]. apply f_equal. rewrite <- seq_shift, map_map. exact IH. }
  assert (Ek : build_kdes kde ss = Ok (map D (seq 0 (length ss)))).
  { unfold build_kdes. rewrite Es at 1. rewrite mapM_map. apply mapM_ok. intros r Hr. apply in_seq in Hr. apply HD. lia. }
  rewrite Ek. cbn [bind]. unfold evaluate_kdes. destruct (map D (seq 0 (length ss))) as [|d0 ds] eqn:Em; [destruct ss; [congruence|discriminate]|]. rewrite <- Em. cbn [bind].
  assert (Ex : map (fun _ : list R => x) ss = map (fun _ : nat => x) (seq 0 (length ss))) by (rewrite Es at 1; rewrite map_map; reflexivity).
  rewrite map_map, Ex. reflexivity.
Qed.
Lemma c117_samples : forall splrep quad kde w n x ss (D : nat -> R -> R) (Ts Cs : nat -> list R) (Ks : nat -> nat) lo hi,
  x <> [] -> ss <> [] -> (forall l, In l ss -> length l = w) -> (forall r, (r < length ss)%nat -> kde (nth r ss []) = Ok (D r)) ->
  (forall r, (r < length ss)%nat -> interpolant splrep x (map (D r) x) (Ts r) (Cs r) (Ks r)) -> (forall r, (r < length ss)%nat -> length (Ts r) = n) ->
  quad_exact quad -> least_of lo [x] -> greatest_of hi [x] -> (forall r, (r < length ss)%nat -> RInt (splev (Ts r) (Cs r) (Ks r)) lo hi <> 0) ->
  exists e f F, ens_new (spline_from_samples splrep quad kde) [("xvals", VArr (nd1 x)); ("samples", VArr (nd2 w ss))] None = Ok e /\
    e_npdf e = length ss /\ g_name (e_obj e) = "spline" /\ computes (ens_pdf e) (length ss) f /\ computes (ens_cdf e) (length ss) F /\
    forall r, (r < length ss)%nat ->
      (exists I, I <> 0 /\ is_RInt (splev (Ts r) (Cs r) (Ks r)) lo hi I /\ forall i, (i < length x)%nat -> f r (nth0 i x) = D r (nth0 i x) / I) /\
      is_spline (Ts r) (map (fun v => v / RInt (splev (Ts r) (Cs r) (Ks r)) lo hi) (Cs r)) (Ks r) (f r) /\
      is_RInt (f r) lo hi 1 /\ is_base_integral (Ts r) (Ks r) (f r) (F r) /\
      (first_knot (Ts r) (Ks r) = lo -> last_knot (Ts r) (Ks r) = hi -> forall z, hi <= z -> F r z = 1).
Proof.
  intros splrep quad kde w n x ss D Ts Cs Ks lo hi Hx Hne Hw HD HI Hn Hq [Hlo1 Hlo2] [Hhi1 Hhi2] HI0. cbn [concat] in *. rewrite app_nil_r in *.
  set (xs := map (fun _ : nat => x) (seq 0 (length ss))). set (ys := map (fun r => map (D r) x) (seq 0 (length ss))).
  assert (Lxs : length xs = length ss) by (unfold xs; rewrite map_length, seq_length; reflexivity).
  assert (Lys : length ys = length xs) by (rewrite Lxs; unfold ys; rewrite map_length, seq_length; reflexivity).
  assert (Hin : forall v, In v (concat xs) <-> In v x).
  { intros v. rewrite in_concat. split.
    - intros (l & Hl & Hv). unfold xs in Hl. apply in_seq_rows in Hl. destruct Hl as (r & _ & ->). exact Hv.
    - intros Hv. exists x. split; [|exact Hv]. unfold xs. destruct ss; [congruence|]. left. reflexivity. }
  assert (Nx : forall r, (r < length xs)%nat -> nth r xs [] = x) by (intros r Hr; unfold xs; rewrite Lxs in Hr; apply (seq_rows [] (fun _ => x) _ r Hr)).
  assert (Ny : forall r, (r < length xs)%nat -> nth r ys [] = map (D r) x) by (intros r Hr; unfold ys; rewrite Lxs in Hr; apply (seq_rows [] (fun r => map (D r) x) _ r Hr)).
  destruct (c116_xy splrep quad (length x) n xs ys Ts Cs Ks lo hi) as (e & f & F & E & En & Ename & Ef & EF & Er); auto.
  - destruct x; [congruence|cbn; lia].
  - intros H. rewrite H in Lxs. destruct ss; [congruence|discriminate].
  - intros l Hl. unfold xs in Hl. apply in_seq_rows in Hl. destruct Hl as (r & _ & ->). reflexivity.
  - intros l Hl. unfold ys in Hl. apply in_seq_rows in Hl. destruct Hl as (r & _ & ->). apply map_length.
  - intros r Hr. rewrite Nx, Ny by exact Hr. apply HI. lia.
  - intros r Hr. apply Hn. lia.
  - split; [apply Hin; exact Hlo1|intros v Hv; apply Hlo2, Hin, Hv].
  - split; [apply Hin; exact Hhi1|intros v Hv; apply Hhi2, Hin, Hv].
  - intros r Hr. apply HI0. lia.
  - rewrite Lxs in *. exists (mkens (spline_from_samples splrep quad kde) (e_obj e) (e_ancil e) (e_gridded e)), f, F.
    split. { unfold ens_new in *. rewrite (samples_xy splrep quad kde w x ss D Hne Hw HD). fold xs ys. destruct (spline_from_xy _ _ _) as [g|]; [|discriminate]. cbn [bind check_array_shapes] in *. injection E as <-. reflexivity. }
    split; [exact En|]. split; [exact Ename|]. split; [exact Ef|]. split; [exact EF|]. intros r Hr. destruct (Er r Hr) as ((I & I0 & I1 & I2) & Er').
    split; [|exact Er']. exists I. split; [exact I0|]. split; [exact I1|]. intros i Hi. specialize (I2 i Hi). rewrite Nx, Ny in I2 by exact Hr. rewrite I2.
    unfold nth0. rewrite (nth_map_in (D r) x i n0 n0 Hi). reflexivity.
Qed.
(** arrays of different shapes are refused *)
Lemma c116_shapes : forall splrep quad (xv yv : nd R), shp xv <> shp yv -> ens_new (spline_from_xy splrep quad) [("xvals", VArr xv); ("yvals", VArr yv)] None = Err ValueError.
Proof.
  intros splrep quad xv yv H. unfold ens_new, spline_from_xy. cbn [known forallb map fst existsb String.eqb Ascii.eqb Bool.eqb orb andb negb arg vget dget bind as_numbers].
  unfold build_normed_splines. destruct (list_eq_dec Nat.eq_dec (shp xv) (shp yv)) as [E|_]; [contradiction|]. reflexivity.
Qed.
