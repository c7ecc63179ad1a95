(** The probability integral transform (C44, C102). *)
From Coq Require Import String List Arith ZArith Bool Lia Reals Lra Sorted Permutation.
From Verif Require Import Num NumProofs Py NdArray NumpyLib Utils ScipyWrap Spec Values Ensemble Classes QuantPdf
  SortProofs EvalProofs EvalTheorems InterpProofs NdProofs HistTheorems QuantTheorems MixmodTheorems Kinds KindProofs EnsembleProofs KindInputs ReachProofs EnsembleTheorems RowProofs
  IntegrateTheorems ConvertTheorems BrierProofs MatrixTheorems MetricsProofs MetricsTheorems Fit FitProofs FitTheorems PointMetrics PointProofs PointTheorems Pit.
Import ListNotations.
Local Open Scope string_scope.
Local Open Scope list_scope.
Local Open Scope R_scope.

(** ** The samples *)
Lemma column_matrix (t : list R) : t <> [] -> matrix_of (map (fun x => [x]) t) 1.
Proof. intros H. split; [lia|]. split; [destruct t; [congruence|discriminate]|]. intros l Hl. apply in_map_iff in Hl. destruct Hl as (x & <- & _). reflexivity. Qed.
Lemma squeeze_many (f : nat -> xnum R) n : (2 <= n)%nat -> squeeze_column (map (fun r => [f r]) (seq 0 n)) = Ok (map f (seq 0 n)).
Proof.
  intros Hn. destruct n as [|[|n]]; try lia. cbn [seq map squeeze_column]. set (l := seq 2 n).
  replace (forallb _ _) with true.
  - cbn [concat app]. do 3 f_equal. induction l as [|a l IH]; cbn; [reflexivity|]. f_equal. exact IH.
  - symmetry. apply forallb_forall. intros x [<-|[<-|Hx]]; try reflexivity. apply in_map_iff in Hx. destruct Hx as (r & <- & _). reflexivity.
Qed.
Lemma pit_samples_eq : forall X e n F truth, fill_outside X -> has_cdf X e n F -> (2 <= n)%nat -> length truth = n ->
  gather_pit_samples e truth = Ok (map (fun r => F r (nth r truth 0)) (seq 0 n)).
Proof.
  intros X e n F truth HX He Hn Hl. destruct (has_cdf_numbers X e n F HX He) as (M & HM & Hin & En & Hv).
  assert (Ht : truth <> []) by (destruct truth; [cbn in Hl; lia|discriminate]). unfold gather_pit_samples.
  assert (G : forall A (x y : A), match truth with [] => x | _ => y end = y) by (intros; destruct truth; [congruence|reflexivity]). rewrite G.
  pose proof (c98_per_pdf X M e MCdf (fin F) (map (fun x => [x]) truth) 1 HX HM Hin Hv (allowed_cdf _) (column_matrix truth Ht)) as E. cbn [evaluate] in E.
  rewrite E; [|rewrite map_length; lia|right; left; reflexivity]. cbn [bind].
  assert (Er : map (fun r => map (fin F r) (nth r (map (fun x => [x]) truth) [])) (seq 0 (e_npdf e)) = map (fun r => [fin F r (nth r truth 0)]) (seq 0 n)).
  { rewrite En. apply map_ext_in. intros r Hr. apply in_seq in Hr. rewrite (nth_map_in (fun x => [x]) truth r [] 0) by lia. reflexivity. }
  rewrite Er, (squeeze_many (fun r => fin F r (nth r truth 0))) by exact Hn. cbn [bind]. rewrite map_map. reflexivity.
Qed.
Lemma pit_samples_single : forall X e F truth, fill_outside X -> has_cdf X e 1 F -> (2 <= length truth)%nat ->
  gather_pit_samples e truth = Ok (map (F 0%nat) truth).
Proof.
  intros X e F truth HX He Hl. destruct (has_cdf_numbers X e 1 F HX He) as (M & HM & Hin & En & Hv).
  assert (Ht : truth <> []) by (destruct truth; [cbn in Hl; lia|discriminate]). unfold gather_pit_samples.
  assert (G : forall A (x y : A), match truth with [] => x | _ => y end = y) by (intros; destruct truth; [congruence|reflexivity]). rewrite G.
  pose proof (c98_single X M e MCdf (fin F) (map (fun x => [x]) truth) 1 HX HM Hin Hv (allowed_cdf _) (column_matrix truth Ht) En) as E. cbn [evaluate] in E. rewrite E. cbn [bind].
  rewrite map_map. cbn [map]. rewrite (map_rows (fun d => d) truth) in * || idtac.
  replace (map (fun x => [fin F 0 x]) truth) with (map (fun r => [fin F 0%nat (nth r truth 0)]) (seq 0 (length truth))).
  2:{ rewrite <- (map_map (fun r => nth r truth 0) (fun x => [fin F 0%nat x])). f_equal. clear. induction truth as [|a t IH]; [reflexivity|]. cbn [length seq map nth]. f_equal. rewrite <- seq_shift, map_map. exact IH. }
  rewrite (squeeze_many (fun r => fin F 0%nat (nth r truth 0))) by exact Hl. cbn [bind]. rewrite map_map. unfold fin.
  rewrite <- (map_map (fun r => nth r truth 0) (F 0%nat)). do 2 f_equal. clear. induction truth as [|a t IH]; [reflexivity|]. cbn [length seq map nth]. f_equal. rewrite <- seq_shift, map_map. exact IH.
Qed.
Lemma c102_one : forall X e F t grid create, fill_outside X -> has_cdf X e 1 F -> pit_new create e [t] grid = Err TypeError.
Proof.
  intros X e F t grid create HX He. destruct (has_cdf_numbers X e 1 F HX He) as (M & HM & Hin & En & Hv). unfold pit_new, gather_pit_samples. cbn [map].
  pose proof (c98_single X M e MCdf (fin F) [[t]] 1 HX HM Hin Hv (allowed_cdf _) (column_matrix [t] ltac:(discriminate)) En) as E. cbn [evaluate] in E. rewrite E. reflexivity.
Qed.
Lemma c102_none : forall create (e : ens R) grid, pit_new create e [] grid = Err ValueError.
Proof. reflexivity. Qed.

(** ** The table of quantiles *)
Lemma filter_inc (p : R -> bool) l : increasing l -> increasing (filter p l).
Proof.
  induction 1 as [|a l Hs IH Hf]; [constructor|]. cbn. destruct (p a); [|exact IH]. constructor; [exact IH|].
  rewrite List.Forall_forall in *. intros x Hx. apply filter_In in Hx. apply Hf. tauto.
Qed.
Lemma first_index_spec (v : R) l : In v l -> (first_index v l < length l)%nat /\ nth (first_index v l) l 0 = v /\ forall i, (i < first_index v l)%nat -> nth i l 0 <> v.
Proof.
  induction l as [|x l IH]; intros H; [contradiction|]. cbn [first_index]. destruct (neqb_reflect x v) as [->|Hx].
  - cbn. split; [lia|]. split; [reflexivity|]. intros; lia.
  - destruct H as [->|H]; [contradiction|]. destruct (IH H) as (H1 & H2 & H3). cbn [length nth]. split; [lia|]. split; [exact H2|].
    intros [|i] Hi; [exact Hx|apply H3; lia].
Qed.
Lemma mapM_ok {A B} (f : A -> res B) (g : A -> B) l : (forall a, In a l -> f a = Ok (g a)) -> mapM f l = Ok (map g l).
Proof. induction l as [|a l IH]; intros H; [reflexivity|]. cbn [mapM map]. rewrite (H a (or_introl eq_refl)). cbn [bind]. rewrite IH; [reflexivity|]. intros; apply H; right; assumption. Qed.

(** A grid of probabilities *)
Definition prob_grid (g : list R) : Prop := increasing g /\ forall p, In p g -> 0 <= p <= 1.
(** What the table of [samples] on the grid [g] has to be *)
Definition is_pit_table (samples g qs ls : list R) : Prop :=
  increasing qs /\ increasing ls /\ length qs = length ls /\ (forall v, In v ls -> 0 < v < 1) /\
  (forall i, (i < length ls)%nat -> In (nth i qs 0) g /\ lin_quantile samples (nth i qs 0) (nth i ls 0) /\
     forall p, In p g -> lin_quantile samples p (nth i ls 0) -> nth i qs 0 <= p) /\
  (forall p v, In p g -> lin_quantile samples p v -> 0 < v < 1 -> In v ls).
Lemma pit_grid_ok samples grid : prob_grid grid -> samples <> [] -> prob_grid (pit_grid samples grid).
Proof.
  intros Hg Hs. unfold pit_grid. destruct (Nat.ltb_spec (length samples) (length grid)); [|exact Hg].
  destruct (length samples) as [|[|n]] eqn:E; [destruct samples; [congruence|discriminate]| |].
  - cbn. split; [repeat constructor|]. intros p [<-|[]]. numR. lra.
  - assert (Hinc : increasing (np_linspace 0 1 (S (S n)))) by (apply linspace_inc; lra). split; [exact Hinc|]. intros p Hp.
    apply (In_nth _ _ 0) in Hp. destruct Hp as (i & Hi & <-). rewrite linspace_length in Hi. pose proof (linspace_nth 0 1 n i Hi) as E'. unfold nth0 in E'. numR. rewrite E'.
    assert (Hd : 0 < INR (S n)) by (apply lt_0_INR; lia). assert (Hle : INR i <= INR (S n)) by (apply le_INR; lia). pose proof (pos_INR i).
    assert (0 <= INR i / INR (S n) <= 1). { split; [apply Rmult_le_pos; [lra|left; apply Rinv_0_lt_compat; exact Hd]|]. apply (Rmult_le_reg_r (INR (S n))); [exact Hd|]. unfold Rdiv. rewrite Rmult_assoc, Rinv_l by lra. lra. }
    replace (0 + INR i * ((1 - 0) / INR (S n))) with (INR i / INR (S n)) by (field; lra). lra.
Qed.
Lemma c102_table : forall samples grid, samples <> [] -> prob_grid grid ->
  exists qs ls, pit_table samples grid = Ok (qs, ls) /\ is_pit_table samples (pit_grid samples grid) qs ls.
Proof.
  intros s grid Hs Hg. pose proof (pit_grid_ok s grid Hg Hs) as [Hi Hr]. set (g := pit_grid s grid) in *.
  set (qf := fun p => match np_quantile s p with Ok v => v | Err _ => 0 end).
  assert (Hqf : forall p, 0 <= p <= 1 -> np_quantile s p = Ok (qf p)) by (intros p Hp; unfold qf; destruct (quantile_some s p Hs Hp) as (v & ->); reflexivity).
  assert (Hlin : forall p, 0 <= p <= 1 -> lin_quantile s p (qf p)) by (intros p Hp; apply quantile_lin; auto).
  assert (Huni : forall p v, 0 <= p <= 1 -> lin_quantile s p v -> v = qf p) by (intros p v Hp Hv; apply (lin_quantile_unique s p); auto).
  assert (Hmon : forall p p', 0 <= p -> p <= p' -> p' <= 1 -> qf p <= qf p') by (intros p p' H1 H2 H3; apply (quantile_mono s p p'); auto; apply Hqf; lra).
  unfold pit_table. fold g. rewrite (mapM_ok (np_quantile s) qf g) by (intros p Hp; apply Hqf, Hr; exact Hp). cbn [bind]. eexists. eexists. split; [reflexivity|].
  set (data := map qf g). set (kept := filter (fun v => (nltb n0 v && nltb v n1)%bool) (np_unique data)).
  assert (Hkept : forall v, In v kept <-> In v data /\ 0 < v < 1).
  { intros v. unfold kept. rewrite filter_In, np_unique_in. destruct (nltb_reflect n0 v) as [A|A], (nltb_reflect v n1) as [B|B]; cbn [andb]; numR; split; intros [C D]; split; auto; try discriminate; try lra. }
  assert (Hfirst : forall v, In v kept -> let q := nth0 (first_index v data) g in In q g /\ qf q = v /\ forall p, In p g -> qf p = v -> q <= p).
  { intros v Hv. apply Hkept in Hv. destruct Hv as [Hv _]. destruct (first_index_spec v data Hv) as (H1 & H2 & H3). cbv zeta. set (k := first_index v data) in *. unfold data in H1. rewrite map_length in H1.
    assert (Hd : forall j, (j < length g)%nat -> nth j data 0 = qf (nth j g 0)) by (intros j Hj; exact (nth_map_in qf g j 0 0 Hj)).
    unfold nth0. split; [apply nth_In; exact H1|]. split; [rewrite <- Hd; auto|]. intros p Hp Hq. apply (In_nth _ _ 0) in Hp. destruct Hp as (j & Hj & <-).
    destruct (Nat.lt_ge_cases j k) as [Hjk|Hjk]; [exfalso; apply (H3 j Hjk); rewrite Hd; auto|].
    destruct (Nat.eq_dec j k) as [->|Hne]; [apply Rle_refl|]. left. apply (inc_lt g k j Hi); lia. }
  assert (Hinc : increasing kept) by (apply filter_inc, np_unique_increasing).
  split; [|split; [exact Hinc|split; [apply map_length|split; [intros v Hv; apply Hkept; exact Hv|split]]]].
  - assert (G : forall l, increasing l -> (forall v, In v l -> In v kept) -> increasing (map (fun v => nth0 (first_index v data) g) l)).
    { induction 1 as [|a l Hl IH Hf]; intros Hin; [constructor|]. cbn [map]. constructor; [apply IH; intros; apply Hin; right; assumption|].
      rewrite List.Forall_forall in *. intros q Hq. apply in_map_iff in Hq. destruct Hq as (w & <- & Hw). specialize (Hf w Hw).
      destruct (Hfirst a (Hin a (or_introl eq_refl))) as (A1 & A2 & _). destruct (Hfirst w (Hin w (or_intror Hw))) as (B1 & B2 & _). cbv zeta in *.
      apply Rnot_le_lt. intros C. apply Hr in A1, B1. assert (qf (nth0 (first_index w data) g) <= qf (nth0 (first_index a data) g)) by (apply Hmon; lra). lra. }
    apply G; auto.
  - intros i Hlt. assert (Hv : In (nth i kept 0) kept) by (apply nth_In; exact Hlt). rewrite (nth_map_in (fun v => nth0 (first_index v data) g) kept i 0 0 Hlt).
    destruct (Hfirst _ Hv) as (A1 & A2 & A3). cbv zeta in *. split; [exact A1|]. split.
    + rewrite <- A2 at 2. apply Hlin, Hr. exact A1.
    + intros p Hp Hq. apply A3; [exact Hp|]. symmetry. apply Huni; [apply Hr; exact Hp|exact Hq].
  - intros p v Hp Hv H01. apply Hkept. split; [|exact H01]. apply in_map_iff. exists p. split; [|exact Hp]. symmetry. apply Huni; auto.
Qed.

(** ** The ensemble *)
Definition pit_input (qs ls : list R) : input := IQuant qs [ls] "piecewise_linear".
Lemma pit_dict X qs ls : ens_new (create_of (qp X) "quant") [("quants", VArr (nd1 qs)); ("locs", VArr (nd2 (length ls) [ls]))] None =
  ens_new (create_of (qp X) "quant") [("quants", VArr (nd1 qs)); ("locs", VArr (nd2 (length ls) [ls])); ("pdf_constructor_name", VStr "piecewise_linear")] None.
Proof. unfold ens_new. reflexivity. Qed.
Lemma pit_object X qs ls : quant_input qs [ls] ->
  create_of (qp X) "quant" [("quants", VArr (nd1 qs)); ("locs", VArr (nd2 (length qs) [ls])); ("pdf_constructor_name", VStr "piecewise_linear")] =
  Ok (quant_obj (s_quad X) (s_cubic X) (s_dspline X)
        (mkquant (pad_quants qs) [pad_locs qs ls] (nminimum (nhead (concat [pad_locs qs ls])) (tl (concat [pad_locs qs ls]))) (nmaximum (nhead (concat [pad_locs qs ls])) (tl (concat [pad_locs qs ls]))) "piecewise_linear" true [1%nat])).
Proof.
  intros Hq. pose proof Hq as (_ & H2 & _ & _ & _ & Hr). destruct (Hr ls (or_introl eq_refl)) as [HL _].
  change (create_of (qp X) "quant" ?d) with (quant_create (s_quad X) (s_cubic X) (s_dspline X) d).
  rewrite (quant_create_eq (s_quad X) (s_cubic X) (s_dspline X) qs "piecewise_linear" (nd2 (length qs) [ls]) _).
  - rewrite (quant_build qs [ls] "piecewise_linear" Hq) by (right; right; left; reflexivity). reflexivity.
  - cbn [nd2 dat concat]. rewrite app_nil_r. lia.
  - right; right; right. reflexivity.
Qed.
(** The value reached from [b] at [q2] on the line through ([q1], [a]) and ([q2], [b]) at [q] *)
Definition line_at (q1 a q2 b q : R) : R := a + (b - a) / (q2 - q1) * (q - q1).
Lemma c102_ensemble : forall X e n F truth grid, fill_outside X -> has_cdf X e n F -> (2 <= n)%nat -> length truth = n -> prob_grid grid ->
  (forall p, In p (pit_grid truth grid) -> p = 0 \/ / 2 ^ 52 < p) ->
  let samples := map (fun r => F r (nth r truth 0)) (seq 0 n) in
  exists qs ls, is_pit_table samples (pit_grid truth grid) qs ls /\
    ((2 <= length ls)%nat -> (3 <= length ls)%nat \/ 0 < nth0 0 qs \/ nlast qs < 1 ->
     exists p lo hi, pit_new (create_of (qp X) "quant") e truth grid = Ok (samples, p) /\ made X [MPdf; MCdf; MPpf] p /\ e_npdf p = 1%nat /\
       objdata p = [("locs", VArr (nd2 (length (lo ++ ls ++ hi)) [lo ++ ls ++ hi]))] /\ increasing (lo ++ ls ++ hi) /\
       (nth0 0 qs = 0 -> lo = []) /\ (0 < nth0 0 qs -> lo = [line_at (nth 0 qs 0) (nth 0 ls 0) (nth 1 qs 0) (nth 1 ls 0) 0]) /\
       (nlast qs = 1 -> hi = []) /\
       (nlast qs < 1 -> hi = [line_at (nth (length ls - 2) qs 0) (nth (length ls - 2) ls 0) (nth (length ls - 1) qs 0) (nth (length ls - 1) ls 0) 1])).
Proof.
  intros X e n F truth grid HX He Hn Hl Hg Heps samples. assert (Hs : samples <> []) by (unfold samples; destruct n; [lia|discriminate]).
  assert (HL : length samples = length truth) by (unfold samples; rewrite map_length, seq_length; auto).
  assert (Eg : pit_grid samples grid = pit_grid truth grid) by (unfold pit_grid; rewrite HL; reflexivity).
  destruct (c102_table samples grid Hs Hg) as (qs & ls & Et & Ht). rewrite Eg in Ht. exists qs, ls. split; [exact Ht|]. intros H2 H3.
  pose proof (pit_grid_ok samples grid Hg Hs) as [_ Hr]. rewrite Eg in Hr. destruct Ht as (T1 & T2 & T3 & T4 & T5 & T6).
  assert (Hq0 : In (nth0 0 qs) (pit_grid truth grid)) by (apply (T5 0%nat); lia).
  assert (Hql : In (nlast qs) (pit_grid truth grid)) by (rewrite nlast_nth0; apply T5; lia).
  assert (Heps0 : (float_eps : R) = / 2 ^ 52) by (unfold float_eps; rewrite frac_R; lra).
  assert (Hin : input_ok (pit_input qs ls)).
  { cbn [input_ok pit_input]. split; [|split; [right; right; left; reflexivity|split]].
    - split; [exact T1|]. split; [lia|]. split; [apply Hr in Hq0; lra|]. split; [apply Hr in Hql; lra|]. split; [discriminate|]. intros row [<-|[]]. split; [lia|exact T2].
    - rewrite Heps0. apply Heps. exact Hq0.
    - destruct H3 as [H3|[H3|H3]]; [left; lia|right; left|right; right; exact H3]. rewrite Heps0. destruct (Heps _ Hq0) as [C|C]; [lra|exact C]. }
  destruct (created X (pit_input qs ls) HX Hin) as (p & Ep & Hm & _ & Hsh & _ & Ec). pose proof (proj1 Hin) as Hqi. exists p.
  cbn [input_name pit_input input_dict] in Ep, Ec. rewrite (pit_object X qs ls Hqi) in Ec. injection Ec as Ec.
  assert (Hlq : length ls = length qs) by auto. pose proof Hqi as (Q1 & Q2 & Q3 & Q4 & _).
  exists (if pad_lo qs then [nsub (nth0 0 ls) (ndiv (nmul (nth0 0 qs) (nsub (nth0 1 ls) (nth0 0 ls))) (nsub (nth0 1 qs) (nth0 0 qs)))] else []).
  exists (if pad_hi qs then [nsub (nlast ls) (ndiv (nmul (nsub n1 (nlast qs)) (nsub (last2 ls) (nlast ls))) (nsub (nlast qs) (last2 qs)))] else []).
  split; [|split; [exact Hm|split; [|split; [|split; [|split; [|split; [|split]]]]]]].
  - unfold pit_new. rewrite (pit_samples_eq X e n F truth HX He Hn Hl). cbn [bind]. unfold pit_ensemble. fold samples. rewrite Et. cbn [bind fst snd]. rewrite pit_dict.
    rewrite T3 in Ep. rewrite Ep. reflexivity.
  - unfold e_npdf, g_npdf. rewrite Hsh. reflexivity.
  - unfold objdata. rewrite <- Ec. cbn [quant_obj g_data q_quants q_locs]. rewrite <- (pad_len qs Q2 ls Hlq). reflexivity.
  - exact (pad_locs_inc qs Q1 Q2 ls T2 Hlq).
  - intros E. destruct (pad_lo qs) eqn:Ep'; [|reflexivity]. apply pad_lo_iff in Ep'; auto. pose proof float_eps_pos. lra.
  - intros E. destruct (pad_lo qs) eqn:Ep'.
    + unfold line_at, nth0. numR. f_equal. assert (nth0 0 qs < nth0 1 qs) by (apply inc_lt; auto; lia). unfold nth0 in *. numR. field. lra.
    + exfalso. assert (pad_lo qs = true); [|congruence]. apply pad_lo_iff; auto. rewrite Heps0. destruct (Heps _ Hq0) as [C|C]; [lra|exact C].
  - intros E. destruct (pad_hi qs) eqn:Ep'; [|reflexivity]. apply pad_hi_iff in Ep'; auto. lra.
  - intros E. destruct (pad_hi qs) eqn:Ep'.
    + unfold line_at. rewrite !nlast_nth0. unfold last2. rewrite T3. replace (pred (pred (length ls))) with (length ls - 2)%nat by lia. replace (pred (length ls)) with (length ls - 1)%nat by lia.
      assert (nth0 (length ls - 2) qs < nth0 (length ls - 1) qs) by (apply inc_lt; auto; lia). unfold nth0 in *. numR. f_equal. field. lra.
    + exfalso. assert (pad_hi qs = true); [|congruence]. apply pad_hi_iff; auto.
Qed.
(** Nothing left strictly between 0 and 1: the constructor fails. *)
Lemma c102_empty : forall X e n F truth grid, fill_outside X -> has_cdf X e n F -> (2 <= n)%nat -> length truth = n -> prob_grid grid ->
  (forall r, (r < n)%nat -> F r (nth r truth 0) = 0) \/ (forall r, (r < n)%nat -> F r (nth r truth 0) = 1) ->
  pit_new (create_of (qp X) "quant") e truth grid = Err ValueError.
Proof.
  intros X e n F truth grid HX He Hn Hl Hg H. unfold pit_new. rewrite (pit_samples_eq X e n F truth HX He Hn Hl). cbn [bind]. set (samples := map _ _).
  assert (Hs : samples <> []) by (unfold samples; destruct n; [lia|discriminate]). destruct (c102_table samples grid Hs Hg) as (qs & ls & Et & (_ & _ & T3 & T4 & T5 & _)).
  unfold pit_ensemble. rewrite Et. cbn [bind fst snd]. destruct ls as [|v ls].
  - destruct qs; [|discriminate]. reflexivity.
  - exfalso. destruct (T5 0%nat) as (_ & (s & i & t & Hp & _ & Hi & Ht & Eh & Ev) & _); [cbn; lia|]. pose proof (T4 v (or_introl eq_refl)) as Hv. cbn [nth] in Ev, Eh.
    assert (Hall : exists c, (c = 0 \/ c = 1) /\ forall x, In x s -> x = c).
    { assert (Hin : forall x, In x s -> exists r, (r < n)%nat /\ x = F r (nth r truth 0)).
      { intros x Hx. apply (Permutation_in _ (Permutation_sym Hp)) in Hx. apply in_map_iff in Hx. destruct Hx as (r & <- & Hr). apply in_seq in Hr. exists r. split; [lia|reflexivity]. }
      destruct H as [H|H]; [exists 0|exists 1]; (split; [auto|]); intros x Hx; destruct (Hin x Hx) as (r & Hr & ->); auto. }
    destruct Hall as (c & Hc & Hall). assert (E1 : nth i s 0 = c) by (apply Hall, nth_In; exact Hi).
    destruct (Nat.lt_ge_cases (S i) (length s)) as [Hlt|Hge].
    + assert (E2 : nth (S i) s 0 = c) by (apply Hall, nth_In; exact Hlt). rewrite E1, E2 in Ev. destruct Hc as [->| ->]; lra.
    + assert (t = 0).
      { assert (Hq : In (nth 0 qs 0) (pit_grid samples grid)) by (apply (T5 0%nat); cbn; lia). apply (pit_grid_ok samples grid Hg Hs) in Hq.
        assert (Hi' : INR i = INR (length s) - 1) by (replace (length s) with (S i) by lia; rewrite S_INR; lra). pose proof (pos_INR i).
        assert (nth 0 qs 0 * (INR (length s) - 1) <= 1 * (INR (length s) - 1)) by (apply Rmult_le_compat_r; lra). lra. }
      subst t. rewrite E1 in Ev. destruct Hc as [->| ->]; lra.
Qed.

(** ** Statistics of the samples *)
Definition uniform (x : R) : R := Rmin (Rmax x 0) 1.
Lemma uniform_like : cdf_like uniform.
Proof. unfold uniform. split; [intros x y H|intros x]; unfold Rmin, Rmax; repeat destruct (Rle_dec _ _); lra. Qed.
Lemma uniform_eq (x : R) : uniform_cdf x = uniform x.
Proof. unfold uniform_cdf, nclip, uniform. rewrite nmin_R, nmax_R. reflexivity. Qed.
Lemma c102_ks : forall samples, samples <> [] -> exists D, pit_ks samples = Ok (Fin D) /\ is_ks uniform samples D.
Proof.
  intros s Hs. unfold pit_ks. rewrite (map_ext _ _ uniform_eq). destruct uniform_like as [H1 H2]. apply ks_samples; auto.
Qed.
Lemma c102_cvm : forall samples, (2 <= length samples)%nat -> exists W, pit_cvm samples = Ok (Fin W) /\ is_cvm uniform samples W.
Proof.
  intros s Hs. unfold pit_cvm. destruct (Nat.ltb_spec (length s) 2); [lia|]. rewrite (map_ext _ _ uniform_eq). apply cvm_samples. destruct s; [cbn in Hs; lia|discriminate].
Qed.
Lemma c102_trim : forall (samples : list R) lo hi v, In v (trim_pit_values samples lo hi) <-> In v samples /\ lo <= v <= hi.
Proof.
  intros s lo hi v. unfold trim_pit_values. rewrite filter_In. destruct (nleb_reflect lo v), (nleb_reflect v hi); cbn [andb]; split; intros [A B]; split; auto; try discriminate; try lra.
Qed.

(** ** C44 *)
Lemma c44_samples : forall X e n F truth, fill_outside X -> normal_laws (s_phi X) (s_Phi X) -> has_cdf X e n F -> proper_class e -> (2 <= n)%nat -> length truth = n ->
  exists s, gather_pit_samples e truth = Ok s /\ length s = n /\ forall r, (r < n)%nat -> nth r s 0 = F r (nth r truth 0) /\ 0 <= nth r s 0 <= 1.
Proof.
  intros X e n F truth HX HN He Hq Hn Hl. eexists. split; [apply (pit_samples_eq X e n F truth); auto|]. split; [rewrite map_length, seq_length; reflexivity|].
  intros r Hr. rewrite (map_seq_nth (fun r => F r (nth r truth 0))) by exact Hr. split; [reflexivity|]. apply (reachable_cdf_like X e n F HX HN He Hq r Hr).
Qed.
