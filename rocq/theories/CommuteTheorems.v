(** Conversions treat every PDF by itself: converting commutes with selecting PDFs and with concatenating ensembles (C151). *)
From Coq Require Import String List Arith ZArith Bool Lia Reals Lra.
From Coquelicot Require Import Coquelicot.
From Verif Require Import Num NumProofs Py NdArray NumpyLib Utils ScipyWrap Spec Values Ensemble Classes
  HistPdf InterpPdf QuantPdf MixmodPdf Packing PackedPdf Registry RegistryTheorems Convert
  SortProofs BinProofs EvalProofs NdProofs InterpProofs HistProofs HistTheorems TableProofs InterpPdfProofs GridTheorems IrrTheorems
  QuantTheorems MixmodTheorems PackingTheorems PackedTheorems Voigt Kinds KindProofs EnsembleProofs KindInputs ReachProofs AppendProofs EnsembleTheorems
  RowProofs IntegrateTheorems ConvertTheorems ConvertExamples.
Import ListNotations.
Local Open Scope string_scope.
Local Open Scope list_scope.
Local Open Scope R_scope.

(** The conversions: to a histogram with these bins, to a common grid, to one grid for each PDF *)
Inductive target := ToHist (bins : list R) | ToInterp (xs : list R) | ToIrr (xs : list R).
Definition class_name (t : target) : string := match t with ToHist _ => "hist" | ToInterp _ => "interp" | ToIrr _ => "interp_irregular" end.
Definition grid (t : target) : list R := match t with ToHist l => l | ToInterp l => l | ToIrr l => l end.
Definition keywords (t : target) : vdict R := match t with ToHist l => [("bins", VArr (nd1 l))] | ToInterp l => [("xvals", VArr (nd1 l))] | ToIrr l => [("xvals", VArr (nd1 l))] end.
(** what the conversion evaluates: the cdf for histograms, the density for grids *)
Definition asks (t : target) : method := match t with ToHist _ => MCdf | _ => MPdf end.
Definition curves (m : method) (e : ens R) (F : nat -> R -> R) : Prop := g_shape (e_obj e) = [e_npdf e] /\ computes (evaluate m e) (e_npdf e) F.
(** a curve that gives a PDF of the class *)
Definition suits (t : target) (g : R -> R) : Prop :=
  match t with
  | ToHist bins => (forall x y, x <= y -> g x <= g y) /\ g (nth0 0 bins) < g (nlast bins)
  | ToInterp xs => (forall x, In x xs -> 0 <= g x) /\ 0 < trapezium g xs
  | ToIrr xs => (forall x, In x xs -> 0 <= g x) /\ 0 < right_rule g xs
  end.
Definition usable (t : target) : Prop := increasing (grid t) /\ (2 <= length (grid t))%nat.

(** ** The converted ensemble, line by line *)
Definition given (t : target) (L : list (list R)) : input :=
  match t with
  | ToHist bins => IHist bins (map (fun l => map (fun i => nth0 (S i) l - nth0 i l) (seq 0 (pred (length bins)))) L)
  | ToInterp xs => IInterp xs L
  | ToIrr xs => IIrr (length xs) (map (fun _ => xs) L) L
  end.
Definition line (t : target) (l : list R) : row :=
  match t with
  | ToHist bins => [Nums (hist_norm_row (bin_widths bins) (map (fun i => nth0 (S i) l - nth0 i l) (seq 0 (pred (length bins)))))]
  | ToInterp xs => [Nums (inorm xs l)]
  | ToIrr xs => [Nums xs; Nums (normalize_interp1d_row xs l)]
  end.
Definition tkind (t : target) : kind := match t with ToHist bins => KHist bins | ToInterp xs => KInterp xs | ToIrr xs => KIrr (length xs) end.
Lemma given_rows t L : input_rows (given t L) = map (line t) L.
Proof.
  destruct t; cbn [given input_rows line]; [rewrite map_map; reflexivity|reflexivity|].
  induction L as [|l L IH]; [reflexivity|]. cbn [map map2]. f_equal. exact IH.
Qed.
Lemma given_kind t L : input_kind (given t L) = tkind t.
Proof. destruct t; reflexivity. Qed.
Lemma given_name t L : input_name (given t L) = class_name t.
Proof. destruct t; reflexivity. Qed.
Lemma given_methods t L : input_methods (given t L) = [MPdf; MCdf; MPpf].
Proof. destruct t; reflexivity. Qed.
Lemma tkind_quant t : is_quant (tkind t) = false.
Proof. destruct t; reflexivity. Qed.
Lemma prob_grid F bins n : prob_rows F bins n = map (fun l => map (fun i => nth0 (S i) l - nth0 i l) (seq 0 (pred (length bins)))) (at_grid F bins n).
Proof.
  unfold prob_rows, at_grid. rewrite map_map. apply map_ext. intros r. apply map_ext_in. intros i Hi. apply in_seq in Hi. unfold prob. rewrite !nth0_map by lia. reflexivity.
Qed.
Lemma given_ok t F n : usable t -> (0 < n)%nat -> (forall r, (r < n)%nat -> suits t (F r)) -> KindInputs.input_ok (given t (at_grid F (grid t) n)).
Proof.
  intros [Hs Hn] Hpos H. assert (L : length (at_grid F (grid t) n) = n) by (unfold at_grid; rewrite map_length, seq_length; reflexivity).
  destruct t as [bins|xs|xs]; cbn [given grid suits] in *.
  - rewrite <- prob_grid. apply prob_input; auto; intros r; intros; apply (H r); auto.
  - split; [exact Hs|]. split; [exact Hn|]. split; [destruct (at_grid F xs n); [simpl in L; lia|discriminate]|].
    intros row Hr. apply in_map_iff in Hr. destruct Hr as (r & <- & Hr). apply in_seq in Hr. rewrite map_length. split; [reflexivity|]. destruct (H r ltac:(lia)) as [H0 Ha]. split.
    + intros i Hi. rewrite nth0_map by auto. apply H0, nth_In; auto.
    + rewrite (rsum_ext _ _ (fun i => (nth0 (S i) xs - nth0 i xs) * (F r (nth0 i xs) + F r (nth0 (S i) xs)) / 2)); [exact Ha|]. intros i Hi. rewrite !nth0_map by lia. reflexivity.
  - set (yr := at_grid F xs n) in *. set (xr := map (fun _ => xs) yr).
    assert (Lx : length xr = n) by (unfold xr; rewrite map_length; exact L).
    split; [exact Hn|]. split; [destruct xr; [simpl in Lx; lia|discriminate]|]. split; [congruence|]. split; [|split].
    + intros l Hl. apply in_map_iff in Hl. destruct Hl as (r & <- & _). auto.
    + intros l Hl. apply in_map_iff in Hl. destruct Hl as (r & <- & Hr). apply in_seq in Hr. split; [apply map_length|].
      intros i Hi. rewrite nth0_map by auto. apply (H r); [lia|apply nth_In; auto].
    + rewrite Lx. intros r Hr. destruct (H r Hr) as [_ Ha]. unfold at2. unfold xr. rewrite (nth_map_in (fun _ => xs) yr r [] []) by lia. unfold yr. rewrite at_grid_nth by auto.
      unfold right_rule in Ha. rewrite (rsum_ext _ _ (fun i => (nth0 (S i) xs - nth0 i xs) * F r (nth0 (S i) xs))); [exact Ha|]. intros i Hi. rewrite nth0_map by lia. reflexivity.
Qed.
Lemma conv_target X hs mf xy t e F : usable t -> (0 < e_npdf e)%nat -> curves (asks t) e F ->
  factory_convert (QH X hs mf xy) (QW X hs mf xy) e (class_name t) (keywords t) =
  ens_new (create_of (qp X) (class_name t)) (input_dict (given t (at_grid F (grid t) (e_npdf e)))) None.
Proof.
  intros [Hs Hn] Hpos [Hsh HF]. destruct t as [bins|xs|xs]; cbn [class_name keywords grid asks given] in *.
  - assert (Hsrc : source e (e_npdf e) F) by (split; [exact Hpos|split; [exact Hsh|exact HF]]). assert (Hne : bins <> []) by (destruct bins; [simpl in Hn; lia|discriminate]).
    rewrite conv_hist, (extract_hist e (e_npdf e) F bins Hsrc Hs Hne), prob_grid. reflexivity.
  - rewrite conv_interp, (extract_vals e (e_npdf e) F xs) by (auto; exact HF). reflexivity.
  - assert (Hd : densities e (e_npdf e) F) by (split; [exact Hpos|split; [exact Hsh|exact HF]]).
    rewrite conv_irr, (extract_xy e (e_npdf e) F xs Hd Hs). cbn [bind]. unfold at_grid. rewrite map_map. reflexivity.
Qed.
Lemma no_ancil (C : vdict R -> res (gobj R)) d e : ens_new C d None = Ok e -> e_ancil e = None.
Proof. unfold ens_new. destruct (C d); [|discriminate]. cbn [bind]. intros E. injection E as <-. reflexivity. Qed.
Lemma converted X hs mf xy t e F : fill_outside X -> usable t -> (0 < e_npdf e)%nat -> curves (asks t) e F -> (forall r, (r < e_npdf e)%nat -> suits t (F r)) ->
  exists e', factory_convert (QH X hs mf xy) (QW X hs mf xy) e (class_name t) (keywords t) = Ok e' /\ made X [MPdf; MCdf; MPpf] e' /\
    represents_in X (tkind t) (map (line t) (at_grid F (grid t) (e_npdf e))) e' /\ e_npdf e' = e_npdf e /\ e_ancil e' = None.
Proof.
  intros HX Ht Hpos HF H. pose proof (given_ok t F (e_npdf e) Ht Hpos H) as Hok. destruct (created X _ HX Hok) as (e' & E & Hm & HD & _).
  rewrite given_name in E. rewrite given_methods in Hm. rewrite given_kind, given_rows in HD. exists e'.
  split; [rewrite (conv_target X hs mf xy t e F) by auto; exact E|]. split; [exact Hm|]. split; [exact HD|].
  split; [rewrite (rep_npdf' X _ _ _ HD), map_length; unfold at_grid; rewrite map_length, seq_length; reflexivity|exact (no_ancil _ _ _ E)].
Qed.
(** Two ways to the same lines *)
Lemma same_lines X hs mf xy t e F b : fill_outside X -> usable t -> (0 < e_npdf e)%nat -> curves (asks t) e F -> (forall r, (r < e_npdf e)%nat -> suits t (F r)) ->
  represents_in X (tkind t) (map (line t) (at_grid F (grid t) (e_npdf e))) b ->
  exists e', factory_convert (QH X hs mf xy) (QW X hs mf xy) e (class_name t) (keywords t) = Ok e' /\ identical e' b.
Proof.
  intros HX Ht Hpos HF H HD. pose proof (given_ok t F (e_npdf e) Ht Hpos H) as Hok.
  destruct (same_rows X _ _ b (given t (at_grid F (grid t) (e_npdf e))) HX HD (tkind_quant t) Hok (given_kind _ _) (given_rows _ _)) as (e' & E & _ & Hi).
  exists e'. split; [|exact Hi]. rewrite (conv_target X hs mf xy t e F) by auto. rewrite given_name in E. exact E.
Qed.
Lemma picked_lines (G : nat -> list R) n ps : (forall p, In p ps -> (p < n)%nat) -> select [] (map G (seq 0 n)) ps = map (fun r => G (nth r ps 0%nat)) (seq 0 (length ps)).
Proof.
  intros H. unfold select. apply (nth_ext _ _ [] []); [rewrite !map_length, seq_length; reflexivity|]. intros j Hj. rewrite map_length in Hj.
  rewrite (nth_map_in _ ps j _ 0%nat) by auto. rewrite (nth_map_in _ (seq 0 (length ps)) j _ 0%nat) by (rewrite seq_length; auto). rewrite seq_nth by auto. cbn [Nat.add].
  assert (Hp : (nth j ps 0 < n)%nat) by (apply H, nth_In; auto). rewrite (nth_map_in _ (seq 0 n) _ _ 0%nat) by (rewrite seq_length; auto). rewrite seq_nth by auto. reflexivity.
Qed.
(** C151: the curves of the selected PDFs *)
Lemma picked_curves X M e key ps s m F part : fill_outside X -> made X M e -> picks (e_npdf e) key ps -> ps <> [] -> has_ancil e s -> (is_int key = true -> anc_plain s) ->
  In m M -> curves m e F -> getitem (qp X) e key = Ok part -> e_npdf part = length ps /\ made X M part /\ curves m part (fun r => F (nth r ps 0%nat)).
Proof.
  intros HX He Hp Hne Ha Hi Hm [Hsh [HF1 HF2]] E. destruct (c21_slice X M e key ps s HX He Hp Hne Ha Hi) as (e' & E' & He' & Hn & _ & Hev & _).
  rewrite E in E'. injection E' as <-. pose proof (made_shape X M part HX He') as [Hsh' _]. split; [exact Hn|]. split; [exact He'|].
  pose proof (proj2 (picks_iff _ _ _) Hp) as Hk. assert (Hlt : forall p, In p ps -> (p < e_npdf e)%nat) by (intros p Hin; eapply key_positions_lt; eauto).
  split; [exact Hsh'|]. rewrite Hn. split.
  - intros x. destruct (Hev m (PScalar x) Hm I) as (t & Et & _ & Es). rewrite HF1 in Et. injection Et as <-. rewrite Es. f_equal. unfold select. apply (nth_ext _ _ [] []); [rewrite !map_length, seq_length; reflexivity|]. intros j Hj. rewrite map_length in Hj.
    rewrite (nth_map_in _ ps j _ 0%nat) by auto. rewrite (nth_map_in _ (seq 0 (length ps)) j _ 0%nat) by (rewrite seq_length; auto). rewrite seq_nth by auto. cbn [Nat.add].
    assert (Hq : (nth j ps 0 < e_npdf e)%nat) by (apply Hlt, nth_In; auto). rewrite (nth_map_in _ (seq 0 (e_npdf e)) _ _ 0%nat) by (rewrite seq_length; auto). rewrite seq_nth by auto. reflexivity.
  - intros l Hl. destruct (Hev m (PGrid l) Hm Hl) as (t & Et & _ & Es). rewrite HF2 in Et by exact Hl. unfold table in Et. injection Et as <-. rewrite Es. unfold table. f_equal. unfold select. apply (nth_ext _ _ [] []); [rewrite !map_length, seq_length; reflexivity|]. intros j Hj. rewrite map_length in Hj.
    rewrite (nth_map_in _ ps j _ 0%nat) by auto. rewrite (nth_map_in _ (seq 0 (length ps)) j _ 0%nat) by (rewrite seq_length; auto). rewrite seq_nth by auto. cbn [Nat.add].
    assert (Hq : (nth j ps 0 < e_npdf e)%nat) by (apply Hlt, nth_In; auto). rewrite (nth_map_in _ (seq 0 (e_npdf e)) _ _ 0%nat) by (rewrite seq_length; auto). rewrite seq_nth by auto. reflexivity.
Qed.
Lemma c151_select : forall X hs mf xy M e key ps s t F, fill_outside X -> made X M e -> picks (e_npdf e) key ps -> ps <> [] -> has_ancil e s -> (is_int key = true -> anc_plain s) ->
  usable t -> In (asks t) M -> curves (asks t) e F -> (forall r, (r < e_npdf e)%nat -> suits t (F r)) ->
  exists part converted_part whole part_of_whole,
    getitem (qp X) e key = Ok part /\ factory_convert (QH X hs mf xy) (QW X hs mf xy) part (class_name t) (keywords t) = Ok converted_part /\
    factory_convert (QH X hs mf xy) (QW X hs mf xy) e (class_name t) (keywords t) = Ok whole /\ getitem (qp X) whole key = Ok part_of_whole /\
    identical converted_part part_of_whole.
Proof.
  intros X hs mf xy M e key ps s t F HX He Hp Hne Ha Hi Ht Hm HF Hsuit. destruct (c21_slice X M e key ps s HX He Hp Hne Ha Hi) as (part & E & _).
  destruct (picked_curves X M e key ps s (asks t) F part HX He Hp Hne Ha Hi Hm HF E) as (Hn & He' & HF').
  pose proof (made_shape X M e HX He) as [_ Hpos]. pose proof (made_shape X M part HX He') as [_ Hpos'].
  destruct (converted X hs mf xy t e F HX Ht Hpos HF Hsuit) as (whole & Ew & Hw & HD & Hnw & Haw).
  pose proof (proj2 (picks_iff _ _ _) Hp) as Hk. assert (Hlt : forall p, In p ps -> (p < e_npdf e)%nat) by (intros p Hin; eapply key_positions_lt; eauto).
  rewrite <- Hnw, (rep_npdf' X _ _ _ HD) in Hk.
  destruct (getitem_rep (s_phi X) (s_Phi X) (s_quad X) (s_cubic X) (s_dspline X) (s_Phinv X) HX _ _ whole key ps None HD Hk Hne Haw I ltac:(intros _; exact I)) as (b & Eb & HDb & _).
  assert (EL : select [] (map (line t) (at_grid F (grid t) (e_npdf e))) ps = map (line t) (at_grid (fun r => F (nth r ps 0%nat)) (grid t) (length ps))).
  { etransitivity; [symmetry; apply (map_select (line t) ([] : list R) ([] : row)); intros p Hin; unfold at_grid; rewrite map_length, seq_length; auto|].
    f_equal. unfold at_grid. apply picked_lines. exact Hlt. }
  destruct (same_lines X hs mf xy t part _ b HX Ht Hpos' HF') as (a & Ea & Hab).
  - intros r Hr. apply Hsuit, Hlt, nth_In. rewrite <- Hn. exact Hr.
  - rewrite Hn, <- EL. exact HDb.
  - exists part, a, whole, b. auto.
Qed.

(** ** Concatenation *)
Lemma by_position {A B} (h : A -> B) (d : A) l : map (fun r => h (nth r l d)) (seq 0 (length l)) = map h l.
Proof.
  apply (nth_ext _ _ (h d) (h d)); [rewrite !map_length, seq_length; reflexivity|]. intros j Hj. rewrite map_length, seq_length in Hj.
  rewrite (nth_map_in _ (seq 0 (length l)) j _ 0%nat) by (rewrite seq_length; auto). rewrite seq_nth by auto. rewrite map_nth. reflexivity.
Qed.
Lemma all_parts X hs mf xy M t es : fill_outside X -> usable t -> (forall e, In e es -> made X M e) ->
  (forall e, In e es -> exists F, curves (asks t) e F /\ forall r, (r < e_npdf e)%nat -> suits t (F r)) ->
  exists (Cs : list (R -> R)) parts Ds, length Cs = total es /\ (forall g, In g Cs -> suits t g) /\
    (forall x ts, Forall2 (fun e tb => evaluate (asks t) e (PScalar x) = Ok tb /\ length tb = e_npdf e) es ts -> concat ts = map (fun g : R -> R => [Fin (g x)]) Cs) /\
    (forall l ts, increasing l -> Forall2 (fun e tb => evaluate (asks t) e (PGrid l) = Ok tb /\ length tb = e_npdf e) es ts -> concat ts = map (fun g : R -> R => map (fun x => Fin (g x)) l) Cs) /\
    Forall2 (fun e p => factory_convert (QH X hs mf xy) (QW X hs mf xy) e (class_name t) (keywords t) = Ok p) es parts /\
    Forall2 (represents_in X (tkind t)) Ds parts /\ concat Ds = map (fun g => line t (map g (grid t))) Cs /\ (forall p, In p parts -> e_ancil p = None).
Proof.
  intros HX Ht. induction es as [|e es IH]; intros Hm H.
  - exists [], [], []. split; [reflexivity|]. split; [intros g []|]. split; [intros x ts Hts; inversion Hts; reflexivity|]. split; [intros l ts _ Hts; inversion Hts; reflexivity|].
    split; [constructor|]. split; [constructor|]. split; [reflexivity|intros p []].
  - destruct IH as (Cs & parts & Ds & HL & HC & H1 & H2 & HP & HR & HE & HA); [intros; apply Hm; right; auto|intros; apply H; right; auto|].
    destruct (H e (or_introl eq_refl)) as (F & HF & Hs). pose proof (made_shape X M e HX (Hm e (or_introl eq_refl))) as [_ Hpos].
    destruct (converted X hs mf xy t e F HX Ht Hpos HF Hs) as (p & Ep & _ & HD & _ & Ha). pose proof HF as [_ [F1 F2]].
    exists (map F (seq 0 (e_npdf e)) ++ Cs), (p :: parts), (map (line t) (at_grid F (grid t) (e_npdf e)) :: Ds).
    split; [rewrite app_length, map_length, seq_length, HL; reflexivity|].
    split. { intros g Hg. apply in_app_iff in Hg. destruct Hg as [Hg|Hg]; [|auto]. apply in_map_iff in Hg. destruct Hg as (r & <- & Hr). apply in_seq in Hr. apply Hs. lia. }
    split. { intros x ts Hts. inversion Hts as [|? tb ? ts' [E _] Hts']; subst. rewrite F1 in E. injection E as <-. cbn [concat]. rewrite map_app, map_map, (H1 x ts' Hts'). reflexivity. }
    split. { intros l ts Hl Hts. inversion Hts as [|? tb ? ts' [E _] Hts']; subst. rewrite F2 in E by exact Hl. unfold table in E. injection E as <-. cbn [concat]. rewrite map_app, map_map, (H2 l ts' Hl Hts'). reflexivity. }
    split; [constructor; auto|]. split; [constructor; auto|].
    split. { cbn [concat]. rewrite HE, map_app. f_equal. unfold at_grid. rewrite !map_map. reflexivity. }
    intros q [<-|Hq]; auto.
Qed.
Lemma c151_concatenate : forall X hs mf xy M es joint t, fill_outside X -> joinable X M es -> es <> [] -> joined X M es joint ->
  usable t -> In (asks t) M -> (forall e, In e es -> exists F, curves (asks t) e F /\ forall r, (r < e_npdf e)%nat -> suits t (F r)) ->
  exists parts whole together,
    Forall2 (fun e p => factory_convert (QH X hs mf xy) (QW X hs mf xy) e (class_name t) (keywords t) = Ok p) es parts /\
    factory_convert (QH X hs mf xy) (QW X hs mf xy) joint (class_name t) (keywords t) = Ok whole /\
    concatenate parts = Ok (Some together) /\ identical whole together.
Proof.
  intros X hs mf xy M es joint t HX [J1 _] Hne (Hj & Hn & _ & Hev) Ht Hm H.
  destruct (all_parts X hs mf xy M t es HX Ht J1 H) as (Cs & parts & Ds & HL & HC & H1 & H2 & HP & HR & HE & HA).
  assert (Hp : parts <> []) by (destruct HP; [congruence|discriminate]).
  destruct (concatenate_rep_none (s_phi X) (s_Phi X) (s_quad X) (s_cubic X) (s_dspline X) (s_Phinv X) HX (tkind t) Ds parts Hp HR) as (b & Eb & HDb & _).
  { destruct parts as [|p ps]; [congruence|]. exists p. split; [left; reflexivity|apply HA; left; reflexivity]. }
  pose proof (made_shape X M joint HX Hj) as [Hsh Hpos]. set (F := fun r => nth r Cs (fun _ => 0)).
  assert (HF : curves (asks t) joint F).
  { split; [exact Hsh|]. rewrite Hn, <- HL. split.
    - intros x. destruct (Hev (asks t) (PScalar x) Hm I) as (ts & Hts & E). rewrite E, (H1 x ts Hts). f_equal. unfold F. symmetry. apply (by_position (fun g : R -> R => [Fin (g x)])).
    - intros l Hl. destruct (Hev (asks t) (PGrid l) Hm Hl) as (ts & Hts & E). rewrite E, (H2 l ts Hl Hts). unfold table. f_equal. unfold F. symmetry. apply (by_position (fun g : R -> R => map (fun x => Fin (g x)) l)). }
  assert (EL : concat Ds = map (line t) (at_grid F (grid t) (e_npdf joint))).
  { rewrite HE, Hn, <- HL. unfold at_grid, F. rewrite map_map. symmetry. apply (by_position (fun g : R -> R => line t (map g (grid t)))). }
  rewrite EL in HDb.
  destruct (same_lines X hs mf xy t joint F b HX Ht Hpos HF) as (whole & Ew & Hi); [|exact HDb|].
  - intros r Hr. apply HC, nth_In. rewrite HL, <- Hn. exact Hr.
  - exists parts, whole, b. auto.
Qed.

(** ** Quantile tables *)
Lemma quants_ok (Q : nat -> R -> R) qs n : (0 < n)%nat -> increasing qs -> (2 <= length qs)%nat -> inside qs -> / 2 ^ 52 < nth0 0 qs -> (forall r, (r < n)%nat -> increasing (map (Q r) qs)) ->
  KindInputs.input_ok (IQuant qs (at_grid Q qs n) "piecewise_linear").
Proof.
  intros Hpos Hs Hn Hins He Hinc. set (rows := at_grid Q qs n).
  assert (L : length rows = n) by (unfold rows, at_grid; rewrite map_length, seq_length; reflexivity).
  assert (H0 : 0 < nth0 0 qs < 1) by (apply Hins; apply nth_In; lia).
  assert (H1 : 0 < nlast qs < 1) by (rewrite IntegrateTheorems.nlast_nth0; apply Hins; apply nth_In; lia).
  split; [|split; [vm_compute; tauto|rewrite float_eps_R; split; [right; exact He|right; left; exact He]]].
  split; [exact Hs|]. split; [exact Hn|]. split; [lra|]. split; [lra|]. split; [destruct rows; [simpl in L; lia|discriminate]|].
  intros row Hr. apply in_map_iff in Hr. destruct Hr as (r & <- & Hr). apply in_seq in Hr. split; [apply map_length|apply Hinc; lia].
Qed.
(** [b] answers as [a]; the quantiles for single numbers and increasing lists *)
Definition alike (a b : ens R) : Prop :=
  g_name (e_obj a) = g_name (e_obj b) /\ g_shape (e_obj a) = g_shape (e_obj b) /\ metadata a = metadata b /\ objdata a = objdata b /\
  (forall x, ens_pdf a x = ens_pdf b x) /\ (forall x, ens_cdf a x = ens_cdf b x) /\ (forall x, on_points x -> ens_ppf a x = ens_ppf b x).
Lemma alike_rows X k D a b : represents_in X k D a -> represents_in X k D b -> In MPpf (methods k) -> alike a b.
Proof.
  intros Ha Hb Hm. pose proof Ha as (_ & _ & _ & (_ & (g & Eg & Sg)) & (A1 & A2 & A3 & A4 & _)). pose proof Hb as (_ & _ & _ & (_ & (g' & Eg' & Sg')) & (B1 & B2 & B3 & B4 & _)).
  rewrite Eg in Eg'. injection Eg' as <-. split; [congruence|]. split; [congruence|]. split; [unfold metadata; congruence|]. split; [unfold objdata; congruence|].
  split; [|split].
  - intros x. transitivity (g_eval MPdf g x); [symmetry|]; [apply (Sg MPdf x)|apply (Sg' MPdf x)]; discriminate.
  - intros x. transitivity (g_eval MCdf g x); [symmetry|]; [apply (Sg MCdf x)|apply (Sg' MCdf x)]; discriminate.
  - intros x Hx. change (evaluate MPpf a x = evaluate MPpf b x). rewrite (rep_answers X k D a MPpf x Ha Hm Hx), (rep_answers X k D b MPpf x Hb Hm Hx). reflexivity.
Qed.
Lemma to_quantiles X hs mf xy e Q qs : fill_outside X -> quantiles e (e_npdf e) Q -> increasing qs -> (2 <= length qs)%nat -> inside qs -> / 2 ^ 52 < nth0 0 qs ->
  (forall r, (r < e_npdf e)%nat -> increasing (map (Q r) qs)) ->
  exists e', factory_convert (QH X hs mf xy) (QW X hs mf xy) e "quant" [("quants", VArr (nd1 qs))] = Ok e' /\ e_ancil e' = None /\ e_npdf e' = e_npdf e /\
    represents_in X (KQuant (pad_quants qs) "piecewise_linear") (map (fun l => [Nums (pad_locs qs l)]) (at_grid Q qs (e_npdf e))) e'.
Proof.
  intros HX Hq Hs Hn Hins He Hinc. pose proof Hq as (Hpos & _). pose proof (quants_ok Q qs (e_npdf e) Hpos Hs Hn Hins He Hinc) as Hok.
  destruct (created X _ HX Hok) as (e' & E & Hm & HD & _). exists e'. split; [rewrite conv_quant, (extract_quants e (e_npdf e) Q qs Hq Hs Hins); cbn [bind]; rewrite <- E; reflexivity|].
  split; [exact (no_ancil _ _ _ E)|]. split; [|exact HD]. rewrite (rep_npdf' X _ _ _ HD). cbn [input_rows]. rewrite map_length. unfold at_grid. rewrite map_length, seq_length. reflexivity.
Qed.
Lemma c151_quantiles : forall X hs mf xy M e key ps s Q qs, fill_outside X -> made X M e -> picks (e_npdf e) key ps -> ps <> [] -> has_ancil e s -> (is_int key = true -> anc_plain s) ->
  In MPpf M -> quantiles e (e_npdf e) Q -> increasing qs -> (2 <= length qs)%nat -> inside qs -> / 2 ^ 52 < nth0 0 qs -> (forall r, (r < e_npdf e)%nat -> increasing (map (Q r) qs)) ->
  exists part converted_part whole part_of_whole,
    getitem (qp X) e key = Ok part /\ factory_convert (QH X hs mf xy) (QW X hs mf xy) part "quant" [("quants", VArr (nd1 qs))] = Ok converted_part /\
    factory_convert (QH X hs mf xy) (QW X hs mf xy) e "quant" [("quants", VArr (nd1 qs))] = Ok whole /\ getitem (qp X) whole key = Ok part_of_whole /\
    alike converted_part part_of_whole.
Proof.
  intros X hs mf xy M e key ps s Q qs HX He Hp Hne Ha Hi Hm HQ Hs Hn Hins Heps Hinc. destruct (c21_slice X M e key ps s HX He Hp Hne Ha Hi) as (part & E & He' & Hnp & _ & Hev & _).
  pose proof (made_shape X M part HX He') as [Hsh' Hpos'].
  pose proof (proj2 (picks_iff _ _ _) Hp) as Hk. assert (Hlt : forall p, In p ps -> (p < e_npdf e)%nat) by (intros p Hin; eapply key_positions_lt; eauto).
  assert (HQ' : quantiles part (e_npdf part) (fun r => Q (nth r ps 0%nat))).
  { split; [exact Hpos'|]. split; [exact Hsh'|]. intros l Hl Hil. destruct (Hev MPpf (PGrid l) Hm Hl) as (tb & Et & _ & Es). change (ens_ppf e (PGrid l) = Ok tb) in Et. change (ens_ppf part (PGrid l) = Ok (select [] tb ps)) in Es.
    destruct HQ as (_ & _ & HQ). rewrite HQ in Et by auto. unfold table in Et. injection Et as <-. rewrite Es, Hnp. unfold table. f_equal. unfold select. apply (nth_ext _ _ [] []); [rewrite !map_length, seq_length; reflexivity|]. intros j Hj. rewrite map_length in Hj.
    rewrite (nth_map_in _ ps j _ 0%nat) by auto. rewrite (nth_map_in _ (seq 0 (length ps)) j _ 0%nat) by (rewrite seq_length; auto). rewrite seq_nth by auto. cbn [Nat.add].
    assert (Hq : (nth j ps 0 < e_npdf e)%nat) by (apply Hlt, nth_In; auto). rewrite (nth_map_in _ (seq 0 (e_npdf e)) _ _ 0%nat) by (rewrite seq_length; auto). rewrite seq_nth by auto. reflexivity. }
  destruct (to_quantiles X hs mf xy e Q qs HX HQ Hs Hn Hins Heps Hinc) as (whole & Ew & Haw & Hnw & HD).
  destruct (to_quantiles X hs mf xy part _ qs HX HQ' Hs Hn Hins Heps) as (a & Ea & _ & _ & HDa).
  { intros r Hr. apply Hinc, Hlt, nth_In. rewrite <- Hnp. exact Hr. }
  rewrite <- Hnw, (rep_npdf' X _ _ _ HD) in Hk.
  destruct (getitem_rep (s_phi X) (s_Phi X) (s_quad X) (s_cubic X) (s_dspline X) (s_Phinv X) HX _ _ whole key ps None HD Hk Hne Haw I ltac:(intros _; exact I)) as (b & Eb & HDb & _).
  assert (EL : select [] (map (fun l => [Nums (pad_locs qs l)] : row) (at_grid Q qs (e_npdf e))) ps = map (fun l => [Nums (pad_locs qs l)] : row) (at_grid (fun r => Q (nth r ps 0%nat)) qs (e_npdf part))).
  { etransitivity; [symmetry; apply (map_select (fun l => [Nums (pad_locs qs l)] : row) ([] : list R) ([] : row)); intros p Hin; unfold at_grid; rewrite map_length, seq_length; auto|].
    f_equal. unfold at_grid. rewrite Hnp. apply picked_lines. exact Hlt. }
  exists part, a, whole, b. do 4 (split; [assumption|]). apply (alike_rows X _ _ a b HDa); [exact (eq_ind _ (fun D => represents_in X _ D b) HDb _ EL)|]. vm_compute. tauto.
Qed.

(** ** Examples: two normal distributions, in another order *)
Lemma norm1_plain : exists e f F Q, e_ancil e = None /\ made scipy1 [MPdf; MCdf; MPpf] e /\ densities e 2 f /\ source e 2 F /\ quantiles e 2 Q /\
  (forall r x, (r < 2)%nat -> 0 < f r x) /\ (forall r x y, (r < 2)%nat -> x < y -> F r x < F r y) /\ (forall r p q, (r < 2)%nat -> p < q -> Q r p < Q r q).
Proof.
  destruct (created scipy1 _ scipy1_fill norm1_ok) as (e & E & Hm & HD & Hsh & Hname & _).
  set (D := input_rows norm1) in HD.
  assert (Hrow : forall r, (r < 2)%nat -> nth r D [] = [Nums [loc1 r]; Nums [scale1 r]]) by (intros [|[|r]] Hr; [reflexivity|reflexivity|lia]).
  exists e, (fun r => pdf_of scipy1 KNorm (nth r D [])), (fun r => cdf_of scipy1 KNorm (nth r D [])), (fun r p => loc1 r + scale1 r * p).
  split; [exact (no_ancil _ _ _ E)|]. split; [exact Hm|]. split; [exact (rep_densities scipy1 _ _ e HD ltac:(discriminate))|].
  split; [split; [lia|split; [exact Hsh|]]; change 2%nat with (length D); rewrite <- (rep_npdf' scipy1 _ D e HD); exact (rep_computes scipy1 _ D e MCdf _ HD (cdf_in _) (cdf_fin scipy1 _))|].
  assert (Hexp : forall z, 0 < 1 + exp (- z)) by (intros z; pose proof (exp_pos (- z)); lra).
  split.
  { split; [lia|]. split; [exact Hsh|]. intros l Hl Hin. change 2%nat with (length D).
    change (ens_ppf e (PGrid l)) with (evaluate MPpf e (PGrid l)). rewrite (rep_answers scipy1 _ D e MPpf (PGrid l) HD ltac:(cbn; tauto) Hl).
    unfold table. reflexivity. }
  split; [|split].
  - intros r x Hr. rewrite Hrow by auto. unfold pdf_of. cbn [val num_at cell_at nth nums]. cbn. unfold nth0. cbn.
    pose proof (scale1_pos r). apply Rdiv_lt_0_compat; [|lra]. apply Rdiv_lt_0_compat; [apply exp_pos|]. rewrite Rmult_1_r. apply Rmult_lt_0_compat; apply Hexp.
  - intros r x y Hr Hxy. rewrite Hrow by auto. unfold cdf_of. cbn [val num_at cell_at nth nums]. cbn. unfold nth0. cbn.
    pose proof (scale1_pos r) as Hs. apply Rinv_lt_contravar; [apply Rmult_lt_0_compat; apply Hexp|]. apply Rplus_lt_compat_l. apply exp_increasing. apply Ropp_lt_contravar.
    apply Rmult_lt_compat_r; [apply Rinv_0_lt_compat; lra|lra].
  - intros r p q Hr Hpq. pose proof (scale1_pos r). nra.
Qed.
Lemma two_targets F f : (forall r x, (r < 2)%nat -> 0 < f r x) -> (forall r x y, (r < 2)%nat -> x < y -> F r x < F r y) ->
  forall r, (r < 2)%nat -> suits (ToHist [-1; 0; 3]) (F r) /\ suits (ToInterp [-1; 0; 3]) (f r) /\ suits (ToIrr [-1; 0; 3]) (f r).
Proof.
  intros Hp Hinc r Hr. pose proof (Hp r (-1) Hr). pose proof (Hp r 0 Hr). pose proof (Hp r 3 Hr). cbn [suits]. split; [|split].
  - split; [intros x y [H'|<-]; [left; apply Hinc; auto|lra]|]. apply Hinc; auto; unfold nth0, nlast; simpl; lra.
  - split; [intros x _; left; apply Hp; auto|]. unfold trapezium, nth0. simpl. lra.
  - split; [intros x _; left; apply Hp; auto|]. unfold right_rule, nth0. simpl. lra.
Qed.
Lemma pair_usable : usable (ToHist [-1; 0; 3]) /\ usable (ToInterp [-1; 0; 3]) /\ usable (ToIrr [-1; 0; 3]).
Proof. repeat split; cbn [grid length]; try lia; repeat constructor; lra. Qed.
Lemma c151_select_example : exists X M e key ps s, fill_outside X /\ made X M e /\ picks (e_npdf e) key ps /\ ps = [1; 0]%nat /\ has_ancil e s /\ (is_int key = true -> anc_plain s) /\
  forall t, In t [ToHist [-1; 0; 3]; ToInterp [-1; 0; 3]; ToIrr [-1; 0; 3]] -> usable t /\ In (asks t) M /\ exists F, curves (asks t) e F /\ forall r, (r < e_npdf e)%nat -> suits t (F r).
Proof.
  destruct norm1_plain as (e & f & F & Q & Ha & Hm & Hf & HF & _ & Hp & Hinc & _). pose proof (made_shape scipy1 _ e scipy1_fill Hm) as [Hsh Hpos].
  assert (Hn : e_npdf e = 2%nat) by (destruct Hf as (_ & Hs & _); rewrite Hs in Hsh; congruence). pose proof (two_targets F f Hp Hinc) as Hs. destruct pair_usable as (U1 & U2 & U3).
  exists scipy1, [MPdf; MCdf; MPpf], e, (KList [-1; 0]%Z), [1; 0]%nat, None. split; [apply scipy1_fill|]. split; [exact Hm|]. split; [apply picks_iff; rewrite Hn; reflexivity|]. split; [reflexivity|].
  split; [split; [exact Ha|exact I]|split; [discriminate|]].
  intros t [<-|[<-|[<-|[]]]]; (split; [assumption|]); (split; [cbn; tauto|]).
  - exists F. unfold curves. rewrite Hn. split; [apply HF|intros r Hr; apply Hs; auto].
  - exists f. unfold curves. rewrite Hn. split; [apply Hf|intros r Hr; apply Hs; auto].
  - exists f. unfold curves. rewrite Hn. split; [apply Hf|intros r Hr; apply Hs; auto].
Qed.
Lemma c151_concatenate_example : exists X M es joint, fill_outside X /\ joinable X M es /\ length es = 2%nat /\ joined X M es joint /\ e_npdf joint = 4%nat /\
  forall t, In t [ToHist [-1; 0; 3]; ToInterp [-1; 0; 3]; ToIrr [-1; 0; 3]] -> usable t /\ In (asks t) M /\
    forall e, In e es -> exists F, curves (asks t) e F /\ forall r, (r < e_npdf e)%nat -> suits t (F r).
Proof.
  destruct norm1_plain as (e & f & F & Q & Ha & Hm & Hf & HF & _ & Hp & Hinc & _). pose proof (made_shape scipy1 _ e scipy1_fill Hm) as [Hsh Hpos].
  assert (Hn : e_npdf e = 2%nat) by (destruct Hf as (_ & Hs & _); rewrite Hs in Hsh; congruence). pose proof (two_targets F f Hp Hinc) as Hs. destruct pair_usable as (U1 & U2 & U3).
  assert (HJ : joinable scipy1 [MPdf; MCdf; MPpf] [e; e]) by (split; [intros x [<-|[<-|[]]]; exact Hm|intros x y [<-|[<-|[]]] [<-|[<-|[]]]; split; reflexivity]).
  destruct (c22_concatenate_none scipy1 _ [e; e] scipy1_fill HJ) as (joint & _ & J & _); [exists e; split; [left; reflexivity|exact Ha]|].
  exists scipy1, [MPdf; MCdf; MPpf], [e; e], joint. split; [apply scipy1_fill|]. split; [exact HJ|]. split; [reflexivity|]. split; [exact J|].
  split; [destruct J as (_ & -> & _); cbn [total fold_right]; rewrite Hn; reflexivity|].
  intros t [<-|[<-|[<-|[]]]]; (split; [assumption|]); (split; [cbn; tauto|]); intros x Hx; assert (x = e) as -> by (destruct Hx as [<-|[<-|[]]]; reflexivity).
  - exists F. unfold curves. rewrite Hn. split; [apply HF|intros r Hr; apply Hs; auto].
  - exists f. unfold curves. rewrite Hn. split; [apply Hf|intros r Hr; apply Hs; auto].
  - exists f. unfold curves. rewrite Hn. split; [apply Hf|intros r Hr; apply Hs; auto].
Qed.
Lemma c151_quantiles_example : exists X M e key ps s Q qs, fill_outside X /\ made X M e /\ picks (e_npdf e) key ps /\ ps = [1; 0]%nat /\ has_ancil e s /\ (is_int key = true -> anc_plain s) /\
  In MPpf M /\ quantiles e (e_npdf e) Q /\ increasing qs /\ (2 <= length qs)%nat /\ inside qs /\ / 2 ^ 52 < nth0 0 qs /\ (forall r, (r < e_npdf e)%nat -> increasing (map (Q r) qs)).
Proof.
  destruct norm1_plain as (e & f & F & Q & Ha & Hm & Hf & HF & HQ & Hp & _ & Hinc). pose proof (made_shape scipy1 _ e scipy1_fill Hm) as [Hsh Hpos].
  assert (Hn : e_npdf e = 2%nat) by (destruct Hf as (_ & Hs & _); rewrite Hs in Hsh; congruence).
  exists scipy1, [MPdf; MCdf; MPpf], e, (KList [-1; 0]%Z), [1; 0]%nat, None, Q, [1/4; 1/2; 3/4]. split; [apply scipy1_fill|]. split; [exact Hm|]. split; [apply picks_iff; rewrite Hn; reflexivity|]. split; [reflexivity|].
  split; [split; [exact Ha|exact I]|split; [discriminate|]]. rewrite Hn. split; [cbn; tauto|]. split; [exact HQ|]. split; [repeat constructor; lra|]. split; [simpl; lia|].
  split; [intros p [<-|[<-|[<-|[]]]]; lra|]. split; [unfold nth0; simpl; lra|]. intros r Hr. repeat constructor; apply Hinc; auto; lra.
Qed.
