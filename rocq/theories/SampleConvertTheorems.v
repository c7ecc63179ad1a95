(** C123, C124: what conversions by way of random samples give. *)
From Coq Require Import String List Arith ZArith Bool Lia Reals Lra.
From Coquelicot Require Import Coquelicot.
From Verif Require Import Num NumProofs Py NdArray NumpyLib Utils ScipyWrap Spec Values Ensemble Classes
  HistPdf InterpPdf QuantPdf MixmodPdf Packing PackedPdf Registry RegistryTheorems Convert SampleConvert
  SortProofs BinProofs EvalProofs NdProofs InterpProofs HistProofs HistTheorems TableProofs InterpPdfProofs GridTheorems IrrTheorems
  QuantTheorems MixmodTheorems PackingTheorems PackedTheorems Kinds KindProofs EnsembleProofs KindInputs ReachProofs AppendProofs EnsembleTheorems
  RowProofs IntegrateTheorems ConvertTheorems.
Import ListNotations.
Local Open Scope string_scope.
Local Open Scope list_scope.
Local Open Scope R_scope.

(** ** What counting means *)
(** a number falls into bin [i]: from its lower edge on, below its upper edge; the last bin includes its upper edge *)
Definition falls (bins : list R) (i : nat) (x : R) : Prop :=
  nth0 i bins <= x /\ (x < nth0 (S i) bins \/ (S (S i) = length bins /\ x = nth0 (S i) bins)).
Lemma falls_dec bins i x : {falls bins i x} + {~ falls bins i x}.
Proof.
  unfold falls. destruct (Rle_dec (nth0 i bins) x); [|right; tauto]. destruct (Rlt_dec x (nth0 (S i) bins)); [left; tauto|].
  destruct (Nat.eq_dec (S (S i)) (length bins)); [|right; tauto]. destruct (Req_EM_T x (nth0 (S i) bins)); [left; tauto|right; tauto].
Qed.
(** how many of the samples fall into bin [i], and how many lie between the first and the last edge *)
Definition hits (samples bins : list R) (i : nat) : R := rsum (length samples) (fun k => if falls_dec bins i (nth0 k samples) then 1 else 0).
Definition between (bins : list R) (x : R) : Prop := nth0 0 bins <= x <= nlast bins.
Lemma between_dec bins x : {between bins x} + {~ between bins x}.
Proof. unfold between. destruct (Rle_dec (nth0 0 bins) x); [|right; tauto]. destruct (Rle_dec x (nlast bins)); [left|right]; tauto. Qed.
Definition caught (samples bins : list R) : R := rsum (length samples) (fun k => if between_dec bins (nth0 k samples) then 1 else 0).

(** ** The counts of the model *)
Lemma in_bin_falls bins i x : in_bin bins i x = true <-> falls bins i x.
Proof.
  unfold in_bin, falls. rewrite andb_true_iff, orb_true_iff, andb_true_iff, Nat.eqb_eq.
  destruct (nleb_reflect (nth0 i bins) x) as [H1|H1]; destruct (nltb_reflect x (nth0 (S i) bins)) as [H2|H2];
    destruct (neqb_reflect x (nth0 (S i) bins)) as [H3|H3]; cbn in H1, H2, H3 |- *; intuition (try discriminate; auto).
Qed.
Lemma count_filter (f : R -> bool) (g : R -> R) l : (forall x, In x l -> g x = if f x then 1 else 0) ->
  INR (length (filter f l)) = rsum (length l) (fun k => g (nth0 k l)).
Proof.
  induction l as [|x l IH] using rev_ind; [reflexivity|]. intros H.
  rewrite filter_app, !app_length, plus_INR. cbn [length]. rewrite Nat.add_1_r. cbn [rsum].
  rewrite IH by (intros; apply H, in_or_app; auto). f_equal.
  - apply rsum_ext. intros k Hk. unfold nth0. rewrite app_nth1 by auto. reflexivity.
  - unfold nth0. rewrite app_nth2, Nat.sub_diag by lia. cbn [nth]. rewrite H by (apply in_or_app; right; left; auto). cbn [filter]. destruct (f x); reflexivity.
Qed.
Lemma hits_count l bins i : INR (length (filter (in_bin bins i) l)) = hits l bins i.
Proof.
  unfold hits. rewrite (count_filter _ (fun x => if falls_dec bins i x then 1 else 0)); [reflexivity|].
  intros x _. destruct (falls_dec bins i x) as [H|H]; [apply in_bin_falls in H; rewrite H; reflexivity|].
  destruct (in_bin bins i x) eqn:E; [apply in_bin_falls in E; tauto|reflexivity].
Qed.
Definition count_rows (S : list (list R)) (bins : list R) : list (list R) := map (fun l => map (hits l bins) (seq 0 (pred (length bins)))) S.
Lemma helper_counts bins l : increasing bins -> hist_helper bins l = Ok (nd1 (map (hits l bins) (seq 0 (pred (length bins))))).
Proof.
  intros Hs. unfold hist_helper.
  assert (E : no_decrease bins = true).
  { clear l. induction bins as [|x [|y t] IH]; try reflexivity. cbn [no_decrease]. inversion Hs as [|? ? Hs' Hh]; subst. inversion Hh; subst.
    destruct (nltb_reflect y x) as [L|L]; [cbn in L; lra|]. cbn [negb andb]. apply IH. exact Hs'. }
  rewrite E. do 2 f_equal. unfold np_histogram. rewrite map_map. apply map_ext. intros i. rewrite <- hits_count. rewrite INR_IZR_INZ. reflexivity.
Qed.
Lemma helper_shape bins l y : hist_helper bins l = Ok y -> shp y = [pred (length bins)].
Proof. unfold hist_helper. destruct (no_decrease bins); [|discriminate]. intros [= <-]. unfold nd1. cbn [shp]. unfold np_histogram. rewrite !map_length, seq_length. reflexivity. Qed.
Lemma falls_between bins x : increasing bins -> (2 <= length bins)%nat ->
  rsum (pred (length bins)) (fun i => if falls_dec bins i x then 1 else 0) = if between_dec bins x then 1 else 0.
Proof.
  intros Hs Hn.
  assert (Hle : forall n, (n < length bins)%nat ->
    rsum n (fun i => if falls_dec bins i x then 1 else 0) = if Rle_dec (nth0 0 bins) x then if Rlt_dec x (nth0 n bins) then 1 else if Nat.eq_dec (S n) (length bins) then if Nat.eq_dec n 0 then 0 else if Req_EM_T x (nth0 n bins) then 1 else 0 else 0 else 0).
  { induction n as [|n IH]; intros Hlt.
    - cbn [rsum]. destruct (Rle_dec _ _); [|reflexivity]. destruct (Rlt_dec _ _); [lra|]. destruct (Nat.eq_dec 1 (length bins)); reflexivity.
    - cbn [rsum]. rewrite IH by lia. assert (Hw : nth0 n bins < nth0 (S n) bins) by (apply inc_lt; auto).
      assert (H0 : nth0 0 bins <= nth0 n bins) by (destruct n; [lra|left; apply inc_lt; auto; lia]).
      destruct (Nat.eq_dec (S n) (length bins)); [lia|].
      destruct (falls_dec bins n x) as [(F1 & [F2|[F2 F3]])|F]; unfold falls in *;
        destruct (Rle_dec (nth0 0 bins) x); destruct (Rlt_dec x (nth0 n bins)); destruct (Rlt_dec x (nth0 (S n) bins));
        destruct (Nat.eq_dec (S (S n)) (length bins)); destruct (Nat.eq_dec (S n) 0); destruct (Req_EM_T x (nth0 (S n) bins)); try lia; try lra;
        exfalso; apply F; split; [lra|]; first [left; lra|right; split; [lia|lra]]. }
  rewrite Hle by lia. unfold between, nlast in *. destruct (between_dec bins x) as [Hb|Hb]; unfold between in Hb; rewrite nlast_nth0 in Hb;
    destruct (Rle_dec (nth0 0 bins) x); destruct (Rlt_dec x (nth0 (pred (length bins)) bins)); destruct (Nat.eq_dec (S (pred (length bins))) (length bins)); destruct (Nat.eq_dec (pred (length bins)) 0);
    destruct (Req_EM_T x (nth0 (pred (length bins)) bins)); try lia; try lra; exfalso; apply Hb; lra.
Qed.
Lemma rsum_zero n : rsum n (fun _ => 0) = 0.
Proof. induction n as [|n IH]; cbn [rsum]; lra. Qed.
Lemma rsum_add n (f g : nat -> R) : rsum n (fun i => f i + g i) = rsum n f + rsum n g.
Proof. induction n as [|n IH]; cbn [rsum]; [lra|]. rewrite IH. lra. Qed.
Lemma rsum_swap n m (f : nat -> nat -> R) : rsum n (fun i => rsum m (fun j => f i j)) = rsum m (fun j => rsum n (fun i => f i j)).
Proof. induction n as [|n IH]; cbn [rsum]; [symmetry; apply rsum_zero|]. rewrite IH, <- rsum_add. reflexivity. Qed.
Lemma hits_caught l bins : increasing bins -> (2 <= length bins)%nat -> rsum (pred (length bins)) (hits l bins) = caught l bins.
Proof.
  intros Hs Hn. unfold caught, hits. rewrite rsum_swap. apply rsum_ext. intros k Hk. apply falls_between; auto.
Qed.
Lemma hits_ge0 l bins i : 0 <= hits l bins i.
Proof. unfold hits. apply rsum_ge0. intros. destruct (falls_dec _ _ _); lra. Qed.

Lemma keep_all {A} (f : A -> bool) l : (forall x, In x l -> f x = true) -> filter f l = l.
Proof. induction l as [|x l IH]; intros Hf; [reflexivity|]. cbn [filter]. rewrite (Hf x (or_introl eq_refl)), IH by (intros; apply Hf; right; auto). reflexivity. Qed.

(** ** C123: to a histogram of samples *)
Section Hist.
  Variable X : scipy.
  Variable rvs : ens R -> value R -> value R -> res (list (list R)).
  Variables (mf xy : extractor (T := R)).
  Notation H := (QH X (extract_hist_samples rvs) mf xy).
  Notation W := (QW X (extract_hist_samples rvs) mf xy).
  Definition by_samples (kw : vdict R) : vdict R := ("method", VStr "samples") :: kw.
  Lemma conv_samples e kw : ~ In "method" (map fst kw) ->
    factory_convert H W e "hist" (by_samples kw) = let* d := extract_hist_samples rvs e kw in ens_new (create_of (qp X) "hist") d None.
  Proof using.
    intros Hn. unfold factory_convert. rewrite QW_registry. cbn [dget String.eqb Ascii.eqb Bool.eqb]. unfold by_samples at 1.
    change (method_key (("method", VStr "samples") :: kw)) with (Ok (A := option string) (Some "samples")). cbn [bind].
    destruct (qp_extraction X (extract_hist_samples rvs) mf xy (Some "samples")) as (-> & _). cbn [String.eqb Ascii.eqb Bool.eqb call_extract].
    assert (E : vremove (by_samples kw) "method" = kw).
    { unfold by_samples, vremove, dremove. cbn [filter fst]. rewrite String.eqb_refl. cbn [negb]. apply keep_all. intros [k v] Hk. cbn [fst].
      destruct (String.eqb_spec "method" k) as [<-|]; [|reflexivity]. exfalso. apply Hn. apply in_map_iff. exists ("method", v). auto. }
    rewrite E. destruct (extract_hist_samples rvs e kw); reflexivity.
  Qed.
  (** a histogram made from rows [P] *)
  Lemma hist_probs bins P : fill_outside X -> hist_input bins P ->
    exists e' G, ens_new (create_of (qp X) "hist") (input_dict (IHist bins P)) None = Ok e' /\
      made X [MPdf; MCdf; MPpf] e' /\ g_name (e_obj e') = "hist" /\ source e' (length P) G /\
      forall r i, (r < length P)%nat -> (i < pred (length bins))%nat ->
        prob G bins r i * rsum (pred (length bins)) (fun j => at2 P r j * width bins j) = at2 P r i * width bins i.
  Proof using.
    intros HX Hi. pose proof Hi as (Hs & Hn & Hne & _). assert (Hpos : (0 < length P)%nat) by (destruct P; [congruence|simpl; lia]).
    destruct (c01_values bins P Hi) as (h & Eh & Hb & Hl & Hv). destruct (c03_cdf bins P h Hi Eh) as (G & EG & HG).
    assert (Ec : create_of (qp X) "hist" (input_dict (IHist bins P)) = Ok (hist_obj h)).
    { change (hist_create [("bins", VArr (nd1 bins)); ("pdfs", VArr (nd2 (pred (length bins)) P))] = Ok (hist_obj h)).
      rewrite (hist_create_eq bins (nd2 (pred (length bins)) P)) by (left; reflexivity). rewrite Eh. reflexivity. }
    assert (E : ens_new (create_of (qp X) "hist") (input_dict (IHist bins P)) None = Ok (mkens (create_of (qp X) "hist") (hist_obj h) None None)) by (unfold ens_new; rewrite Ec; reflexivity).
    exists (mkens (create_of (qp X) "hist") (hist_obj h) None None).
    assert (Hmade : made X [MPdf; MCdf; MPpf] (mkens (create_of (qp X) "hist") (hist_obj h) None None)) by exact (reach_new _ _ _ _ _ _ (IHist bins P) None _ Hi E).
    destruct (c36_reachable X _ _ HX Hmade) as (G' & HG').
    destruct (input_holds (s_phi X) (s_Phi X) (s_quad X) (s_cubic X) (s_dspline X) (s_Phinv X) HX (IHist bins P) Hi) as (_ & _ & g & Eg & (_ & _ & _ & Hsh & _) & _).
    change (create_of (qp X) "hist" (input_dict (IHist bins P)) = Ok g) in Eg. rewrite Ec in Eg. injection Eg as <-.
    cbn [input_rows] in Hsh. rewrite map_length in Hsh.
    assert (Hnp : e_npdf (mkens (create_of (qp X) "hist") (hist_obj h) None None) = length P) by (unfold e_npdf, g_npdf; cbn [e_obj]; rewrite Hsh; unfold NdArray.prod; simpl; lia).
    rewrite Hnp in HG'. exists G'. split; [exact E|].
    split; [exact Hmade|]. split; [reflexivity|]. split; [split; [exact Hpos|split; [exact Hsh|exact HG']]|].
    intros r i Hr Hi'.
    assert (EGG : forall x, G' r x = G r x).
    { intros x. destruct HG' as [HG' _]. specialize (HG' x). change (ens_cdf _ (PScalar x)) with (hist_ens_cdf h (PScalar x)) in HG'. rewrite EG in HG'.
      injection HG' as HG'. assert (E2 : nth r (map (fun r => [Fin (G r x)]) (seq 0 (length P))) [] = nth r (map (fun r => [Fin (G' r x)]) (seq 0 (length P))) []) by (rewrite HG'; reflexivity).
      rewrite !(nth_map_in _ (seq 0 (length P)) r [] 0%nat) in E2 by (rewrite seq_length; auto). rewrite !seq_nth in E2 by auto. cbn [Nat.add] in E2. congruence. }
    destruct (HG r Hr) as (_ & _ & _ & _ & Hlin & _). destruct (Hv r Hr) as ((k & Hk & Hk') & _ & Hmass).
    pose proof (width_pos bins i Hs Hi') as Hw. unfold width in Hw.
    assert (HP : prob G' bins r i = at2 (h_pdfs h) r i * width bins i).
    { unfold prob. rewrite !EGG. rewrite (Hlin i (nth0 (S i) bins)) by (try lia; lra). rewrite (Hlin i (nth0 i bins)) by (try lia; lra). unfold width. lra. }
    rewrite HP, (Hk' i Hi').
    assert (Hone : k * rsum (pred (length bins)) (fun j => at2 P r j * width bins j) = 1).
    { rewrite <- Hmass, Rmult_comm, <- rsum_scale. apply rsum_ext. intros j Hj. rewrite (Hk' j Hj). unfold width. lra. }
    transitivity (at2 P r i * width bins i * (k * rsum (pred (length bins)) (fun j => at2 P r j * width bins j))); [ring|]. rewrite Hone. ring.
  Qed.
  Lemma count_at l bins i : (i < pred (length bins))%nat -> nth0 i (map (hits l bins) (seq 0 (pred (length bins)))) = hits l bins i.
  Proof using. intros Hi. unfold nth0. rewrite (nth_map_in _ (seq 0 (pred (length bins))) i _ 0%nat) by (rewrite seq_length; auto). rewrite seq_nth by auto. reflexivity. Qed.
  Lemma count_at2 L bins r i : (r < length L)%nat -> (i < pred (length bins))%nat -> at2 (count_rows L bins) r i = hits (nth r L []) bins i.
  Proof using.
    intros Hr Hi. unfold at2, count_rows. replace (nth r (map _ L) []) with (map (hits (nth r L []) bins) (seq 0 (pred (length bins)))).
    - apply count_at. auto. - symmetry. rewrite (nth_map_in _ L r [] []) by auto. reflexivity.
  Qed.
  Lemma count_input L bins : increasing bins -> (2 <= length bins)%nat -> L <> [] -> (forall l, In l L -> 0 < caught l bins) -> hist_input bins (count_rows L bins).
  Proof using.
    intros Hs Hn Hne Hc. split; [exact Hs|]. split; [exact Hn|]. split; [destruct L; [congruence|discriminate]|].
    intros row Hrow. apply in_map_iff in Hrow. destruct Hrow as (l & <- & Hl). rewrite map_length, seq_length. split; [reflexivity|].
    split; [intros i Hi; rewrite count_at by auto; apply hits_ge0|].
    rewrite (rsum_ext _ _ (fun i => hits l bins i * width bins i)) by (intros i Hi; rewrite count_at by auto; reflexivity).
    apply rsum_pos_weights; [intros; apply hits_ge0|intros; apply width_pos; auto|]. rewrite hits_caught by auto. auto.
  Qed.
  (** the names of the axes do not clash: the number of PDFs is not the number of bins, unless that many samples are drawn *)
  Lemma extract_counts e bins L n size : increasing bins -> (2 <= length bins)%nat -> L <> [] -> (forall l, In l L -> length l = n) ->
    (length L <> pred (length bins) \/ n = pred (length bins)) -> rvs e size VNone = Ok L ->
    extract_hist_samples rvs e [("bins", VArr (nd1 bins)); ("size", size)] = Ok (input_dict (IHist bins (count_rows L bins))).
  Proof using.
    intros Hs Hn Hne Hw Hax HL. unfold extract_hist_samples. change (grid_arg _ "bins") with (Ok (A := list R) bins). cbn [bind].
    change (keyword _ "size" _) with size. rewrite HL. cbn [bind]. destruct (Nat.eqb_spec (length bins) 0) as [|_]; [lia|].
    assert (Ev : vectorize (length L) [pred (length bins)] (hist_helper bins) L = Ok (map (fun l => nd1 (map (hits l bins) (seq 0 (pred (length bins))))) L)).
    { unfold vectorize. destruct L as [|l L']; [congruence|]. rewrite helper_counts by auto. cbn [bind nd1 shp].
      rewrite map_length, seq_length. cbn [bind_axes find fst].
      assert (El : length l = n) by (apply Hw; left; reflexivity).
      destruct (Nat.eqb_spec (length (l :: L')) (pred (length bins))) as [Eq|Nq].
      - destruct Hax as [Hax|Hax]; [congruence|]. rewrite El, Hax, Nat.eqb_refl. cbn [andb]. apply mapM_ok. intros x Hx. apply helper_counts. auto.
      - apply mapM_ok. intros x Hx. apply helper_counts. auto. }
    rewrite Ev. cbn [bind]. f_equal. cbn [input_dict]. unfold nd2, count_rows. rewrite map_length. repeat f_equal.
    rewrite map_map. reflexivity.
  Qed.
  Lemma c123_formula : forall e bins L n size, fill_outside X -> increasing bins -> (2 <= length bins)%nat -> L <> [] -> (forall l, In l L -> length l = n) ->
    rvs e size VNone = Ok L -> (forall l, In l L -> 0 < caught l bins) -> (length L <> pred (length bins) \/ n = pred (length bins)) ->
    exists e' G, factory_convert H W e "hist" (by_samples [("bins", VArr (nd1 bins)); ("size", size)]) = Ok e' /\
      made X [MPdf; MCdf; MPpf] e' /\ g_name (e_obj e') = "hist" /\ source e' (length L) G /\
      forall r i, (r < length L)%nat -> (i < pred (length bins))%nat ->
        prob G bins r i * rsum (pred (length bins)) (fun j => hits (nth r L []) bins j * width bins j) = hits (nth r L []) bins i * width bins i.
  Proof using.
    intros e bins L n size HX Hs Hn Hne Hw HL Hc Hax.
    destruct (hist_probs bins (count_rows L bins) HX (count_input L bins Hs Hn Hne Hc)) as (e' & G & E & Hm & Hg & Hsrc & Hp).
    assert (Elen : length (count_rows L bins) = length L) by (unfold count_rows; apply map_length). rewrite Elen in *.
    exists e', G. split; [|split; [exact Hm|split; [exact Hg|split; [exact Hsrc|]]]].
    - rewrite conv_samples by (simpl; intuition discriminate). rewrite (extract_counts e bins L n size) by auto. exact E.
    - intros r i Hr Hi. specialize (Hp r i Hr Hi). rewrite count_at2 in Hp by auto. rewrite <- Hp. f_equal. apply rsum_ext. intros j Hj. rewrite count_at2 by auto. reflexivity.
  Qed.
  Lemma c123_uniform : forall e bins L n size w, fill_outside X -> increasing bins -> (2 <= length bins)%nat -> L <> [] -> (forall l, In l L -> length l = n) ->
    rvs e size VNone = Ok L -> (forall l, In l L -> 0 < caught l bins) -> (length L <> pred (length bins) \/ n = pred (length bins)) ->
    (forall i, (i < pred (length bins))%nat -> width bins i = w) ->
    exists e' G, factory_convert H W e "hist" (by_samples [("bins", VArr (nd1 bins)); ("size", size)]) = Ok e' /\ source e' (length L) G /\
      forall r i, (r < length L)%nat -> (i < pred (length bins))%nat -> prob G bins r i = hits (nth r L []) bins i / caught (nth r L []) bins.
  Proof using.
    intros e bins L n size w HX Hs Hn Hne Hw HL Hc Hax Hu.
    destruct (c123_formula e bins L n size HX Hs Hn Hne Hw HL Hc Hax) as (e' & G & E & _ & _ & Hsrc & Hp).
    exists e', G. split; [exact E|]. split; [exact Hsrc|]. intros r i Hr Hi. specialize (Hp r i Hr Hi).
    rewrite (rsum_ext _ _ (fun j => hits (nth r L []) bins j * w)) in Hp by (intros j Hj; rewrite (Hu j Hj); reflexivity).
    rewrite rsum_scale, hits_caught, (Hu i Hi) in Hp by auto. assert (Hc' : 0 < caught (nth r L []) bins) by (apply Hc, nth_In; auto).
    pose proof (width_pos bins i Hs Hi) as Hwp. rewrite (Hu i Hi) in Hwp.
    apply (Rmult_eq_reg_r (caught (nth r L []) bins)); [|lra]. apply (Rmult_eq_reg_r w); [|lra].
    transitivity (prob G bins r i * (caught (nth r L []) bins * w)); [ring|]. rewrite Hp. field. lra.
  Qed.
  (** as many PDFs as bins, and another number of samples: no conversion *)
  Lemma c123_same_number : forall e bins L n size, rvs e size VNone = Ok L -> (forall l, In l L -> length l = n) ->
    length L = pred (length bins) -> n <> length L ->
    factory_convert H W e "hist" (by_samples [("bins", VArr (nd1 bins)); ("size", size)]) = Err ValueError.
  Proof using.
    intros e bins L n size HL Hw HLn Hnn. rewrite conv_samples by (simpl; intuition discriminate).
    unfold extract_hist_samples. change (grid_arg _ "bins") with (Ok (A := list R) bins). cbn [bind].
    change (keyword _ "size" _) with size. rewrite HL. cbn [bind]. destruct (Nat.eqb_spec (length bins) 0) as [|_]; [reflexivity|].
    destruct L as [|l L']; [reflexivity|]. unfold vectorize. destruct (hist_helper bins l) as [y|x] eqn:Eh.
    - cbn [bind]. rewrite (helper_shape _ _ _ Eh). cbn [bind_axes find fst]. rewrite HLn, Nat.eqb_refl. rewrite (Hw l) by (left; reflexivity).
      destruct (Nat.eqb_spec (pred (length bins)) n) as [E|_]; [rewrite HLn in Hnn; congruence|]. reflexivity.
    - unfold hist_helper in Eh. destruct (no_decrease bins); [discriminate|]. injection Eh as <-. reflexivity.
  Qed.
  (** without edges, or with edges that go down somewhere, the conversion raises *)
  Lemma c123_edges : forall e bins size,
    factory_convert H W e "hist" (by_samples [("size", size)]) = Err ValueError /\
    (forall L i, rvs e size VNone = Ok L -> (S i < length bins)%nat -> nth0 (S i) bins < nth0 i bins ->
       factory_convert H W e "hist" (by_samples [("bins", VArr (nd1 bins)); ("size", size)]) = Err ValueError).
  Proof using.
    intros e bins size. split; [reflexivity|]. intros L i HL Hi Hd. rewrite conv_samples by (simpl; intuition discriminate).
    unfold extract_hist_samples. change (grid_arg _ "bins") with (Ok (A := list R) bins). cbn [bind].
    change (keyword _ "size" _) with size. rewrite HL. cbn [bind]. destruct (Nat.eqb_spec (length bins) 0) as [|_]; [reflexivity|].
    assert (E : forall l, hist_helper bins l = Err ValueError).
    { intros l. unfold hist_helper. replace (no_decrease bins) with false; [reflexivity|]. symmetry. clear L HL. revert i Hi Hd. induction bins as [|x [|y t] IH]; intros i Hi Hd; cbn [length] in Hi; try lia.
      cbn [no_decrease]. destruct i as [|i].
      - unfold nth0 in Hd. cbn [nth] in Hd. destruct (nltb_reflect y x) as [Lt|Lt]; [reflexivity|exfalso; apply Lt; exact Hd].
      - apply andb_false_iff. right. apply (IH i); [cbn [length]; lia|exact Hd]. }
    destruct L as [|l L']; [reflexivity|]. unfold vectorize. rewrite E. reflexivity.
  Qed.
End Hist.

(** ** C124: to a mixture fitted to samples *)
Section Mix.
  Variable X : scipy.
  Variable rvs : ens R -> value R -> value R -> res (list (list R)).
  Variable gauss_fit : value R -> list R -> res (list R * list R * list R).
  Variables (hs xy : extractor (T := R)).
  Notation H := (QH X hs (extract_mixmod_fit_samples rvs gauss_fit sqrt) xy).
  Notation W := (QW X hs (extract_mixmod_fit_samples rvs gauss_fit sqrt) xy).
  Lemma conv_fit e kw : vget kw "method" = None ->
    factory_convert H W e "mixmod" kw = let* d := extract_mixmod_fit_samples rvs gauss_fit sqrt e (vremove kw "method") in ens_new (create_of (qp X) "mixmod") d None.
  Proof using.
    intros Hm. unfold factory_convert. rewrite QW_registry. cbn [dget String.eqb Ascii.eqb Bool.eqb]. unfold method_key. rewrite Hm. cbn [bind].
    destruct (qp_extraction X hs (extract_mixmod_fit_samples rvs gauss_fit sqrt) xy None) as (_ & _ & _ & -> & _). cbn [call_extract].
    destruct (extract_mixmod_fit_samples rvs gauss_fit sqrt e (vremove kw "method")); reflexivity.
  Qed.
  (** what the fit promises: [k] components with positive variances and non-negative weights of sum 1 *)
  Definition fitted (k : nat) (f : list R * list R * list R) : Prop :=
    let '(w, m, v) := f in
    length w = k /\ length m = k /\ length v = k /\ (forall i, (i < k)%nat -> 0 <= nth0 i w) /\ rsum k (fun i => nth0 i w) = 1 /\ (forall i, (i < k)%nat -> 0 < nth0 i v).
  Definition asked (ncomps nsamples random_state : value R) : vdict R := [("ncomps", ncomps); ("nsamples", nsamples); ("random_state", random_state)].
  Lemma c124_mixture : forall e k L fits nc ns rs, fill_outside X -> normal_laws (s_phi X) (s_Phi X) -> (0 < k)%nat ->
    rvs e ns rs = Ok L -> L <> [] -> length fits = length L ->
    (forall r, (r < length L)%nat -> gauss_fit nc (nth r L []) = Ok (nth r fits ([], [], [])) /\ fitted k (nth r fits ([], [], []))) ->
    exists e' f F, factory_convert H W e "mixmod" (asked nc ns rs) = Ok e' /\ made X [MPdf; MCdf] e' /\ g_name (e_obj e') = "mixmod" /\
      g_shape (e_obj e') = [length L] /\ evaluates (ens_pdf e') (length L) f /\ evaluates (ens_cdf e') (length L) F /\
      forall r w m v, (r < length L)%nat -> gauss_fit nc (nth r L []) = Ok (w, m, v) -> forall x,
        f r x = rsum k (fun i => nth0 i w * (s_phi X ((x - nth0 i m) / sqrt (nth0 i v)) / sqrt (nth0 i v))) /\
        F r x = rsum k (fun i => nth0 i w * s_Phi X ((x - nth0 i m) / sqrt (nth0 i v))).
  Proof using.
    intros e k L fits nc ns rs HX HP Hk HL Hne Hlen Hfit.
    set (ws := map (fun f => fst (fst f)) (map (fun f : list R * list R * list R => (fst (fst f), snd (fst f), map sqrt (snd f))) fits)).
    set (ms := map (fun f => snd (fst f)) (map (fun f : list R * list R * list R => (fst (fst f), snd (fst f), map sqrt (snd f))) fits)).
    set (ss := map snd (map (fun f : list R * list R * list R => (fst (fst f), snd (fst f), map sqrt (snd f))) fits)).
    assert (Rw : forall r, (r < length L)%nat -> nth r ws [] = fst (fst (nth r fits ([], [], [])))).
    { intros r Hr. unfold ws. rewrite map_map. rewrite (nth_map_in _ fits r [] ([], [], [])) by lia. reflexivity. }
    assert (Rm : forall r, (r < length L)%nat -> nth r ms [] = snd (fst (nth r fits ([], [], [])))).
    { intros r Hr. unfold ms. rewrite map_map. rewrite (nth_map_in _ fits r [] ([], [], [])) by lia. reflexivity. }
    assert (Rs : forall r, (r < length L)%nat -> nth r ss [] = map sqrt (snd (nth r fits ([], [], [])))).
    { intros r Hr. unfold ss. rewrite map_map. rewrite (nth_map_in _ fits r [] ([], [], [])) by lia. reflexivity. }
    assert (Lw : length ws = length L) by (unfold ws; rewrite !map_length; auto).
    assert (Lm : length ms = length L) by (unfold ms; rewrite !map_length; auto).
    assert (Ls : length ss = length L) by (unfold ss; rewrite !map_length; auto).
    assert (Es : forall r i, (r < length L)%nat -> (i < k)%nat -> at2 ss r i = sqrt (nth0 i (snd (nth r fits ([], [], []))))).
    { intros r i Hr Hi. unfold at2. destruct (Hfit r Hr) as [_ Hf]. unfold fitted in Hf. destruct (nth r fits ([], [], [])) as [[w m] v] eqn:Ef. destruct Hf as (_ & _ & Hv & _).
      replace (nth r ss []) with (map sqrt v) by (rewrite Rs, Ef by auto; reflexivity). unfold nth0. rewrite (nth_map_in _ v i _ 0) by lia. reflexivity. }
    assert (Hin : mix_input k ms ss ws).
    { split; [exact Hk|]. split; [destruct ms; [destruct L; [congruence|discriminate]|discriminate]|]. rewrite Lm, Lw, Ls. do 2 (split; [reflexivity|]).
      assert (G : forall l (M : list (list R)), length M = length L -> In l M -> exists r, (r < length L)%nat /\ nth r M [] = l).
      { intros l M HM Hl. destruct (In_nth M l [] Hl) as (r & Hr & E). exists r. split; [lia|exact E]. }
      split; [|split; [|split; [|split; [|split]]]].
      - intros l Hl. destruct (G l ms Lm Hl) as (r & Hr & <-). rewrite Rm by auto. destruct (Hfit r Hr) as [_ Hf]. unfold fitted in Hf. destruct (nth r fits _) as [[w m] v]. cbn [fst snd]. tauto.
      - intros l Hl. destruct (G l ss Ls Hl) as (r & Hr & <-). rewrite Rs, map_length by auto. destruct (Hfit r Hr) as [_ Hf]. unfold fitted in Hf. destruct (nth r fits _) as [[w m] v]. cbn [fst snd]. tauto.
      - intros l Hl. destruct (G l ws Lw Hl) as (r & Hr & <-). rewrite Rw by auto. destruct (Hfit r Hr) as [_ Hf]. unfold fitted in Hf. destruct (nth r fits _) as [[w m] v]. cbn [fst snd]. tauto.
      - intros r i Hr Hi. rewrite Es by auto. apply sqrt_lt_R0. destruct (Hfit r Hr) as [_ Hf]. unfold fitted in Hf. destruct (nth r fits _) as [[w m] v]. cbn [fst snd]. apply Hf. auto.
      - intros r i Hr Hi. unfold at2. rewrite Rw by auto. destruct (Hfit r Hr) as [_ Hf]. unfold fitted in Hf. destruct (nth r fits _) as [[w m] v]. cbn [fst snd]. apply Hf. auto.
      - intros r Hr. destruct (Hfit r Hr) as [_ Hf]. unfold fitted in Hf. rewrite (rsum_ext _ _ (fun i => nth0 i (fst (fst (nth r fits ([], [], [])))))) by (intros; unfold at2; rewrite Rw by auto; reflexivity).
        destruct (nth r fits _) as [[w m] v]. cbn [fst snd]. destruct Hf as (_ & _ & _ & _ & -> & _). lra. }
    destruct (c15_weights k ms ss ws Hin) as (M & EM & HMm & HMs & HMw & HMv).
    destruct (c15_eval k ms ss ws M Hin EM (s_phi X) (s_Phi X) HP) as (f & F & Hf & HF & Hfm).
    destruct (created X (IMix k ms ss ws) HX Hin) as (e' & Ee & Hmade & _ & Hsh & Hg & Ec).
    assert (Ex : extract_mixmod_fit_samples rvs gauss_fit sqrt e (asked nc ns rs) = Ok [("weights", VArr (nd2 k ws)); ("means", VArr (nd2 k ms)); ("stds", VArr (nd2 k ss))]).
    { unfold extract_mixmod_fit_samples. change (keyword (asked nc ns rs) "nsamples" _) with ns. change (keyword (asked nc ns rs) "random_state" _) with rs.
      change (keyword (asked nc ns rs) "ncomps" _) with nc. rewrite HL. cbn [bind]. destruct L as [|l0 L0] eqn:EL; [congruence|]. rewrite <- EL in *.
      assert (Em : mapM (mixmod_helper gauss_fit sqrt nc) L = Ok (map (fun f : list R * list R * list R => (fst (fst f), snd (fst f), map sqrt (snd f))) fits)).
      { clear - Hlen Hfit. revert fits Hlen Hfit. induction L as [|l L IH]; intros [|f fits] Hlen Hfit; try discriminate; [reflexivity|].
        cbn [mapM map]. destruct (Hfit 0%nat ltac:(simpl; lia)) as [Hf _]. cbn [nth] in Hf. unfold mixmod_helper at 1. rewrite Hf. destruct f as [[w m] v]. cbn [bind fst snd].
        rewrite (IH fits); [reflexivity|simpl in Hlen; lia|]. intros r Hr. apply (Hfit (S r)). simpl. lia. }
      rewrite Em. cbn [bind]. destruct fits as [|[[w m] v] fits']; [rewrite EL in Hlen; discriminate|].
      assert (Ek : length w = k) by (destruct (Hfit 0%nat ltac:(rewrite EL; simpl; lia)) as [_ Hf0]; cbn [nth] in Hf0; unfold fitted in Hf0; tauto).
      cbn [map fst snd]. rewrite Ek. reflexivity. }
    exists e', f, F. split.
    { rewrite conv_fit by reflexivity. change (vremove (asked nc ns rs) "method") with (asked nc ns rs). rewrite Ex. cbn [bind]. exact Ee. }
    split; [exact Hmade|]. split; [exact Hg|].
    assert (Hn : input_npdf (IMix k ms ss ws) = length L) by (cbn [input_npdf]; auto). rewrite Hn in Hsh.
    split; [exact Hsh|].
    assert (Eo : e_obj e' = mixmod_obj (s_phi X) (s_Phi X) (row_width (nd2 k ms)) M).
    { change (mixmod_create (s_phi X) (s_Phi X) [("weights", VArr (nd2 k ws)); ("stds", VArr (nd2 k ss)); ("means", VArr (nd2 k ms))] = Ok (e_obj e')) in Ec.
      unfold mixmod_create in Ec. cbn -[nd2 mixmod_ctor mixmod_obj] in Ec. rewrite EM in Ec. cbn [bind] in Ec. injection Ec as <-. reflexivity. }
    rewrite Lm in *.
    split; [|split].
    - replace (ens_pdf e') with (mixmod_ens_pdf (s_phi X) M); [exact Hf|]. unfold ens_pdf. rewrite Eo. reflexivity.
    - replace (ens_cdf e') with (mixmod_ens_cdf (s_Phi X) M); [exact HF|]. unfold ens_cdf. rewrite Eo. reflexivity.
    - intros r w m v Hr Hg' x. destruct (Hfit r Hr) as [Hg2 Hft]. destruct (Hfm r Hr) as (E1 & E2 & _). destruct (HMv r Hr) as (_ & Hsum1 & c & Hc & Hcw).
      assert (Efr : nth r fits ([], [], []) = (w, m, v)) by congruence. rewrite Efr in Hft. destruct Hft as (_ & _ & _ & _ & Hsum & _).
      assert (Ewr : forall i, at2 ws r i = nth0 i w) by (intros i; unfold at2; rewrite Rw, Efr by auto; reflexivity).
      assert (Emr : forall i, at2 ms r i = nth0 i m) by (intros i; unfold at2; rewrite Rm, Efr by auto; reflexivity).
      assert (Esr : forall i, (i < k)%nat -> at2 ss r i = sqrt (nth0 i v)) by (intros i Hi; rewrite Es, Efr by auto; reflexivity).
      assert (Hc1 : c = 1).
      { rewrite (rsum_ext _ _ (fun i => nth0 i w * c)) in Hsum1 by (intros i Hi; rewrite Hcw, Ewr by auto; ring). rewrite rsum_scale, Hsum in Hsum1. lra. }
      split.
      + rewrite E1. apply rsum_ext. intros i Hi. rewrite Hcw, Ewr, Emr, Esr, Hc1 by auto. rewrite Rmult_1_l. reflexivity.
      + rewrite E2. apply rsum_ext. intros i Hi. rewrite Hcw, Ewr, Emr, Esr, Hc1 by auto. rewrite Rmult_1_l. reflexivity.
  Qed.
  (** a fit that raises makes the conversion raise *)
  Lemma c124_fit_error : forall e L nc ns rs r x, rvs e ns rs = Ok L -> (r < length L)%nat -> gauss_fit nc (nth r L []) = Err x ->
    (forall q, (q < r)%nat -> exists f, gauss_fit nc (nth q L []) = Ok f) ->
    factory_convert H W e "mixmod" (asked nc ns rs) = Err x.
  Proof using.
    intros e L nc ns rs r x HL Hr Hx Hq. rewrite conv_fit by reflexivity. change (vremove (asked nc ns rs) "method") with (asked nc ns rs).
    unfold extract_mixmod_fit_samples. change (keyword (asked nc ns rs) "nsamples" _) with ns. change (keyword (asked nc ns rs) "random_state" _) with rs.
    change (keyword (asked nc ns rs) "ncomps" _) with nc. rewrite HL. cbn [bind]. destruct L as [|l0 L0] eqn:EL; [simpl in Hr; lia|]. rewrite <- EL in *.
    assert (Em : mapM (mixmod_helper gauss_fit sqrt nc) L = Err x).
    { clear EL HL. revert r Hr Hx Hq. induction L as [|l L IH]; intros r Hr Hx Hq; [simpl in Hr; lia|]. cbn [mapM]. unfold mixmod_helper at 1. destruct r as [|r].
      - cbn [nth] in Hx. rewrite Hx. reflexivity.
      - destruct (Hq 0%nat ltac:(lia)) as ([[w m] v] & E0). cbn [nth] in E0. rewrite E0. cbn [bind].
        rewrite (IH r); [reflexivity|simpl in Hr; lia|exact Hx|]. intros q Hlt. apply (Hq (S q)). lia. }
    rewrite Em. reflexivity.
  Qed.
End Mix.
