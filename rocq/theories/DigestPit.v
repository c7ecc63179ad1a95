(** PIT computed in chunks (C113). *)
From Coq Require Import QArith String List Arith ZArith Bool Sorted Permutation Lia Reals Lra.
From Verif Require Import Num NumProofs Py NdArray NumpyLib ScipyWrap Spec Values Ensemble Classes Kinds EnsembleProofs KindInputs ReachProofs EnsembleTheorems
  SortProofs EvalProofs InterpProofs BinProofs MixmodTheorems HistProofs QuantPdf Fit FitProofs FitTheorems PointMetrics PointProofs PointTheorems Pit PitTheorems PitExamples Digest DigestTheorems DigestExamples.
Import ListNotations.
Local Open Scope list_scope.
Local Open Scope R_scope.

Lemma mapM_values {A B} (f : A -> res B) (g : A -> B) l : (forall x, In x l -> f x = Ok (g x)) -> mapM f l = Ok (map g l).
Proof. induction l as [|x l IH]; intros H; [reflexivity|]. cbn [mapM map]. rewrite (H x) by (left; reflexivity). cbn [bind]. rewrite IH by (intros; apply H; right; assumption). reflexivity. Qed.
(** a digest that keeps everything gives the table of the values *)
Lemma digest_table d l grid : summarises 0 d l -> l <> [] -> prob_grid grid -> pit_table l grid = Ok (pit_table_digest d grid).
Proof.
  intros (Hw & _ & Hq) Hl Hg. specialize (Hq Hl).
  assert (Ht : Z.to_nat (nfloor (d_weight d)) = length l). { rewrite Hw. rewrite (nfloor_unique (INR (length l)) (Z.of_nat (length l))) by (rewrite INR_IZR_INZ; lra). apply Nat2Z.id. }
  unfold pit_table, pit_table_digest. cbv zeta. rewrite Ht. fold (pit_grid l grid). destruct (pit_grid_ok l grid Hg Hl) as [_ Hr].
  rewrite (mapM_values (np_quantile l) (d_inv d)); [reflexivity|]. intros p Hp. destruct (quantile_some l p Hl (Hr p Hp)) as (v & E). rewrite E. f_equal.
  pose proof (Hq p v (Hr p Hp) (quantile_lin l p v Hl (Hr p Hp) E)) as H. unfold Rabs in H. destruct (Rcase_abs _) in H; lra.
Qed.
Lemma digest_ensemble create d l grid : summarises 0 d l -> l <> [] -> prob_grid grid -> pit_from_digest create d grid = pit_ensemble create l grid.
Proof. intros H Hl Hg. unfold pit_from_digest, pit_ensemble. cbv zeta. rewrite (digest_table d l grid H Hl Hg). reflexivity. Qed.
Section Implementation.
  Context {D Cs : Type} (digest_of : list R -> D) (centroids_of : D -> Cs) (of_centroids : Cs -> D) (add : D -> D -> D) (view : D -> digest R).
  (** [samples c] are the PIT values of the chunk [c] *)
  Lemma c113_chunks : forall create grid chunks samples, digest_laws digest_of centroids_of of_centroids add (fun D l => summarises 0 (view D) l) ->
    prob_grid grid -> chunks <> [] -> (forall c, In c chunks -> samples c <> [] /\ exists p, pit_new create (fst c) (snd c) grid = Ok (samples c, p)) ->
    exists cs, mapM (fun c => pit_accumulate digest_of centroids_of create grid (fst c) (snd c)) chunks = Ok cs /\
      pit_finalize of_centroids add view create grid cs = pit_ensemble create (concat (map samples chunks)) grid.
  Proof using.
    intros create grid chunks samples (L1 & L2 & L3) Hg Hne Hc.
    assert (Ha : forall c, In c chunks -> pit_accumulate digest_of centroids_of create grid (fst c) (snd c) = Ok (centroids_of (digest_of (samples c)))).
    { intros c Hin. destruct (Hc c Hin) as (_ & p & E). unfold pit_accumulate. rewrite E. cbn [bind]. unfold pit_new in E. destruct (gather_pit_samples (fst c) (snd c)) as [s|]; [|discriminate]. cbn [bind] in E |- *.
      destruct (pit_ensemble create s grid); [|discriminate]. cbn [bind] in E. injection E as -> _. reflexivity. }
    exists (map (fun c => centroids_of (digest_of (samples c))) chunks). split; [apply mapM_values; exact Ha|].
    destruct chunks as [|c cs]; [congruence|]. unfold pit_finalize, finalize_digests. cbn [map]. set (d := fold_left add _ _). cbn [bind].
    assert (G : forall cs d l, summarises 0 (view d) l -> summarises 0 (view (fold_left add (map of_centroids (map (fun c => centroids_of (digest_of (samples c))) cs)) d)) (l ++ concat (map samples cs))).
    { induction cs0 as [|c0 cs0 IH]; intros d0 l Hd; cbn [map fold_left concat]; [rewrite app_nil_r; exact Hd|]. rewrite app_assoc. apply IH. apply L3; [exact Hd|apply L2, L1]. }
    cbn [concat map]. apply digest_ensemble; [apply G, L2, L1| |exact Hg]. destruct (Hc c ltac:(left; reflexivity)) as [Hs _]. destruct (samples c); [congruence|discriminate].
  Qed.
  (** the same for reachable ensembles: chunk k holds PDFs with the distribution functions [F k] *)
  Lemma c113_reachable : forall X grid (chunks : list (ens R * list R)) F, fill_outside X -> digest_laws digest_of centroids_of of_centroids add (fun D l => summarises 0 (view D) l) ->
    prob_grid grid -> chunks <> [] ->
    let values c := map (fun r => F c r (nth r (snd c) 0)) (seq 0 (length (snd c))) in
    (forall c, In c chunks -> has_cdf X (fst c) (length (snd c)) (F c) /\ (2 <= length (snd c))%nat /\ exists p, pit_ensemble (create_of (qp X) "quant") (values c) grid = Ok p) ->
    exists cs, mapM (fun c => pit_accumulate digest_of centroids_of (create_of (qp X) "quant") grid (fst c) (snd c)) chunks = Ok cs /\
      pit_finalize of_centroids add view (create_of (qp X) "quant") grid cs = pit_ensemble (create_of (qp X) "quant") (concat (map values chunks)) grid.
  Proof using.
    intros X grid chunks F HX HL Hg Hne values Hc. apply c113_chunks; [exact HL|exact Hg|exact Hne|]. intros c Hin. destruct (Hc c Hin) as (H1 & H2 & p & Hp). split.
    - unfold values. destruct (length (snd c)); [lia|discriminate].
    - exists p. unfold pit_new. rewrite (pit_samples_eq X (fst c) _ (F c) (snd c) HX H1 H2 eq_refl). cbn [bind]. unfold values in Hp. rewrite Hp. reflexivity.
  Qed.
  Lemma c113_one : forall X create grid e F t, fill_outside X -> has_cdf X e 1 F -> pit_accumulate digest_of centroids_of create grid e [t] = Err TypeError.
  Proof using. intros X create grid e F t HX He. unfold pit_accumulate. rewrite (c102_one X e F t grid create HX He). reflexivity. Qed.
  Lemma c113_zeros : forall X e n F truth grid, fill_outside X -> has_cdf X e n F -> (2 <= n)%nat -> length truth = n -> prob_grid grid ->
    (forall r, (r < n)%nat -> F r (nth r truth 0) = 0) \/ (forall r, (r < n)%nat -> F r (nth r truth 0) = 1) ->
    pit_accumulate digest_of centroids_of (create_of (qp X) "quant") grid e truth = Err ValueError.
  Proof using. intros X e n F truth grid HX He Hn Ht Hg H. unfold pit_accumulate. rewrite (c102_empty X e n F truth grid HX He Hn Ht Hg H). reflexivity. Qed.
  Lemma c113_none : forall (create : vdict R -> res (gobj R)) grid, pit_finalize of_centroids add view create grid [] = Err TypeError.
  Proof using. reflexivity. Qed.
End Implementation.

(** three histograms as a chunk, taken twice *)
Lemma c113_example : exists X e F, fill_outside X /\ digest_laws (fun l => l) (fun d => d) (fun c => c) (@app R) (fun d l => summarises 0 (exact_view d) l) /\
  prob_grid [0; 1/2; 1] /\ has_cdf X e 3 F /\ map (fun r => F r (nth r [1/2; 1/2; 1/2] 0)) (seq 0 3) = [1/4; 1/8; 3/8] /\
  exists p, pit_ensemble (create_of (qp X) "quant") [1/4; 1/8; 3/8] [0; 1/2; 1] = Ok p.
Proof.
  destruct c44_example as (X & e & F & H1 & _ & H3 & _ & H5). destruct c102_example as (G1 & G2 & _). exists X, e, F.
  split; [exact H1|]. split; [apply exact_laws|]. split; [exact G1|]. split; [exact H3|]. split; [exact H5|].
  destruct (c102_ensemble X e 3 F [1/2; 1/2; 1/2] [0; 1/2; 1] H1 H3 ltac:(lia) eq_refl G1 G2) as (qs & ls & Ht & Hp). rewrite H5 in Ht, Hp.
  destruct Ht as (_ & Hi & _ & _ & _ & Hall).
  assert (Hq : forall p i, In p [0; 1/2; 1] -> p * 2 = INR i -> (i < 3)%nat -> lin_quantile [1/4; 1/8; 3/8] p (nth i [1/8; 1/4; 3/8] 0)).
  { intros p i _ Hpi Hi3. exists [1/8; 1/4; 3/8], i, 0. split; [apply perm_swap|]. split; [repeat constructor; lra|]. split; [exact Hi3|]. split; [lra|]. cbn [length INR]. split; lra. }
  assert (A : In (1/8) ls) by (apply (Hall 0 (1/8)); [left; reflexivity|apply (Hq 0 0%nat); [left; reflexivity|simpl; lra|lia]|lra]).
  assert (B : In (1/4) ls) by (apply (Hall (1/2) (1/4)); [right; left; reflexivity|apply (Hq (1/2) 1%nat); [right; left; reflexivity|simpl; lra|lia]|lra]).
  assert (C : In (3/8) ls) by (apply (Hall 1 (3/8)); [right; right; left; reflexivity|apply (Hq 1 2%nat); [right; right; left; reflexivity|simpl; lra|lia]|lra]).
  assert (L : (3 <= length ls)%nat).
  { change 3%nat with (length [1/8; 1/4; 3/8]). apply NoDup_incl_length; [repeat constructor; cbn; intros H; repeat destruct H as [H|H]; try lra; destruct H|].
    intros x Hx. repeat destruct Hx as [<-|Hx]; auto. destruct Hx. }
  destruct (Hp ltac:(lia) ltac:(left; exact L)) as (p & _ & _ & E & _). exists p. unfold pit_new in E. destruct (gather_pit_samples e [1/2; 1/2; 1/2]) as [v|]; [|discriminate]. cbn [bind] in E.
  destruct (pit_ensemble (create_of (qp X) "quant") v [0; 1/2; 1]) as [q|] eqn:Eq; [|discriminate]. cbn [bind] in E. injection E as -> ->. exact Eq.
Qed.
