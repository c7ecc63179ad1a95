(** Mixtures written in different ways (C156). *)
From Coq Require Import String List Arith ZArith Bool Lia Reals Lra Permutation.
From Verif Require Import Num NumProofs PairwiseProofs Py NdArray NumpyLib Utils ScipyWrap Spec Values Ensemble Classes
  HistPdf SortProofs BinProofs EvalProofs NdProofs InterpProofs InterpPdfProofs HistProofs HistTheorems QuantTheorems MixmodTheorems
  Kinds KindProofs EnsembleProofs KindInputs ReachProofs RowProofs EnsembleTheorems IntegrateTheorems ConvertTheorems
  Hdf5 Hdf5Theorems MetricsProofs Profile ProfileTheorems ScaleTheorems.
Import ListNotations.
Local Open Scope string_scope.
Local Open Scope list_scope.
Local Open Scope R_scope.

(** Weight, mean and width of the components of PDF [r] *)
Definition components (n : nat) (means stds weights : list (list R)) (r : nat) : list (R * (R * R)) :=
  map (fun i => (at2 weights r i, (at2 means r i, at2 stds r i))) (seq 0 n).
Definition same_curve (c c' : R * R) : {c = c'} + {c <> c'}.
Proof. destruct c as [x y], c' as [x' y']. destruct (Req_EM_T x x') as [->|H]; [|right; congruence]. destruct (Req_EM_T y y') as [->|H]; [left; reflexivity|right; congruence]. Defined.
(** The weight a list of components gives to the normal curve with mean and width [c] *)
Fixpoint share (c : R * R) (l : list (R * (R * R))) : R :=
  match l with
  | [] => 0
  | (w, c') :: l => (if same_curve c' c then w else 0) + share c l
  end.
Definition has_weight (p : R * (R * R)) : bool := if Req_EM_T (fst p) 0 then false else true.

(** ** Sums over components depend on the shares only *)
Fixpoint mixed (g : R * R -> R) (l : list (R * (R * R))) : R :=
  match l with
  | [] => 0
  | (w, c) :: l => w * g c + mixed g l
  end.
Definition others (c : R * R) (l : list (R * (R * R))) : list (R * (R * R)) := filter (fun p => if same_curve (snd p) c then false else true) l.
Lemma mixed_split g c l : mixed g l = share c l * g c + mixed g (others c l).
Proof. induction l as [|[w c'] l IH]; [cbn; ring|]. cbn [mixed share others filter snd]. destruct (same_curve c' c) as [->|H]; [rewrite IH; unfold others; ring|]. cbn [mixed]. rewrite IH. unfold others. ring. Qed.
Lemma share_others c c' l : share c' (others c l) = if same_curve c' c then 0 else share c' l.
Proof.
  induction l as [|[w d] l IH]; [cbn; destruct (same_curve c' c); reflexivity|]. cbn [others filter snd share]. destruct (same_curve d c) as [->|H].
  - fold (others c l). rewrite IH. destruct (same_curve c' c) as [->|H']; [reflexivity|]. destruct (same_curve c c') as [E|_]; [congruence|]. ring.
  - cbn [share]. fold (others c l). rewrite IH. destruct (same_curve c' c) as [->|H']; [|reflexivity]. destruct (same_curve d c); [contradiction|ring].
Qed.
Lemma others_length c l : (length (others c l) <= length l)%nat.
Proof. induction l as [|p l IH]; [apply le_n|]. cbn [others filter]. destruct (same_curve (snd p) c); cbn [length]; unfold others in IH; lia. Qed.
Lemma mixed_none g : forall k l, (length l <= k)%nat -> (forall c, share c l = 0) -> mixed g l = 0.
Proof.
  induction k as [|k IH]; intros [|[w c] l] Hl H; try reflexivity; [simpl in Hl; lia|]. rewrite (mixed_split g c), H, Rmult_0_l, Rplus_0_l. apply IH.
  - cbn [others filter snd]. destruct (same_curve c c) as [_|C]; [|congruence]. simpl in Hl. pose proof (others_length c l) as H1. unfold others in H1. lia.
  - intros c'. rewrite share_others, H. destruct (same_curve c' c); reflexivity.
Qed.
Definition negated (l : list (R * (R * R))) := map (fun p : R * (R * R) => (- fst p, snd p)) l.
Lemma share_app c l l' : share c (l ++ l') = share c l + share c l'.
Proof. induction l as [|[w d] l IH]; [cbn; ring|]. cbn [app share]. rewrite IH. ring. Qed.
Lemma mixed_app g l l' : mixed g (l ++ l') = mixed g l + mixed g l'.
Proof. induction l as [|[w d] l IH]; [cbn; ring|]. cbn [app mixed]. rewrite IH. ring. Qed.
Lemma share_negated c l : share c (negated l) = - share c l.
Proof. induction l as [|[w d] l IH]; [cbn; ring|]. cbn [negated map share fst snd]. fold (negated l). rewrite IH. destruct (same_curve d c); ring. Qed.
Lemma mixed_negated g l : mixed g (negated l) = - mixed g l.
Proof. induction l as [|[w d] l IH]; [cbn; ring|]. cbn [negated map mixed fst snd]. fold (negated l). rewrite IH. ring. Qed.
Lemma mixed_same g l l' : (forall c, share c l = share c l') -> mixed g l = mixed g l'.
Proof.
  intros H. assert (E : mixed g (l ++ negated l') = 0); [|rewrite mixed_app, mixed_negated in E; lra]. apply (mixed_none g _ _ (le_n _)). intros c. rewrite share_app, share_negated, H. ring.
Qed.
Lemma share_weighted c l : share c (filter has_weight l) = share c l.
Proof. induction l as [|[w d] l IH]; [reflexivity|]. cbn [filter share]. unfold has_weight at 1. cbn [fst]. destruct (Req_EM_T w 0) as [->|H]; cbn [share]; rewrite IH; destruct (same_curve d c); ring. Qed.
Lemma share_perm c l l' : Permutation l l' -> share c l = share c l'.
Proof. induction 1 as [|[w d] l l' _ IH|[w d] [w' d'] l|l1 l2 l3 _ IH1 _ IH2]; cbn [share]; [reflexivity|rewrite IH; reflexivity|ring|congruence]. Qed.

Lemma mixed_rsum g n means stds weights r : mixed g (components n means stds weights r) = rsum n (fun i => at2 weights r i * g (at2 means r i, at2 stds r i)).
Proof.
  unfold components. induction n as [|n IH]; [reflexivity|]. rewrite seq_S, map_app, mixed_app, IH. cbn [rsum plus map mixed]. ring.
Qed.
Lemma mix_row n means stds weights r : mix_input n means stds weights -> (r < length means)%nat ->
  nth r (input_rows (IMix n means stds weights)) [] = [Nums (map (fun x => x / nsum (nth r weights [])) (nth r weights [])); Nums (nth r stds []); Nums (nth r means [])].
Proof.
  intros (_ & _ & Hs & Hw & _) Hr. cbn [input_rows]. match goal with |- nth _ (map2 ?f _ _) _ = _ => set (h := f) end.
  assert (G : forall ws (ls lm : list (list R)) r, length ls = length lm -> length ws = length lm -> (r < length lm)%nat -> nth r (map2 h ws (combine ls lm)) [] = h (nth r ws []) (nth r ls [], nth r lm [])).
  { induction ws as [|w ws IH]; intros [|l ls] [|m lm] [|r0] E1 E2 Hlt; simpl in *; try lia; [reflexivity|]. apply IH; lia. }
  etransitivity; [exact (G weights stds means r Hs Hw Hr)|reflexivity].
Qed.
(** C156 *)
Lemma c156_shares : forall X n means stds weights n' means' stds' weights', fill_outside X -> mix_input n means stds weights -> mix_input n' means' stds' weights' ->
  length means' = length means ->
  (forall r c, (r < length means)%nat -> share c (components n' means' stds' weights' r) = share c (components n means stds weights r)) ->
  exists e e', ens_new (create_of (qp X) "mixmod") (input_dict (IMix n means stds weights)) None = Ok e /\ ens_new (create_of (qp X) "mixmod") (input_dict (IMix n' means' stds' weights')) None = Ok e' /\
    forall m p, m = MPdf \/ m = MCdf -> on_points p -> evaluate m e' p = evaluate m e p.
Proof.
  intros X n means stds weights n' means' stds' weights' HX Hi Hi' Hlen Hsh.
  destruct (created X (IMix n means stds weights) HX Hi) as (e & E & _ & HD & _). destruct (created X (IMix n' means' stds' weights') HX Hi') as (e' & E' & _ & HD' & _). exists e, e'. split; [exact E|]. split; [exact E'|].
  intros m p Hm Hp. rewrite (rep_answers _ _ _ _ m p HD) by (cbn; intuition). rewrite (rep_answers _ _ _ _ m p HD') by (cbn; intuition). f_equal. rewrite !map_rows.
  pose proof (input_rows_length (IMix n means stds weights) Hi) as L1. pose proof (input_rows_length (IMix n' means' stds' weights') Hi') as L2. cbn [input_npdf] in L1, L2. rewrite L1, L2, Hlen. apply map_ext_in. intros r Hr. apply in_seq in Hr.
  assert (V : forall x, val (s_phi X) (s_Phi X) (s_quad X) (s_Phinv X) (KMix n') m (nth r (input_rows (IMix n' means' stds' weights')) []) x = val (s_phi X) (s_Phi X) (s_quad X) (s_Phinv X) (KMix n) m (nth r (input_rows (IMix n means stds weights)) []) x).
  { intros x. rewrite !mix_row by (assumption || lia). 
    assert (G : forall n means stds weights (g : R * R -> R), mix_input n means stds weights -> (r < length means)%nat ->
      rsum n (fun i => nth0 i (map (fun x => x / nsum (nth r weights [])) (nth r weights [])) * g (at2 means r i, at2 stds r i)) = mixed g (components n means stds weights r) / mixed (fun _ => 1) (components n means stds weights r)).
    { clear. intros n means stds weights g (Hn & Hne & Hls & Hlw & _ & _ & Hwl & _) Hr. rewrite !mixed_rsum. assert (Lw : length (nth r weights []) = n) by (apply Hwl, nth_In; lia).
      assert (T : rsum n (fun i => at2 weights r i * 1) = nsum (nth r weights [])) by (rewrite nsum_rsum, Lw; apply rsum_ext; intros; rewrite Rmult_1_r; reflexivity). rewrite T.
      unfold Rdiv at 2. rewrite <- InterpPdfProofs.rsum_scale. apply rsum_ext. intros i Hi. unfold nth0. rewrite (nth_map_in _ _ _ _ n0) by lia. change (nth i (nth r weights []) n0) with (at2 weights r i). unfold Rdiv. ring. }
    assert (Hs : forall g, mixed g (components n' means' stds' weights' r) = mixed g (components n means stds weights r)) by (intros g; apply mixed_same; intros c; apply Hsh; lia).
    destruct Hm as [-> | ->]; cbn [val]; unfold num_at, cell_at; cbn [nth nums]; f_equal.
    - etransitivity; [exact (G n' means' stds' weights' (fun c => s_phi X ((x - fst c) / snd c) / snd c) Hi' ltac:(lia))|]. etransitivity; [|symmetry; exact (G n means stds weights (fun c => s_phi X ((x - fst c) / snd c) / snd c) Hi ltac:(lia))]. rewrite !Hs. reflexivity.
    - etransitivity; [exact (G n' means' stds' weights' (fun c => s_Phi X ((x - fst c) / snd c)) Hi' ltac:(lia))|]. etransitivity; [|symmetry; exact (G n means stds weights (fun c => s_Phi X ((x - fst c) / snd c)) Hi ltac:(lia))]. rewrite !Hs. reflexivity. }
  destruct p as [x|l|M]; cbn [row_answer input_kind]; [rewrite V; reflexivity|apply map_ext; exact V|destruct Hp].
Qed.
Lemma c156_reordered : forall X n means stds weights n' means' stds' weights', fill_outside X -> mix_input n means stds weights -> mix_input n' means' stds' weights' ->
  length means' = length means ->
  (forall r, (r < length means)%nat -> Permutation (filter has_weight (components n' means' stds' weights' r)) (filter has_weight (components n means stds weights r))) ->
  exists e e', ens_new (create_of (qp X) "mixmod") (input_dict (IMix n means stds weights)) None = Ok e /\ ens_new (create_of (qp X) "mixmod") (input_dict (IMix n' means' stds' weights')) None = Ok e' /\
    forall m p, m = MPdf \/ m = MCdf -> on_points p -> evaluate m e' p = evaluate m e p.
Proof.
  intros X n means stds weights n' means' stds' weights' HX Hi Hi' Hlen H. apply c156_shares; try assumption. intros r c Hr. rewrite <- (share_weighted c (components n' _ _ _ r)), <- (share_weighted c (components n _ _ _ r)). apply share_perm, H, Hr.
Qed.

(** ** Examples: three components, the second without weight; the same without it and in the other order; a component written as two *)
Lemma mixA_ok : mix_input 3 [[0; 7; 1]] [[1; 2; 3]] [[1; 0; 2]].
Proof. split; [lia|]. split; [discriminate|]. do 2 (split; [reflexivity|]). do 3 (split; [intros l [<-|[]]; reflexivity|]). split; [intros [|r] [|[|[|i]]] Hr Hi; unfold at2, nth0; simpl in *; try lia; lra|]. split; [intros [|r] [|[|[|i]]] Hr Hi; unfold at2, nth0; simpl in *; try lia; lra|]. intros [|r] Hr; [|simpl in Hr; lia]. unfold at2, nth0. simpl. lra. Qed.
Lemma c156_reordered_example : exists n means stds weights n' means' stds' weights', mix_input n means stds weights /\ mix_input n' means' stds' weights' /\ n <> n' /\ length means' = length means /\
  forall r, (r < length means)%nat -> Permutation (filter has_weight (components n' means' stds' weights' r)) (filter has_weight (components n means stds weights r)).
Proof.
  exists 3%nat, [[0; 7; 1]], [[1; 2; 3]], [[1; 0; 2]], 2%nat, [[1; 0]], [[3; 1]], [[2; 1]]. split; [exact mixA_ok|]. split.
  { split; [lia|]. split; [discriminate|]. do 2 (split; [reflexivity|]). do 3 (split; [intros l [<-|[]]; reflexivity|]). split; [intros [|r] [|[|i]] Hr Hi; unfold at2, nth0; simpl in *; try lia; lra|]. split; [intros [|r] [|[|i]] Hr Hi; unfold at2, nth0; simpl in *; try lia; lra|]. intros [|r] Hr; [|simpl in Hr; lia]. unfold at2, nth0. simpl. lra. }
  split; [discriminate|]. split; [reflexivity|]. intros [|r] Hr; [|simpl in Hr; lia]. unfold components, at2, nth0. cbn [seq map nth filter]. unfold has_weight. cbn [fst]. repeat (match goal with |- context [Req_EM_T ?x ?y] => destruct (Req_EM_T x y); try lra end). apply perm_swap.
Qed.
Lemma c156_shares_example : exists n means stds weights n' means' stds' weights', mix_input n means stds weights /\ mix_input n' means' stds' weights' /\ n <> n' /\ length means' = length means /\
  forall r c, (r < length means)%nat -> share c (components n' means' stds' weights' r) = share c (components n means stds weights r).
Proof.
  exists 3%nat, [[0; 7; 1]], [[1; 2; 3]], [[1; 0; 2]], 4%nat, [[1; 0; 1; 5]], [[3; 1; 3; 2]], [[1; 1; 1; 0]]. split; [exact mixA_ok|]. split.
  { split; [lia|]. split; [discriminate|]. do 2 (split; [reflexivity|]). do 3 (split; [intros l [<-|[]]; reflexivity|]). split; [intros [|r] [|[|[|[|i]]]] Hr Hi; unfold at2, nth0; simpl in *; try lia; lra|]. split; [intros [|r] [|[|[|[|i]]]] Hr Hi; unfold at2, nth0; simpl in *; try lia; lra|]. intros [|r] Hr; [|simpl in Hr; lia]. unfold at2, nth0. simpl. lra. }
  split; [discriminate|]. split; [reflexivity|]. intros [|r] c Hr; [|simpl in Hr; lia]. unfold components, at2, nth0. cbn [seq map nth share]. repeat (match goal with |- context [if ?x then _ else _] => destruct x end); lra.
Qed.
