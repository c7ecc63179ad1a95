(** Ensembles that meet the hypotheses of the theorems about conversions. *)
From Coq Require Import String List Arith ZArith Bool Lia Reals Lra.
From Verif Require Import Num NumProofs Py NdArray NumpyLib Utils ScipyWrap Spec Values Ensemble Classes
  HistPdf Registry RegistryTheorems Convert InterpProofs HistProofs HistTheorems QuantTheorems MixmodTheorems
  Kinds KindProofs EnsembleProofs KindInputs ReachProofs EnsembleTheorems RowProofs IntegrateTheorems ConvertTheorems.
Import ListNotations.
Local Open Scope string_scope.
Local Open Scope list_scope.
Local Open Scope R_scope.

(** two histograms with bins 0, 1, 2 *)
Lemma hist1_ok : input_ok (IHist [0; 1; 2] [[1; 3]; [2; 2]]).
Proof.
  split; [repeat constructor; lra|]. split; [simpl; lia|]. split; [discriminate|].
  intros row [<-|[<-|[]]]; (split; [reflexivity|]; split; [intros [|[|i]] Hi; unfold nth0; simpl in *; try lra; lia|unfold nth0; simpl; lra]).
Qed.
Lemma c34_example : exists X e n F bins w, fill_outside X /\ source e n F /\ increasing bins /\ (2 <= length bins)%nat /\
  (forall r x y, (r < n)%nat -> x <= y -> F r x <= F r y) /\ (forall i, (i < pred (length bins))%nat -> width bins i = w) /\
  (forall r, (r < n)%nat -> F r (nth0 0 bins) = 0 /\ F r (nlast bins) = 1) /\ n = 2%nat /\ length bins = 3%nat.
Proof.
  pose proof hist1_ok as Hi. destruct (created scipy1 _ scipy1_fill Hi) as (e & _ & Hm & HD & Hsh & Hname & Eobj).
  destruct (c01_values [0; 1; 2] [[1; 3]; [2; 2]] Hi) as (h & Eh & _ & _ & _). destruct (c03_cdf _ _ h Hi Eh) as (F & EF & HF).
  assert (Eo : e_obj e = hist_obj h).
  { change (hist_create [("bins", VArr (nd1 [0; 1; 2])); ("pdfs", VArr (nd2 2 [[1; 3]; [2; 2]]))] = Ok (e_obj e)) in Eobj.
    rewrite (hist_create_eq [0; 1; 2] (nd2 2 [[1; 3]; [2; 2]])) in Eobj by (left; reflexivity). change 2%nat with (pred (length [0; 1; 2])) in Eobj at 1. rewrite Eh in Eobj. injection Eobj as <-. reflexivity. }
  assert (Ev : evaluates (ens_cdf e) 2 F) by (unfold ens_cdf; rewrite Eo; exact EF).
  exists scipy1, e, 2%nat, F, [0; 1; 2], 1. split; [apply scipy1_fill|]. split.
  { split; [lia|]. split; [exact Hsh|]. split; [exact Ev|]. intros l Hl. apply (grid_from_points scipy1 _ _ e MCdf l F HD (cdf_in _) Hl). intros x _. apply Ev. }
  destruct Hi as (Hs & Hn & _). split; [exact Hs|]. split; [exact Hn|]. split; [intros r x y Hr; apply HF; exact Hr|].
  split; [intros [|[|i]] Hi; unfold width, nth0; simpl in *; try lra; lia|].
  split; [intros r Hr; split; apply (HF r Hr); lra|]. split; reflexivity.
Qed.
Lemma c35_example : exists X M e bins w, fill_outside X /\ made X M e /\ vget (metadata e) "bins" = Some (VArr (mknd [1; length bins]%nat bins)) /\
  (forall i, (i < pred (length bins))%nat -> width bins i = w) /\ e_npdf e = 2%nat /\ length bins = 3%nat.
Proof.
  destruct (created scipy1 _ scipy1_fill hist1_ok) as (e & _ & Hm & HD & Hsh & Hname & _).
  exists scipy1, [MPdf; MCdf; MPpf], e, [0; 1; 2], 1. split; [apply scipy1_fill|]. split; [exact Hm|].
  split; [destruct (rep_meta _ _ _ _ HD) as (-> & _); reflexivity|]. split; [intros [|[|i]] Hi; unfold width, nth0; simpl in *; try lra; lia|].
  split; [exact (rep_npdf' _ _ _ _ HD)|reflexivity].
Qed.
Lemma interp1_ok : input_ok (IInterp [0; 1; 3] [[1; 2; 0]; [0; 5; 5]]).
Proof. exact GridTheorems.interp_input_example. Qed.
Lemma c35_interp_example : exists X M e xs, fill_outside X /\ made X M e /\ g_name (e_obj e) = "interp" /\
  vget (metadata e) "xvals" = Some (VArr (mknd [1; length xs]%nat xs)) /\ e_npdf e = 2%nat /\ length xs = 3%nat.
Proof.
  destruct (created scipy1 _ scipy1_fill interp1_ok) as (e & _ & Hm & HD & Hsh & Hname & _).
  exists scipy1, [MPdf; MCdf; MPpf], e, [0; 1; 3]. split; [apply scipy1_fill|]. split; [exact Hm|]. split; [exact Hname|].
  split; [destruct (rep_meta _ _ _ _ HD) as (-> & _); reflexivity|]. split; [exact (rep_npdf' _ _ _ _ HD)|reflexivity].
Qed.

(** two logistic distributions *)
Definition norm1 : input := INorm [0; 5] [1; 2].
Lemma norm1_ok : input_ok norm1.
Proof. split; [discriminate|]. split; [reflexivity|]. intros s [<-|[<-|[]]]; lra. Qed.
Definition loc1 (r : nat) : R := match r with O => 0 | _ => 5 end.
Definition scale1 (r : nat) : R := match r with O => 1 | _ => 2 end.
Lemma scale1_pos r : 0 < scale1 r. Proof. destruct r; simpl; lra. Qed.
Lemma norm1_facts : exists e f F Q, made scipy1 [MPdf; MCdf; MPpf] e /\ densities e 2 f /\ source e 2 F /\ quantiles e 2 Q /\
  (forall r x, (r < 2)%nat -> 0 < f r x) /\ (forall r x y, (r < 2)%nat -> x < y -> F r x < F r y) /\ (forall r p q, (r < 2)%nat -> p < q -> Q r p < Q r q).
Proof.
  destruct (created scipy1 _ scipy1_fill norm1_ok) as (e & _ & Hm & HD & Hsh & Hname & _).
  set (D := input_rows norm1) in HD.
  assert (Hrow : forall r, (r < 2)%nat -> nth r D [] = [Nums [loc1 r]; Nums [scale1 r]]) by (intros [|[|r]] Hr; [reflexivity|reflexivity|lia]).
  exists e, (fun r => pdf_of scipy1 KNorm (nth r D [])), (fun r => cdf_of scipy1 KNorm (nth r D [])), (fun r p => loc1 r + scale1 r * p).
  split; [exact Hm|]. split; [exact (rep_densities scipy1 _ _ e HD ltac:(discriminate))|].
  split; [split; [lia|split; [exact Hsh|]]; change 2%nat with (length D); rewrite <- (rep_npdf' scipy1 _ D e HD); exact (rep_computes scipy1 _ D e MCdf _ HD (cdf_in _) (cdf_fin scipy1 _))|].
  assert (Hexp : forall z, 0 < 1 + exp (- z)) by (intros z; pose proof (exp_pos (- z)); lra).
  split.
  { split; [lia|]. split; [exact Hsh|]. intros l Hl Hin. change 2%nat with (length D).
    change (ens_ppf e (PGrid l)) with (evaluate MPpf e (PGrid l)). rewrite (rep_answers scipy1 _ D e MPpf (PGrid l) HD ltac:(cbn; tauto) Hl).
    unfold table. reflexivity. }
  split; [|split].
  - intros r x Hr. rewrite Hrow by auto. unfold pdf_of. cbn [val num_at cell_at nth nums]. cbn. unfold nth0. cbn.
    pose proof (scale1_pos r). apply Rdiv_lt_0_compat; [|lra]. apply Rdiv_lt_0_compat; [apply exp_pos|]. rewrite Rmult_1_r. apply Rmult_lt_0_compat; apply Hexp.
  - intros r x y Hr Hxy. rewrite Hrow by auto. unfold cdf_of. cbn [val num_at cell_at nth nums]. cbn. unfold nth0. cbn.
    pose proof (scale1_pos r) as Hs. apply Rinv_lt_contravar; [apply Rmult_lt_0_compat; apply Hexp|]. apply Rplus_lt_compat_l. apply exp_increasing. apply Ropp_lt_contravar.
    apply Rmult_lt_compat_r; [apply Rinv_0_lt_compat; lra|lra].
  - intros r p q Hr Hpq. pose proof (scale1_pos r). nra.
Qed.
Lemma c84_example : exists X e n F bins, fill_outside X /\ source e n F /\ increasing bins /\ (2 <= length bins)%nat /\
  (forall r x y, (r < n)%nat -> x <= y -> F r x <= F r y) /\ (forall r, (r < n)%nat -> F r (nth0 0 bins) < F r (nlast bins)) /\ n = 2%nat /\ bins = [-1; 0; 3].
Proof.
  destruct norm1_facts as (e & f & F & Q & _ & _ & HF & _ & _ & Hinc & _). exists scipy1, e, 2%nat, F, [-1; 0; 3]. split; [apply scipy1_fill|]. split; [exact HF|].
  split; [repeat constructor; lra|]. split; [simpl; lia|]. split; [intros r x y Hr [H|<-]; [left; apply Hinc; auto|lra]|]. split; [intros r Hr; apply Hinc; auto; unfold nth0, nlast; simpl; lra|]. split; reflexivity.
Qed.
Lemma c86_example : exists X e n f xs, fill_outside X /\ densities e n f /\ increasing xs /\ (2 <= length xs)%nat /\
  (forall r x, (r < n)%nat -> In x xs -> 0 <= f r x) /\ (forall r, (r < n)%nat -> 0 < trapezium (f r) xs) /\ (forall r, (r < n)%nat -> 0 < right_rule (f r) xs) /\
  n = 2%nat /\ xs = [-1; 0; 3].
Proof.
  destruct norm1_facts as (e & f & F & Q & _ & Hf & _ & _ & Hp & _). exists scipy1, e, 2%nat, f, [-1; 0; 3]. split; [apply scipy1_fill|]. split; [exact Hf|].
  split; [repeat constructor; lra|]. split; [simpl; lia|]. split; [intros r x Hr _; left; auto|]. split; [|split; [|split; reflexivity]].
  - intros r Hr. unfold trapezium, nth0. simpl. pose proof (Hp r (-1) Hr). pose proof (Hp r 0 Hr). pose proof (Hp r 3 Hr). lra.
  - intros r Hr. unfold right_rule, nth0. simpl. pose proof (Hp r 0 Hr). pose proof (Hp r 3 Hr). lra.
Qed.
Lemma c88_example : exists X e n Q qs, fill_outside X /\ interpolates (s_quad X) /\ quantiles e n Q /\ increasing qs /\ (2 <= length qs)%nat /\
  inside qs /\ / 2 ^ 52 < nth0 0 qs /\ (forall r, (r < n)%nat -> increasing (map (Q r) qs)) /\ n = 2%nat /\ length qs = 3%nat.
Proof.
  destruct norm1_facts as (e & f & F & Q & _ & _ & _ & HQ & _ & _ & Hinc). exists scipy1, e, 2%nat, Q, [1/4; 1/2; 3/4]. split; [apply scipy1_fill|].
  split; [exact interpolates_example|]. split; [exact HQ|]. split; [repeat constructor; lra|]. split; [simpl; lia|].
  split; [intros p [<-|[<-|[<-|[]]]]; lra|]. split; [unfold nth0; simpl; lra|]. split; [|split; reflexivity].
  intros r Hr. repeat constructor; apply Hinc; auto; lra.
Qed.
(** histories of registrations *)
Lemma c83_example : exists (H : hierarchy nat) l c w l', mro_ok H /\ w = snd (add_class H (acts H (start nat) l) c) /\
  fst (add_class H (acts H (start nat) l) c) = Ok tt /\ orderly H w l' /\ length (h_mappings H c) = 1%nat /\ length (made_on c l') = 2%nat /\
  method_of H (acts H w l') Creation c (Some "fast") = Some 8%nat.
Proof.
  exists (mkhier (fun c => match c with 1%nat => Some "foo" | 2%nat => Some "bar" | _ => None end) (fun c => [mkreg Creation c None]) (fun _ => None) (fun c => [c; 0%nat])).
  exists [AddClass 1%nat], 2%nat. eexists. exists [Register 2%nat (mkreg Creation 8%nat (Some "fast")); Register 1%nat (mkreg Creation 7%nat (Some "fast")); Register 2%nat (mkreg Creation 9%nat (Some "fast"))].
  split; [intros c; exists [0%nat]; reflexivity|]. split; [reflexivity|]. split; [reflexivity|]. split; [|repeat split].
  simpl. split; [exists "bar"; reflexivity|]. split; [exists "foo"; reflexivity|]. split; [exists "bar"; reflexivity|exact I].
Qed.
