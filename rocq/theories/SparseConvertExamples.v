(** Examples for C128: flat basis functions. *)
From Coq Require Import String List Arith ZArith Bool Lia Reals Lra.
From Coquelicot Require Import Coquelicot.
From Verif Require Import Num NumProofs Py NdArray NumpyLib Utils ScipyWrap Spec Values Ensemble Classes InterpPdf Convert SampleConvert
  SortProofs BinProofs EvalProofs NdProofs InterpProofs IntegralProofs HistProofs MixmodTheorems Kinds KindProofs EnsembleProofs KindInputs
  ReachProofs EnsembleTheorems RowProofs IntegrateTheorems GridTheorems ConvertTheorems ConvertExamples Sparse SparseTheorems SparseConvert SparseConvertTheorems.
Import ListNotations.
Local Open Scope string_scope.
Local Open Scope list_scope.
Local Open Scope R_scope.

Definition flat : R -> R -> R -> R := fun _ _ _ => 1.
Definition unit_root : R -> R := fun _ => 1.
Definition first_guess : list (list R) -> list R -> list R := fun _ alpha => alpha.
Definition never : list (list R) -> list R -> bool := fun _ _ => false.

Lemma flat_column xs p : basis_column flat unit_root (/ 10 ^ 5) xs p = map (fun _ => 1) xs.
Proof.
  destruct p as ((m, s), g). unfold basis_column. rewrite map_map. apply map_ext. intros x. unfold flat, norm, unit_root.
  match goal with |- ndiv (if ?c then _ else _) _ = _ => assert (E : c = true) end.
  { match goal with |- nleb ?a ?b = _ => destruct (nleb_reflect a b) as [|C]; [reflexivity|] end. exfalso. apply C. change (/ 10 ^ 5 <= 1). lra. }
  rewrite E. cbn [ndiv RNum]. lra.
Qed.
Lemma argmax_same (v : R) k : forall i bi, argmax_from v bi i (repeat v k) = bi.
Proof.
  induction k as [|k IH]; intros i bi; [reflexivity|]. cbn [repeat argmax_from]. destruct (nltb_reflect v v) as [C|_]; [exfalso; lra|]. apply IH.
Qed.
Lemma map_repeat' {A B} (f : A -> B) x k : map f (repeat x k) = repeat (f x) k.
Proof. induction k; cbn; congruence. Qed.

(** the pursuit in a dictionary of equal columns *)
Lemma flat_pursuit (c q : list R) k tol : 1 <= dot c q ->
  build_one unit_root first_guess never 20 tol (repeat c (S k)) q = Ok ([combine_int (nround (dot c q / (1 / 32000))) 0], repeat c (S k)).
Proof.
  intros Ha. unfold build_one, sparse_basis. cbn [Nat.eqb length repeat]. change (c :: repeat c k) with (repeat c (S k)).
  set (s0 := mkpursuit _ _ _ _ _). set (D := repeat c (S k)) in *.
  assert (AM : forall h : list R -> R, np_argmax (map h D) = 0%nat).
  { intros h. unfold D. rewrite map_repeat'. cbn [repeat np_argmax]. apply argmax_same. }
  assert (EL : forall m, exists s, pursuit_loop unit_root first_guess never q (Some tol) (S (S m)) 0 s0 = (1%nat, s) /\ p_gamma s = Some [dot c q] /\ firstn 1 (p_idx s) = [0%nat] /\ p_dict s = D).
  { intros m. set (s1 := pursuit_step first_guess q 0 0 s0).
    assert (H1 : p_gamma s1 = Some [dot c q] /\ firstn 1 (p_idx s1) = [0%nat] /\ p_dict s1 = D) by (split; [|split]; reflexivity).
    exists s1. split; [|exact H1]. cbn [pursuit_loop]. change (p_dict s0) with D. rewrite AM. cbn [Nat.ltb Nat.leb orb andb].
    change (nth0 0 (p_alpha s0)) with (dot c q).
    match goal with |- context [nltb ?a ?b] => destruct (nltb_reflect a b) as [C|_]; [exfalso; revert C; unfold machine_eps, nfrac; change (~ dot c q * dot c q < 1 / IZR (2 ^ 52)); intros C; assert (1 <= dot c q * dot c q) by nra; assert (1 / IZR (2 ^ 52) <= 1) by (rewrite <- (Rmult_1_r 1) at 2; apply Rmult_le_compat_l; [lra|]; rewrite <- Rinv_1; apply Rinv_le_contravar; [lra|]; apply IZR_le; lia); lra|] end.
    fold s1. match goal with |- (if ?b then _ else _) = _ => destruct b; [reflexivity|] end.
    destruct H1 as (_ & _ & H1). rewrite H1, AM. reflexivity. }
  destruct (EL 18%nat) as (s & -> & -> & -> & ->). cbn [length Nat.eqb orb negb bind Nat.ltb Nat.leb].
  f_equal. f_equal. unfold encode. cbn [nhead tl hd nmaximum fold_left map upd map2].
  destruct (nltb_reflect n0 (dot c q)) as [_|C]; [reflexivity|]. exfalso. apply C. change (0 < dot c q). lra.
Qed.
Lemma flat_dictionary xs mu nmu sig nsig nv : create_voigt_basis flat unit_root xs mu nmu sig nsig nv (/ 10 ^ 5) = repeat (map (fun _ => 1) xs) (nmu * (nsig * nv)).
Proof.
  unfold create_voigt_basis. rewrite <- (params_length mu sig nmu nsig nv). generalize (basis_params mu sig nmu nsig nv) as l. induction l as [|p l IH]; [reflexivity|].
  cbn [map length repeat]. rewrite flat_column, IH. reflexivity.
Qed.
Lemma flat_sum a b n z j : (4 <= n <= 363)%nat -> (j < n)%nat -> line_sum flat unit_root a b n (pad 20 [combine_int z 0]) j = 1.
Proof.
  intros Hn Hj. unfold line_sum. assert (Hw : (1 <= n_widths n)%nat) by (unfold n_widths; apply Nat.div_le_lower_bound; lia).
  rewrite (decode_pairs (n * (n_widths n * 3)) _ ((z, 0%nat) :: repeat (0%Z, 0%nat) 19)).
  2:{ replace (n * (n_widths n * 3))%nat with (3 * n * n_widths n)%nat by lia. apply c128_bases. lia. }
  2:{ split; [reflexivity|]. intros z' b' H. assert (b' = 0%nat) by (destruct H as [H|H]; [injection H as _ <-; reflexivity|apply repeat_spec in H; congruence]). subst. nia. }
  cbn [fst snd]. unfold coded. assert (E : forall i, nth0 j (basis_column flat unit_root (/ 10 ^ 5) (spaced a b n) i) = 1).
  { intros i. rewrite flat_column. unfold nth0. rewrite (nth_map_in _ (spaced a b n) j _ 0); [reflexivity|]. unfold spaced. rewrite map_length, seq_length. exact Hj. }
  erewrite rsum_ext; [|intros t Ht; rewrite E; reflexivity]. cbn [map fst snd repeat length decode_weights]. cbn [nofZ nmul ndiv n1 RNum rsum nth0 nth]. lra.
Qed.

(** one PDF on [0, 1, 2, 4] with the values 1, 2, 1, 0 *)
Lemma tail_ok : input_ok (IInterp [0; 1; 2; 4] [[1; 2; 1; 0]]).
Proof.
  repeat split.
  - repeat constructor; lra.
  - simpl; lia.
  - discriminate.
  - destruct H as [<-|[]]; auto.
  - destruct H as [<-|[]]; intros [|[|[|[|k]]]] Hi; unfold nth0; simpl in *; try lra; lia.
  - destruct H as [<-|[]]; unfold nth0; simpl; lra.
Qed.
Lemma tail_row : inorm [0; 1; 2; 4] [1; 2; 1; 0] = [1 / 4; 1 / 2; 1 / 4; 0].
Proof.
  unfold inorm. assert (E : nlast (ycumul_row [0; 1; 2; 4] [1; 2; 1; 0]) = 4).
  { etransitivity; [refine (irow_last [0; 1; 2; 4] [[1; 2; 1; 0]] tail_ok 0 _); cbn; lia|]. unfold irow, InterpPdfProofs.area, InterpPdfProofs.trap, nth0. cbn [length pred rsum nth]. lra. }
  rewrite E. cbn [map]. repeat (apply (f_equal2 cons); [lra|]). reflexivity.
Qed.
Lemma tail_facts : exists e f, made scipy1 [MPdf; MCdf; MPpf] e /\ g_name (e_obj e) = "interp" /\ vget (metadata e) "xvals" = Some (VArr (mknd [1; 4]%nat [0; 1; 2; 4])) /\
  e_npdf e = 1%nat /\ evaluates (ens_pdf e) 1 f /\ forall x, f 0%nat x = interp1d [0; 1; 2; 4] [1 / 4; 1 / 2; 1 / 4; 0] 0 0 x.
Proof.
  destruct (created scipy1 _ scipy1_fill tail_ok) as (e & _ & Hm & HD & Hsh & Hname & _).
  pose proof (rep_npdf' _ _ _ _ HD) as HN. cbn [input_rows map length] in HN.
  destruct (rep_densities scipy1 _ _ e HD ltac:(discriminate)) as (_ & _ & Hf & _). cbn [input_rows map length] in Hf.
  eexists e, _. split; [exact Hm|]. split; [exact Hname|]. split; [destruct (rep_meta _ _ _ _ HD) as (-> & _); reflexivity|]. split; [exact HN|]. split; [exact Hf|].
  intros x. unfold pdf_of. cbn [nth]. cbn [val interp_val input_kind].
  pose proof HD as (_ & _ & HG & _). rewrite Forall_forall in HG. destruct (HG _ (or_introl eq_refl)) as [_ Hnorm]. cbn [num_at nth] in Hnorm |- *.
  rewrite tail_row in Hnorm |- *. exact (f_equal (fun l => interp1d [0; 1; 2; 4] l 0 0 x) Hnorm).
Qed.
Lemma c128_example : exists X voigt sqrt chol dependent M e xs nvals f top lines, fill_outside X /\
  made X M e /\ g_name (e_obj e) = "interp" /\ vget (metadata e) "xvals" = Some (VArr (mknd [1; length xs]%nat xs)) /\
  evaluates (ens_pdf e) (e_npdf e) f /\ highest xs (e_npdf e) f top /\ nth0 0 xs < top /\ top < nlast xs /\ (4 <= points_asked nvals <= 363)%nat /\
  all_shown voigt (nth0 0 xs) top (points_asked nvals) /\
  pursued voigt sqrt chol dependent (nth0 0 xs) top (points_asked nvals) (at_grid f (spaced (nth0 0 xs) top (points_asked nvals)) (e_npdf e)) = Ok lines /\
  forall r, (r < e_npdf e)%nat -> (forall j, (j < points_asked nvals)%nat -> 0 <= line_sum voigt sqrt (nth0 0 xs) top (points_asked nvals) (pad 20 (nth r lines [])) j) /\
    exists j, (j < points_asked nvals)%nat /\ 0 < line_sum voigt sqrt (nth0 0 xs) top (points_asked nvals) (pad 20 (nth r lines [])) j.
Proof.
  destruct tail_facts as (e & f & Hm & Hname & Hx & HN & Hf & Ef).
  assert (Hinc : increasing [0; 1; 2; 4]) by (repeat constructor; lra).
  assert (Kn : forall i, (i < 4)%nat -> f 0%nat (nth0 i [0; 1; 2; 4]) = nth0 i [1 / 4; 1 / 2; 1 / 4; 0]) by (intros i Hi; rewrite Ef; apply interp1d_knot; auto).
  pose proof (Kn 0%nat ltac:(lia)) as K0. pose proof (Kn 2%nat ltac:(lia)) as K2. pose proof (Kn 3%nat ltac:(lia)) as K3. unfold nth0 in K0, K2, K3. cbn [nth] in K0, K2, K3.
  assert (V1 : f 0%nat (2 / 3) = 5 / 12) by (rewrite Ef, (interp1d_seg _ _ 0 0 _ 0); [unfold seg, nth0; cbn [nth]; lra|apply inc_nd, Hinc|cbn; lia|unfold nth0; cbn [nth]; lra]).
  assert (V2 : f 0%nat (4 / 3) = 5 / 12) by (rewrite Ef, (interp1d_seg _ _ 0 0 _ 1); [unfold seg, nth0; cbn [nth]; lra|apply inc_nd, Hinc|cbn; lia|unfold nth0; cbn [nth]; lra]).
  assert (ES : spaced 0 2 4 = [0; 2 / 3; 4 / 3; 2]) by (unfold spaced; cbn [Nat.sub seq map INR]; repeat (apply (f_equal2 cons); [lra|]); reflexivity).
  exists scipy1, flat, unit_root, first_guess, never, [MPdf; MCdf; MPpf], e, [0; 1; 2; 4], (Some 4%nat), f, 2.
  change (nth0 0 [0; 1; 2; 4]) with 0. change (points_asked (Some 4%nat)) with 4%nat. rewrite HN.
  set (q := map (f 0%nat) [0; 2 / 3; 4 / 3; 2]).
  assert (Hq : dot [1; 1; 1; 1] q = 4 / 3) by (unfold q; cbn [map]; rewrite K0, V1, V2, K2; unfold dot; cbn; lra).
  exists [[combine_int (nround (dot [1; 1; 1; 1] q / (1 / 32000))) 0]].
  split; [apply scipy1_fill|]. split; [exact Hm|]. split; [exact Hname|]. split; [exact Hx|]. split; [exact Hf|].
  split.
  { split; [right; right; left; reflexivity|]. split; [exists 0%nat; split; [lia|]; rewrite K2; lra|].
    intros r x Hr [<-|[<-|[<-|[<-|[]]]]] Hp; try lra. replace r with 0%nat in Hp by lia. rewrite K3 in Hp. lra. }
  split; [lra|]. split; [unfold nlast; cbn [last]; lra|]. split; [lia|]. split.
  { intros ((m, s), g) _. exists 0%nat. split; [rewrite ES; simpl; lia|]. unfold flat. lra. }
  split.
  - unfold pursued. rewrite flat_dictionary, ES. change (4 * (n_widths 4 * 3))%nat with (S 11). unfold at_grid. cbn [seq map]. change (map (f 0%nat) [0; 2 / 3; 4 / 3; 2]) with q.
    unfold build_all. change [f 0%nat 0; f 0%nat (2/3); f 0%nat (4/3); f 0%nat 2] with q. rewrite flat_pursuit by lra. reflexivity.
  - intros r Hr. replace r with 0%nat by lia. cbn [nth]. split; [intros j Hj; rewrite flat_sum by lia; lra|]. exists 0%nat. split; [lia|]. rewrite flat_sum by lia. lra.
Qed.
