(** Selections from histogram ensembles in double precision: C142. *)
From Coq Require Import String List Arith ZArith Bool Lia Reals Lra Psatz Floats.SpecFloat.
From Flocq Require Import Core.Zaux Core.Raux.
From Verif Require Import Num NumProofs Py NdArray NumpyLib Utils ScipyWrap Values Ensemble Classes HistPdf Spec EvalProofs BinProofs KindProofs Kinds EnsembleProofs EnsembleTheorems
  Float FloatProofs FloatHist FloatMachine FloatTheorems FloatExamples FloatNorm FloatSlice.
Import ListNotations.
Local Open Scope string_scope.
Local Open Scope list_scope.
Local Open Scope R_scope.

(** ** Specification *)
(** Bin edges: doubles of magnitude at most 2^400, at least 2^-800 apart, at most 2^40 of them. *)
Definition wide_edges (edges : list spec_float) : Prop :=
  (2 <= length edges)%nat /\ INR (length edges) <= 2 ^ 40 /\ (forall b, In b edges -> modest b) /\
  (forall i, (S i < length edges)%nat -> / 2 ^ 800 <= val64 (nth (S i) edges zero64) - val64 (nth i edges zero64)).
(** The values of the histograms as the ensemble reports them, e.objdata()["pdfs"]. *)
Definition reports (e : ens spec_float) (n : nat) (rows : list (list spec_float)) : Prop :=
  vget (objdata e) "pdfs" = Some (VArr (nd2 n rows)) /\ forall row, In row rows -> length row = n.
(** [e'] results from [e] by [m] selections one after the other; its PDFs are the PDFs [ps] of [e]. *)
Inductive chosen (cc : string -> option (vdict spec_float -> res (gobj spec_float))) : nat -> ens spec_float -> ens spec_float -> list nat -> Prop :=
| chosen_none e : chosen cc 0 e e (seq 0 (e_npdf e))
| chosen_more m e e1 e2 ps key qs : chosen cc m e e1 ps -> picks (e_npdf e1) key qs -> getitem cc e1 key = Ok e2 -> chosen cc (S m) e e2 (select 0%nat ps qs).
Definition hist_args (edges : list spec_float) (rows : list (list spec_float)) : vdict spec_float :=
  [("bins", VArr (nd1 edges)); ("pdfs", VArr (nd2 (pred (length edges)) rows))].

Lemma select_nth {A} (d : A) l ps r : (r < length ps)%nat -> nth r (select d l ps) d = nth (nth r ps 0%nat) l d.
Proof. intros H. unfold select. rewrite nth_map_in with (d' := 0%nat) by exact H. reflexivity. Qed.

(** ** One normalisation *)
Section One.
  Variable edges : list spec_float.
  Hypothesis He : wide_edges edges.
  Let n := pred (length edges).
  Let y (row : list spec_float) := fun i => val64 (nth i row zero64).
  Let W := fun i => val64 (nth (S i) edges zero64) - val64 (nth i edges zero64).
  Definition once (row : list spec_float) : list spec_float := hist_norm_row (N := SFNum) (bin_widths (N := SFNum) edges) row.
  Definition settled (row : list spec_float) : Prop :=
    length row = n /\ (forall i, (i < n)%nat -> fin64 (nth i row zero64) /\ 0 <= y row i <= bpow radix2 901) /\ Rabs (area edges row - 1) <= (INR n + 4) / 2 ^ 51.
  Lemma l_len : length edges = S n. Proof. unfold n. destruct He as [H _]. lia. Qed.
  Lemma l_n : INR n <= 2 ^ 40. Proof. destruct He as (_ & H & _). rewrite l_len, S_INR in H. lra. Qed.
  Lemma l_W i : (i < n)%nat -> / 2 ^ 800 <= W i. Proof. intros H. apply He. rewrite l_len. lia. Qed.
  Lemma l_inc i : (S i < length edges)%nat -> val64 (nth i edges zero64) <= val64 (nth (S i) edges zero64).
  Proof. intros H. assert (A : (i < n)%nat) by (rewrite l_len in H; lia). pose proof (l_W i A) as B. unfold W in B. assert (0 < / 2 ^ 800) by (apply Rinv_0_lt_compat, pow_lt; lra). lra. Qed.
  Lemma l_pos i : (i < n)%nat -> 0 <= W i. Proof. intros H. pose proof (l_W i H). assert (0 < / 2 ^ 800) by (apply Rinv_0_lt_compat, pow_lt; lra). lra. Qed.
  Lemma l_tot : rsum n W <= 2 ^ 502.
  Proof.
    unfold W. rewrite (rsum_tele n (fun i => val64 (nth i edges zero64))). destruct He as (_ & _ & M & _). assert (B : forall i, (i <= n)%nat -> Rabs (val64 (nth i edges zero64)) <= 2 ^ 400) by (intros i Hi; apply M, nth_In; rewrite l_len; lia).
    pose proof (B n (le_n n)) as B1. pose proof (B 0%nat (Nat.le_0_l n)) as B2. apply Rabs_le_inv in B1, B2. replace (2 ^ 502) with (2 ^ 400 * 2 ^ 102) by (rewrite <- pow_add; f_equal). assert (2 <= 2 ^ 102) by (replace 102%nat with (1 + 101)%nat by lia; rewrite pow_add; pose proof (pow_R1_Rle 2 101 ltac:(lra)); simpl (2 ^ 1); lra). set (k := 2 ^ 400) in *. assert (0 <= k) by lra. nra.
  Qed.
  Lemma settled_of row : length row = n -> (forall x, In x row -> fin64 x /\ 0 <= val64 x) -> Rabs (area edges row - 1) <= (INR n + 4) / 2 ^ 51 -> settled row.
  Proof.
    intros Hl Hf Ha. split; [exact Hl|]. split; [|exact Ha]. intros i Hi. destruct (Hf (nth i row zero64)) as [F P]; [apply nth_In; rewrite Hl; exact Hi|]. split; [exact F|]. split; [exact P|].
    assert (Pj : forall j, (j < pred (length edges))%nat -> 0 <= val64 (nth j row zero64)) by (intros j Hj; apply Hf, nth_In; rewrite Hl; exact Hj).
    pose proof (area_term edges row i Pj l_inc Hi) as T. fold (W i) in T. pose proof (l_W i Hi) as Wl. pose proof (near_one n l_n) as G. apply Rabs_le_inv in Ha. simpl (2 ^ 10) in G. fold (y row i) in *.
    assert (Y : y row i * / 2 ^ 800 <= 2) by (apply Rle_trans with (y row i * W i); [apply Rmult_le_compat_l; [exact P|exact Wl]|lra]).
    apply Rle_trans with (2 * 2 ^ 800); [apply Rmult_le_reg_r with (/ 2 ^ 800); [apply Rinv_0_lt_compat, pow_lt; lra|]; rewrite Rmult_assoc, Rinv_r, Rmult_1_r by (apply pow_nonzero; lra); exact Y|].
    replace (2 * 2 ^ 800) with (2 ^ 801) by (change 801%nat with (S 800); reflexivity). rewrite pow_bpow. apply bpow_le. lia.
  Qed.
  Lemma settled_parts row : settled row -> parts64 edges row.
  Proof.
    intros (Hl & Hf & Ha). pose proof (near_one n l_n) as G. apply Rabs_le_inv in Ha. simpl (2 ^ 10) in G. destruct He as (H1 & H2 & H3 & _). apply norm64_parts_again; try assumption; [exact l_inc|].
    split; [exact Hl|]. split; [exact Hf|]. lra.
  Qed.
  Lemma settled_once row : settled row -> settled (once row) /\ exists s, 99 / 100 <= s <= 101 / 100 /\ forall i, (i < n)%nat -> y (once row) i = rd (y row i / s).
  Proof.
    intros Hs. pose proof (settled_parts row Hs) as P. destruct He as (H1 & H2 & H3 & _). pose proof (proj1 Hs) as Hl. destruct (parts_normal edges row P Hl) as (L & F & A). fold (once row) in *.
    split; [apply settled_of; [rewrite L; exact Hl|exact F|rewrite Hl in A; exact A]|].
    destruct P as (s & Q1 & Q2 & Q3 & Q4 & Q5 & Q6 & Q7 & Q8 & _ & Q9). exists s. split; [|intros i Hi; apply Q9, Hi].
    pose proof (sum_near _ _ _ _ _ Q1 Q2 Q3 Q4 Q5 Q7 Q8) as E. pose proof (theta_small _ Q1 Q2) as Th.
    destruct Hs as (_ & _ & Ha). pose proof (near_one n l_n) as G. apply Rabs_le_inv in Ha, E. simpl (2 ^ 10) in G. simpl (2 ^ 11) in Th. fold (area edges row) in E. fold n in E, Th. set (th := (INR n + 3) / 2 ^ 52) in *. set (a := area edges row) in *. nra.
  Qed.
  Lemma drift_once y0 t row : (forall i, (i < n)%nat -> 0 <= y0 i) -> Rabs (rsum n (fun i => y0 i * W i) - 1) <= / 100 -> INR (S t) <= 2 ^ 42 -> settled row -> drift n y0 t (y row) -> drift n y0 (S t) (y (once row)).
  Proof.
    intros H0 H1 Ht Hs Hd. destruct (settled_once row Hs) as ((_ & _ & A) & s & S1 & S2).
    assert (D : drift n y0 (S t) (fun i => rd (y row i / s))).
    { apply (drift_step n W y0 l_pos l_tot H0 t (y row) s Ht Hd S1 H1). pose proof (near_one n l_n) as G. simpl (2 ^ 10) in G. apply Rle_trans with ((INR n + 4) / 2 ^ 51); [|lra]. unfold area in A. fold n in A.
      rewrite (rsum_ext' n (fun i => rd (y row i / s) * W i) (fun i => y (once row) i * W i)); [exact A|]. intros i Hi. rewrite (S2 i Hi). reflexivity. }
    destruct D as (c & C1 & C2). exists c. split; [exact C1|]. intros i Hi. rewrite (S2 i Hi). apply C2, Hi.
  Qed.
End One.

(** ** Selections *)
Section Choice.
  Variable cc : string -> option (vdict spec_float -> res (gobj spec_float)).
  Hypothesis Hcc : cc "hist" = Some (hist_create (N := SFNum)).
  Variable edges : list spec_float.
  Hypothesis He : wide_edges edges.
  Let n := pred (length edges).
  Lemma made_hist (rows : list (list spec_float)) anc e : (forall row, In row rows -> length row = n) -> ens_new (create_of cc "hist") (hist_args edges rows) anc = Ok e ->
    e_obj e = hist_obj (N := SFNum) (mkhist edges (map (fun row => once edges (once edges row)) rows) [length rows]).
  Proof.
    intros Hr. unfold ens_new, create_of. rewrite Hcc. unfold hist_create, hist_args.
    assert (K : known (T := spec_float) ["bins"; "pdfs"; "check_input"] [("bins", VArr (nd1 edges)); ("pdfs", VArr (nd2 (pred (length edges)) rows))] = true) by reflexivity. rewrite K. clear K. cbn [negb].
    change (arg [("bins", VArr (nd1 edges)); ("pdfs", VArr (nd2 (pred (length edges)) rows))] "bins") with (Ok (VArr (nd1 edges))). change (arg [("bins", VArr (nd1 edges)); ("pdfs", VArr (nd2 (pred (length edges)) rows))] "pdfs") with (Ok (VArr (nd2 (pred (length edges)) rows))). cbn [bind as_grid as_numbers].
    change (opt_arg [("bins", VArr (nd1 edges)); ("pdfs", VArr (nd2 (pred (length edges)) rows))] "check_input" (VNum (n1 (Num := SFNum)))) with (VNum (n1 (Num := SFNum))). change (as_bool (N := SFNum) (VNum (n1 (Num := SFNum)))) with (Ok true). change (length (shp (nd1 edges)) =? 1)%nat with true. cbn [bind]. change (dat (nd1 edges)) with edges.
    rewrite hist_build_64 by exact Hr. cbn [bind]. destruct (check_array_shapes _ _); [|discriminate]. cbn [bind]. intros H. injection H as <-. reflexivity.
  Qed.
  Lemma getitem_hist e rows sh key ps : e_obj e = hist_obj (N := SFNum) (mkhist edges rows sh) -> (forall row, In row rows -> length row = n) -> key_positions (length rows) key = Some ps ->
    getitem cc e key = (let* anc := match e_ancil e with None => Ok None | Some a => let* a' := slice_dict a key in Ok (Some a') end in
      ens_new (create_of cc "hist") (hist_args edges (select [] rows ps)) anc).
  Proof.
    intros Eo Hr Hk. unfold getitem, objdata, metadata. rewrite Eo. cbn [hist_obj g_data g_meta g_name h_bins h_pdfs].
    unfold slice_dict at 1. cbn [mapM fst snd v_getitem].
    change (nd2 (pred (length edges)) rows) with (rows_nd [pred (length edges)] rows). rewrite getitem_rows by (intros r Hi; rewrite (Hr r Hi); unfold n; simpl; lia). rewrite Hk. cbn [bind].
    assert (Sq : squeezed_meta (class_meta (N := SFNum) "hist" ++ [add_meta "bins" (VArr (nd1 edges))]) = [("bins", VArr (nd1 edges))]).
    { unfold squeezed_meta, add_meta, class_meta. cbn [v_expand_first app]. change (vremove (vremove _ "pdf_name") "pdf_version") with [("bins", VArr (expand_first (nd1 edges)))]. cbn [map fst snd v_squeeze]. rewrite squeeze_grid; [reflexivity|]. destruct He as [H _]. lia. }
    rewrite Sq. f_equal. destruct (is_int key) eqn:Ei.
    - destruct (key_int_single _ _ _ Ei Hk) as (p & ->). cbn [map fst snd]. unfold hist_args.
      assert (V : (if (length (v_shape (T := spec_float) (VArr (mknd [pred (length edges)] (concat (select [] rows [p]))))) <? 2)%nat then v_expand_first (VArr (mknd [pred (length edges)] (concat (select [] rows [p])))) else VArr (mknd [pred (length edges)] (concat (select [] rows [p])))) = VArr (nd2 (pred (length edges)) (select [] rows [p]))) by reflexivity.
      rewrite V. reflexivity.
    - cbn [map fst snd]. assert (V : (if (length (v_shape (T := spec_float) (VArr (rows_nd [pred (length edges)] (select [] rows ps)))) <? 2)%nat then v_expand_first (VArr (rows_nd [pred (length edges)] (select [] rows ps))) else VArr (rows_nd [pred (length edges)] (select [] rows ps))) = VArr (nd2 (pred (length edges)) (select [] rows ps))) by reflexivity.
      rewrite V. reflexivity.
  Qed.
  Definition holds (e : ens spec_float) (rows : list (list spec_float)) : Prop := e_obj e = hist_obj (N := SFNum) (mkhist edges rows [length rows]).
  Lemma holds_npdf e rows : holds e rows -> e_npdf e = length rows.
  Proof. intros H. unfold e_npdf, g_npdf. rewrite H. cbn. lia. Qed.
  Lemma holds_reports e rows : holds e rows -> (forall row, In row rows -> length row = n) -> reports e n rows.
  Proof. intros H L. split; [|exact L]. unfold objdata. rewrite H. reflexivity. Qed.
  Lemma chosen_inv m e e' ps : chosen cc m e e' ps -> INR (2 * m) <= 2 ^ 42 -> forall given, holds e given -> (forall row, In row given -> settled edges row) ->
    exists now, holds e' now /\ length now = length ps /\ forall r, (r < length ps)%nat -> (nth r ps 0 < length given)%nat /\ settled edges (nth r now []) /\
      drift n (fun i => val64 (nth i (nth (nth r ps 0%nat) given []) zero64)) (2 * m) (fun i => val64 (nth i (nth r now []) zero64)).
  Proof.
    intros H. induction H as [e|m e e1 e2 ps key qs H IH Hp Hg]; intros Hm given H0 Hs.
    - exists given. rewrite (holds_npdf e given H0), seq_length. split; [exact H0|]. split; [reflexivity|]. intros r Hr. rewrite seq_nth by exact Hr. cbn [plus]. split; [exact Hr|]. pose proof (Hs _ (nth_In given [] Hr)) as Sr. split; [exact Sr|].
      apply drift_0. intros i Hi. apply Sr, Hi.
    - assert (Hm1 : INR (2 * m) + 2 <= 2 ^ 42) by (replace (2 * S m)%nat with (2 * m + 2)%nat in Hm by lia; rewrite plus_INR in Hm; exact Hm).
      destruct (IH ltac:(lra) given H0 Hs) as (now & N1 & N2 & N3). rewrite (holds_npdf e1 now N1) in Hp. apply picks_iff in Hp. pose proof (key_positions_lt _ _ _ Hp) as Lt.
      assert (Ln : forall row, In row now -> length row = n) by (intros row Hi; apply In_nth with (d := []) in Hi; destruct Hi as (r & Hr & <-); rewrite N2 in Hr; apply (N3 r Hr)).
      rewrite (getitem_hist e1 now [length now] key qs N1 Ln Hp) in Hg. destruct (match e_ancil e1 with None => _ | Some _ => _ end) as [anc|]; [|discriminate]. cbn [bind] in Hg.
      assert (Ls : forall row, In row (select [] now qs) -> length row = n) by (intros row Hi; apply Ln; eapply select_in; [|exact Hi]; exact Lt).
      pose proof (made_hist (select [] now qs) anc e2 Ls Hg) as M. exists (map (fun row => once edges (once edges row)) (select [] now qs)). split; [unfold holds; rewrite map_length; exact M|].
      split; [rewrite map_length, !select_length; reflexivity|]. intros r Hr. rewrite select_length in Hr.
      assert (Hq : (nth r qs 0 < length now)%nat) by (apply Lt, nth_In, Hr). assert (Hq' : (nth r qs 0 < length ps)%nat) by (rewrite <- N2; exact Hq).
      rewrite nth_map_in with (d' := []) by (rewrite select_length; exact Hr). rewrite (select_nth [] now qs r Hr), (select_nth 0%nat ps qs r Hr).
      destruct (N3 _ Hq') as (G1 & G2 & G3). split; [exact G1|]. set (row := nth (nth r qs 0%nat) now []) in *. set (g := nth (nth (nth r qs 0%nat) ps 0%nat) given []) in *.
      pose proof (Hs g (nth_In given [] G1)) as Sg. destruct (settled_once edges He row G2) as (O1 & _). destruct (settled_once edges He _ O1) as (O2 & _). split; [exact O2|].
      assert (P0 : forall i, (i < n)%nat -> 0 <= val64 (nth i g zero64)) by (intros i Hi; apply Sg, Hi).
      assert (A0 : Rabs (rsum n (fun i => val64 (nth i g zero64) * (val64 (nth (S i) edges zero64) - val64 (nth i edges zero64))) - 1) <= / 100).
      { destruct Sg as (_ & _ & A). pose proof (near_one n (l_n edges He)) as G. simpl (2 ^ 10) in G. apply Rle_trans with ((INR n + 4) / 2 ^ 51); [exact A|lra]. }
      replace (2 * S m)%nat with (S (S (2 * m))) by lia. apply (drift_once edges He _ _ (once edges row)); [exact P0|exact A0|rewrite !S_INR; lra|exact O1|]. apply (drift_once edges He _ _ row); [exact P0|exact A0|rewrite !S_INR; lra|exact G2|exact G3].
  Qed.
End Choice.

Lemma created_settled cc edges rows anc e : cc "hist" = Some (hist_create (N := SFNum)) -> wide_edges edges -> (forall row, In row rows -> normalisable edges row) ->
  ens_new (create_of cc "hist") (hist_args edges rows) anc = Ok e ->
  exists given, holds edges e given /\ length given = length rows /\ forall row, In row given -> settled edges row.
Proof.
  intros Hcc He Hr H. pose proof (made_hist cc Hcc edges rows anc e (fun row Hi => proj1 (Hr row Hi)) H) as M. exists (map (fun row => once edges (once edges row)) rows).
  split; [unfold holds; rewrite map_length; exact M|]. split; [apply map_length|]. intros row Hi. apply in_map_iff in Hi. destruct Hi as (g & <- & Hi).
  pose proof (l_inc edges He) as Inc. pose proof He as (H1 & H2 & H3 & _). destruct (norm64 edges g true H1 H2 H3 Inc (Hr g Hi)) as (L & F & A). cbn [given64] in *.
  pose proof (proj1 (Hr g Hi)) as Lg. rewrite Lg in L, A. apply settled_of; assumption.
Qed.

(** ** Theorems *)
(** A chain of selections moves the stored values by no more than rounding; the bound grows with the number of bins and of selections, not with their product. *)
Lemma c142_drift : forall cc edges rows anc e m e' ps, cc "hist" = Some (hist_create (N := SFNum)) -> wide_edges edges -> (forall row, In row rows -> normalisable edges row) ->
  ens_new (create_of cc "hist") (hist_args edges rows) anc = Ok e -> chosen cc m e e' ps -> INR m <= 2 ^ 40 ->
  exists given now, reports e (pred (length edges)) given /\ reports e' (pred (length edges)) now /\ length given = length rows /\ length now = length ps /\
    forall r, (r < length ps)%nat -> (nth r ps 0 < length rows)%nat /\ Rabs (area edges (nth r now []) - 1) <= INR (length edges + 3) / 2 ^ 51 /\
      forall i, (S i < length edges)%nat -> let before := val64 (nth i (nth (nth r ps 0%nat) given []) zero64) in let after := val64 (nth i (nth r now []) zero64) in
        0 <= before /\ Rabs (after - before) <= 3 * INR (length edges + m + 2) / 2 ^ 51 * before + / 2 ^ 1000.
Proof.
  intros cc edges rows anc e m e' ps Hcc He Hr H Hch Hm. destruct (created_settled cc edges rows anc e Hcc He Hr H) as (given & G1 & G2 & G3).
  assert (M2 : INR (2 * m) <= 2 ^ 42) by (rewrite mult_INR; simpl (INR 2); simpl (2 ^ 40) in Hm; simpl (2 ^ 42); lra).
  destruct (chosen_inv cc Hcc edges He m e e' ps Hch M2 given G1 G3) as (now & N1 & N2 & N3). exists given, now.
  split; [apply (holds_reports edges e given G1); intros row Hi; apply (G3 row Hi)|]. split; [apply (holds_reports edges e' now N1); intros row Hi; apply In_nth with (d := []) in Hi; destruct Hi as (r & Hl & <-); rewrite N2 in Hl; apply (N3 r Hl)|].
  split; [exact G2|]. split; [exact N2|]. intros r Hl. destruct (N3 r Hl) as (Q1 & Q2 & Q3). split; [rewrite <- G2; exact Q1|].
  pose proof (l_len edges He) as Le. set (n := pred (length edges)) in *. replace (INR (length edges + 3)) with (INR n + 4) by (rewrite Le, plus_INR, S_INR; simpl; lra). split; [apply Q2|].
  intros i Hi before after. set (g := nth (nth r ps 0%nat) given []) in *. pose proof (G3 g (nth_In given [] Q1)) as Sg. assert (In0 : (i < n)%nat) by (rewrite Le in Hi; lia). split; [apply Sg, In0|].
  pose proof (near_one n (l_n edges He)) as Ge.
  pose proof (drift_end n _ (fun j => val64 (nth j g zero64)) (l_pos edges He) (l_tot edges He) (fun j Hj => proj1 (proj2 (proj1 (proj2 Sg) j Hj))) (2 * m) _ ((INR n + 4) / 2 ^ 51) M2 Q3 (proj2 (proj2 Sg)) (proj2 (proj2 Q2)) Ge i In0) as D. cbv beta in D. fold before after in D.
  eapply Rle_trans; [exact D|]. apply Rplus_le_compat_r, Rmult_le_compat_r; [apply Sg, In0|]. replace (INR (length edges + m + 2)) with (INR n + INR m + 3) by (rewrite Le, !plus_INR, S_INR; simpl; lra).
  rewrite mult_INR. simpl (INR 2). pose proof (pos_INR m). pose proof (pos_INR n). simpl (2 ^ 51). simpl (2 ^ 53). simpl (2 ^ 58). lra.
Qed.

(** Every selection succeeds (without ancillary data). *)
Lemma chosen_plain cc m e e' ps : chosen cc m e e' ps -> cc "hist" = Some (hist_create (N := SFNum)) -> forall edges given, wide_edges edges -> holds edges e given -> (forall row, In row given -> length row = pred (length edges)) -> e_ancil e = None ->
  e_ancil e' = None /\ exists now, holds edges e' now /\ length now = length ps /\ forall row, In row now -> length row = pred (length edges).
Proof.
  intros H Hcc edges given He. induction H as [e|m e e1 e2 ps key qs H IH Hp Hg]; intros H0 Hl Ha.
  - split; [exact Ha|]. exists given. split; [exact H0|]. rewrite (holds_npdf edges e given H0), seq_length. auto.
  - destruct (IH H0 Hl Ha) as (A1 & now & N1 & N2 & N3). rewrite (holds_npdf edges e1 now N1) in Hp. apply picks_iff in Hp. rewrite (getitem_hist cc edges He e1 now [length now] key qs N1 N3 Hp), A1 in Hg. cbn [bind] in Hg.
    assert (Ls : forall row, In row (select [] now qs) -> length row = pred (length edges)) by (intros row Hi; apply N3; eapply select_in; [|exact Hi]; apply (key_positions_lt _ _ _ Hp)).
    split.
    + unfold ens_new in Hg. destruct (create_of _ _ _); [|discriminate]. cbn [bind] in Hg. destruct (check_array_shapes _ _); [|discriminate]. cbn [bind] in Hg. injection Hg as <-. reflexivity.
    + exists (map (fun row => once edges (once edges row)) (select [] now qs)). split; [unfold holds; rewrite map_length; apply (made_hist cc Hcc edges _ None e2 Ls Hg)|]. split; [rewrite map_length, !select_length; reflexivity|].
      intros row Hi. apply in_map_iff in Hi. destruct Hi as (g & <- & Hi). unfold once, hist_norm_row. rewrite !map_length. apply Ls, Hi.
Qed.
Lemma ens_new_ok cc edges rows : cc "hist" = Some (hist_create (N := SFNum)) -> (forall row, In row rows -> length row = pred (length edges)) -> exists e, ens_new (create_of cc "hist") (hist_args edges rows) None = Ok e.
Proof.
  intros Hcc Hr. unfold ens_new, create_of. rewrite Hcc. unfold hist_create, hist_args.
  assert (K : known (T := spec_float) ["bins"; "pdfs"; "check_input"] [("bins", VArr (nd1 edges)); ("pdfs", VArr (nd2 (pred (length edges)) rows))] = true) by reflexivity. rewrite K. clear K. cbn [negb].
  change (arg [("bins", VArr (nd1 edges)); ("pdfs", VArr (nd2 (pred (length edges)) rows))] "bins") with (Ok (VArr (nd1 edges))). change (arg [("bins", VArr (nd1 edges)); ("pdfs", VArr (nd2 (pred (length edges)) rows))] "pdfs") with (Ok (VArr (nd2 (pred (length edges)) rows))). cbn [bind as_grid as_numbers].
  change (opt_arg [("bins", VArr (nd1 edges)); ("pdfs", VArr (nd2 (pred (length edges)) rows))] "check_input" (VNum (n1 (Num := SFNum)))) with (VNum (n1 (Num := SFNum))). change (as_bool (N := SFNum) (VNum (n1 (Num := SFNum)))) with (Ok true). change (length (shp (nd1 edges)) =? 1)%nat with true. cbn [bind]. change (dat (nd1 edges)) with edges.
  rewrite hist_build_64 by exact Hr. cbn [bind check_array_shapes]. eexists. reflexivity.
Qed.
Lemma c142_succeeds : forall cc edges rows e m e' ps key qs, cc "hist" = Some (hist_create (N := SFNum)) -> wide_edges edges -> (forall row, In row rows -> normalisable edges row) ->
  ens_new (create_of cc "hist") (hist_args edges rows) None = Ok e -> chosen cc m e e' ps -> picks (length ps) key qs -> exists e2, getitem cc e' key = Ok e2.
Proof.
  intros cc edges rows e m e' ps key qs Hcc He Hr H Hch Hp. pose proof (made_hist cc Hcc edges rows None e (fun row Hi => proj1 (Hr row Hi)) H) as M.
  set (given := map (fun row => once edges (once edges row)) rows) in *. assert (H0 : holds edges e given) by (unfold holds, given; rewrite map_length; exact M).
  assert (Hl : forall row, In row given -> length row = pred (length edges)) by (intros row Hi; apply in_map_iff in Hi; destruct Hi as (g & <- & Hi); unfold once, hist_norm_row; rewrite !map_length; apply (Hr g Hi)).
  assert (Ha : e_ancil e = None) by (unfold ens_new in H; destruct (create_of _ _ _); [|discriminate]; cbn [bind] in H; destruct (check_array_shapes _ _); [|discriminate]; cbn [bind] in H; injection H as <-; reflexivity).
  destruct (chosen_plain cc m e e' ps Hch Hcc edges given He H0 Hl Ha) as (A1 & now & N1 & N2 & N3). apply picks_iff in Hp. rewrite <- N2 in Hp. rewrite (getitem_hist cc edges He e' now [length now] key qs N1 N3 Hp), A1. cbn [bind].
  apply ens_new_ok; [exact Hcc|]. intros row Hi. apply N3. eapply select_in; [|exact Hi]. apply (key_positions_lt _ _ _ Hp).
Qed.

(** The values do change: edges 0, 1, 4 and values 1, 3 give pdf(1/2) = 0.1 + 2^-56, the selected PDF has 0.1. *)
Definition only_hist (name : string) : option (vdict spec_float -> res (gobj spec_float)) := if String.eqb name "hist" then Some (hist_create (N := SFNum)) else None.
Definition s_edges : list spec_float := [S754_zero false; f64 4503599627370496 (-52); f64 4503599627370496 (-50)].
Definition s_row : list spec_float := [f64 4503599627370496 (-52); f64 6755399441055744 (-51)].
Lemma c142_changes : exists e e' x v v', ens_new (create_of only_hist "hist") (hist_args s_edges [s_row]) None = Ok e /\ getitem only_hist e (KInt 0) = Ok e' /\
  val64 x = / 2 /\ answers (ens_pdf e (PScalar x)) 1 v /\ answers (ens_pdf e' (PScalar x)) 1 v' /\ val64 (v 0%nat) = val64 (v' 0%nat) + / 2 ^ 56.
Proof.
  eexists. eexists. exists (f64 4503599627370496 (-53)), (fun _ => f64 7205759403792795 (-56)), (fun _ => f64 7205759403792794 (-56)).
  split; [reflexivity|]. split; [reflexivity|]. split; [rewrite val_f64; simpl bpow; lra|]. split; [vm_compute; reflexivity|]. split; [vm_compute; reflexivity|].
  rewrite !val_f64. simpl bpow. simpl (2 ^ 56). lra.
Qed.

Definition s_row' : list spec_float := [f64 4503599627370496 (-52); f64 4503599627370496 (-52)].
Example c142_example : only_hist "hist" = Some (hist_create (N := SFNum)) /\ wide_edges s_edges /\ normalisable s_edges s_row /\ normalisable s_edges s_row' /\
  exists e e', ens_new (create_of only_hist "hist") (hist_args s_edges [s_row; s_row']) None = Ok e /\ chosen only_hist 2 e e' [1%nat].
Proof.
  split; [reflexivity|].
  assert (V1 : val64 (f64 4503599627370496 (-52)) = 1) by (rewrite val_f64; simpl bpow; lra). assert (V3 : val64 (f64 6755399441055744 (-51)) = 3) by (rewrite val_f64; simpl bpow; lra).
  assert (V4 : val64 (f64 4503599627370496 (-50)) = 4) by (rewrite val_f64; simpl bpow; lra). assert (V0 : val64 (S754_zero false) = 0) by reflexivity.
  assert (P : forall k, (3 <= k)%nat -> 8 <= 2 ^ k) by (intros k Hk; replace k with (3 + (k - 3))%nat by lia; rewrite pow_add; pose proof (pow_R1_Rle 2 (k - 3) ltac:(lra)); simpl (2 ^ 3); lra).
  assert (Hf : forall k, (1 <= k)%nat -> / 2 ^ k <= / 2) by (intros k Hk; apply Rinv_le_contravar; [lra|]; replace k with (1 + (k - 1))%nat by lia; rewrite pow_add; pose proof (pow_R1_Rle 2 (k - 1) ltac:(lra)); simpl (2 ^ 1); lra).
  pose proof (P 400%nat ltac:(lia)) as P4. pose proof (P 1000%nat ltac:(lia)) as P10. pose proof (Hf 500%nat ltac:(lia)) as P5. pose proof (Hf 800%nat ltac:(lia)) as P8.
  assert (D0 : modest (S754_zero false)) by (split; [split; [exact I|]|]; rewrite V0, Rabs_R0; lra).
  assert (Dm : forall m e, bounded 53 1024 m e = true -> 0 <= val64 (f64 m e) <= 8 -> modest (f64 m e)) by (intros m e B H; split; [split; [exact B|]|]; rewrite Rabs_pos_eq by lra; lra).
  assert (D1 : modest (f64 4503599627370496 (-52))) by (apply Dm; [reflexivity|rewrite V1; lra]). assert (D3 : modest (f64 6755399441055744 (-51))) by (apply Dm; [reflexivity|rewrite V3; lra]). assert (D4 : modest (f64 4503599627370496 (-50))) by (apply Dm; [reflexivity|rewrite V4; lra]).
  split; [|split; [|split]].
  - split; [simpl; lia|]. split; [simpl; lra|]. split.
    + intros b H. unfold s_edges in H. cbn [In] in H. destruct H as [<-|[<-|[<-|[]]]]; assumption.
    + intros i Hi. unfold s_edges in *. cbn [length] in Hi. set (k := / 2 ^ 800) in *. destruct i as [|[|i]]; [| |lia]; cbn [nth]; rewrite ?V1, ?V4, ?V0; lra.
  - split; [reflexivity|]. split; [intros x H; unfold s_row in H; cbn [In] in H; destruct H as [<-|[<-|[]]]; rewrite ?V1, ?V3; split; try assumption; lra|].
    set (k := / 2 ^ 500) in *. unfold area, s_edges, s_row, zero64. cbn [length pred rsum nth]. rewrite V1, V3, V4, V0. lra.
  - split; [reflexivity|]. split; [intros x H; unfold s_row' in H; cbn [In] in H; destruct H as [<-|[<-|[]]]; rewrite V1; split; try assumption; lra|].
    set (k := / 2 ^ 500) in *. unfold area, s_edges, s_row', zero64. cbn [length pred rsum nth]. rewrite V1, V4, V0. lra.
  - destruct (ens_new_ok only_hist s_edges [s_row; s_row'] eq_refl) as (e & E); [intros row [<-|[<-|[]]]; reflexivity|]. exists e.
    pose proof (made_hist only_hist eq_refl s_edges [s_row; s_row'] None e) as M. specialize (M ltac:(intros row [<-|[<-|[]]]; reflexivity) E). cbn [map length] in M. set (given := [once s_edges (once s_edges s_row); once s_edges (once s_edges s_row')]) in *.
    assert (H0 : holds s_edges e given) by exact M. assert (Hl : forall row, In row given -> length row = pred (length s_edges)) by (intros row [<-|[<-|[]]]; reflexivity). pose proof (holds_npdf s_edges e given H0) as Np. change (length given) with 2%nat in Np.
    assert (K0 : key_positions (length given) (KList [1; 0]%Z) = Some [1%nat; 0%nat]) by reflexivity. assert (Ha : e_ancil e = None) by (unfold ens_new in E; destruct (create_of _ _ _); [|discriminate]; cbn [bind] in E; destruct (check_array_shapes _ _); [|discriminate]; cbn [bind] in E; injection E as <-; reflexivity).
    assert (C0 : chosen only_hist 0 e e [0%nat; 1%nat]) by (pose proof (chosen_none only_hist e) as C; rewrite Np in C; exact C).
    assert (We : wide_edges s_edges).
    { split; [simpl; lia|]. split; [simpl; lra|]. split; [intros b H; unfold s_edges in H; cbn [In] in H; destruct H as [<-|[<-|[<-|[]]]]; assumption|].
      intros i Hi. unfold s_edges in *. cbn [length] in Hi. set (k := / 2 ^ 800) in *. destruct i as [|[|i]]; [| |lia]; cbn [nth]; rewrite ?V1, ?V4, ?V0; lra. }
    assert (Go : forall e1 rows key ps, holds s_edges e1 rows -> (forall row, In row rows -> length row = pred (length s_edges)) -> e_ancil e1 = None -> key_positions (length rows) key = Some ps -> exists e2, getitem only_hist e1 key = Ok e2).
    { intros e1 rows key ps G1 G2 G3 G4. rewrite (getitem_hist only_hist s_edges We e1 rows [length rows] key ps G1 G2 G4), G3. cbn [bind]. apply ens_new_ok; [reflexivity|]. intros row Hi. apply G2. eapply select_in; [|exact Hi]. apply (key_positions_lt _ _ _ G4). }
    destruct (Go e given _ _ H0 Hl Ha K0) as (e1 & E1).
    assert (C1 : chosen only_hist 1 e e1 [1%nat; 0%nat]) by (apply (chosen_more only_hist 0 e e e1 [0%nat; 1%nat] (KList [1; 0]%Z) [1%nat; 0%nat] C0); [rewrite Np; apply picks_iff; reflexivity|exact E1]).
    destruct (chosen_plain only_hist 1 e e1 _ C1 eq_refl s_edges given We H0 Hl Ha) as (A1 & now & N1 & N2 & N3). cbn [length] in N2.
    assert (K1 : key_positions (length now) (KInt 0) = Some [0%nat]) by (rewrite N2; reflexivity). destruct (Go e1 now _ _ N1 N3 A1 K1) as (e2 & E2). exists e2. split; [exact E|].
    apply (chosen_more only_hist 1 e e1 e2 [1%nat; 0%nat] (KInt 0) [0%nat] C1); [rewrite (holds_npdf s_edges e1 now N1), N2; apply picks_iff; reflexivity|exact E2].
Qed.
