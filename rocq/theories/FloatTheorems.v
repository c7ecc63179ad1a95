(** Histograms evaluated on doubles. *)
From Coq Require Import List Arith ZArith Bool Sorted Lia Reals Lra Psatz Floats.SpecFloat.
From Flocq Require Import Core.Zaux Core.Raux.
From Verif Require Import Num NumProofs Py NdArray NumpyLib Utils ScipyWrap SortProofs InterpProofs BinProofs EvalProofs HistPdf HistProofs Spec Float FloatProofs FloatHist FloatMachine.
Import ListNotations.
Local Open Scope R_scope.

(** Doubles: finite, of magnitude at most 2^1000. *)
Definition double (x : spec_float) : Prop :=
  match x with S754_zero _ => True | S754_finite _ m e => bounded 53 1024 m e = true | _ => False end /\ Rabs (val64 x) <= 2 ^ 1000.
Definition zero64 : spec_float := S754_zero false.
(** The answer of [ens.pdf(x)] for one number [x]: one line with one value per PDF. *)
Definition answers (a : res (list (list (xnum spec_float)))) (npdf : nat) (v : nat -> spec_float) : Prop :=
  a = Ok (map (fun r => [Fin (v r)]) (seq 0 npdf)).

Lemma pow_bpow n : 2 ^ n = bpow radix2 (Z.of_nat n).
Proof. induction n; [reflexivity|]. rewrite Nat2Z.inj_succ. unfold Z.succ. rewrite <- bpow_add1, <- IHn. simpl. lra. Qed.
Lemma double_moderate x : double x -> moderate 1000 x.
Proof. intros (V & B). split; [destruct x; try contradiction; split; auto; reflexivity|]. change 1000%Z with (Z.of_nat 1000). rewrite <- pow_bpow. exact B. Qed.

Lemma hist_init_64 bins (rows : list (list spec_float)) chk : (forall row, In row rows -> length row = pred (length bins)) ->
  hist_init (N := SFNum) bins (nd2 (pred (length bins)) rows) chk =
  Ok (mkhist bins (if chk then map (hist_norm_row (N := SFNum) (bin_widths (N := SFNum) bins)) rows else rows) [length rows]).
Proof.
  intros Hr. unfold hist_init. change (last (shp (nd2 (pred (length bins)) rows)) 0%nat) with (pred (length bins)).
  rewrite Nat.eqb_refl. cbn [negb]. rewrite reshape_nd2 by auto. cbn [bind]. rewrite rows_of_nd2 by auto. reflexivity.
Qed.
(** what the constructor leaves to be normalised by freezing *)
Definition given64 (bins : list spec_float) (chk : bool) (row : list spec_float) : list spec_float :=
  if chk then hist_norm_row (N := SFNum) (bin_widths (N := SFNum) bins) row else row.
Lemma given64_length bins chk row : length (given64 bins chk row) = length row.
Proof. destruct chk; [apply map_length|reflexivity]. Qed.
Lemma hist_build_64 bins (rows : list (list spec_float)) chk : (forall row, In row rows -> length row = pred (length bins)) ->
  hist_ctor (N := SFNum) bins (nd2 (pred (length bins)) rows) chk =
  Ok (mkhist bins (map (fun row => hist_norm_row (N := SFNum) (bin_widths (N := SFNum) bins) (given64 bins chk row)) rows) [length rows]).
Proof.
  intros Hr. unfold hist_ctor. rewrite hist_init_64 by auto. cbn [bind]. unfold hist_freeze. cbn [h_bins h_pdfs h_shape].
  rewrite hist_init_64.
  - cbn [bind h_bins h_pdfs]. destruct chk; [rewrite map_map|]; reflexivity.
  - destruct chk; auto. intros row H. apply in_map_iff in H. destruct H as (r & <- & H). unfold hist_norm_row. rewrite map_length. auto.
Qed.

Section Built.
  Variables (bins : list spec_float) (rows : list (list spec_float)) (chk : bool) (h : hist spec_float) (x : spec_float).
  Hypothesis Hn : (2 <= length bins)%nat.
  Hypothesis Hbins : forall b, In b bins -> double b.
  Hypothesis Hx : double x.
  Hypothesis Hne : rows <> [].
  Hypothesis Hlen : forall row, In row rows -> length row = pred (length bins).
  Hypothesis Hbuilt : hist_ctor (N := SFNum) bins (nd2 (pred (length bins)) rows) chk = Ok h.
  Let edges := map val64 bins.

  Lemma built_parts : h_bins h = bins /\ h_npdf h = length rows /\ (0 < h_npdf h)%nat.
  Proof.
    rewrite hist_build_64 in Hbuilt by exact Hlen. injection Hbuilt as <-. unfold h_npdf. cbn [h_bins h_pdfs].
    rewrite map_length. repeat split. destruct rows; [congruence|simpl; lia].
  Qed.
  Lemma built_answers : answers (hist_ens_pdf (N := SFNum) h (PScalar x)) (length rows) (fun r => hist_point (N := SFNum) bins (h_pdfs h) x r).
  Proof.
    destruct built_parts as (Eb & En & Hp). unfold answers. rewrite hist_scalar by (try exact Hp; cbn [nleb SFNum]; rewrite leb64 by (apply double_moderate, Hx); apply Rleb_true; lra).
    rewrite En, Eb. reflexivity.
  Qed.
  Lemma edges_doubles : doubles edges.
  Proof. intros b Hb. unfold edges in Hb. apply in_map_iff in Hb. destruct Hb as (c & <- & Hc). apply dbl64, double_moderate, Hbins, Hc. Qed.
  Lemma edges_len : length edges = length bins. Proof. apply map_length. Qed.
  Lemma built_lookup : 0 < rd (nth 1 edges 0 - nth 0 edges 0) -> Rabs (val64 x - nth 0 edges 0) <= 2 ^ 1000 * rd (nth 1 edges 0 - nth 0 edges 0) ->
    get_bin_indices (N := SFNum) bins x = get_bin_indices (N := DNum) edges (val64 x).
  Proof.
    intros Hw Hq. apply lookup64; [exact Hn|intros; apply double_moderate, Hbins; assumption|apply double_moderate, Hx|exact Hw|].
    change 1000%Z with (Z.of_nat 1000). rewrite <- pow_bpow. exact Hq.
  Qed.

  Lemma c129_even w d : nearly_even edges w d -> Rabs (val64 x - nth 0 edges 0) <= 2 ^ 1000 * w ->
    exists v, answers (hist_ens_pdf (N := SFNum) h (PScalar x)) (length rows) v /\
      forall r, (r < length rows)%nat ->
        (forall i, (S i < length bins)%nat -> nth i edges 0 + margin edges w d <= val64 x <= nth (S i) edges 0 - margin edges w d ->
           v r = nth i (nth r (h_pdfs h) []) zero64) /\
        (val64 x <= nth 0 edges 0 - margin edges w d \/ nth (pred (length bins)) edges 0 + margin edges w d <= val64 x -> v r = zero64).
  Proof.
    intros He Hq. eexists. split; [apply built_answers|]. intros r Hr.
    pose proof He as (Ew & Hw & _). rewrite Ew in Hw, Hq. pose proof (built_lookup Hw Hq) as L. split.
    - intros i Hi Hin. unfold hist_point. rewrite L, (lookup_even edges w d (val64 x) i edges_doubles (dbl64 x (proj1 (double_moderate _ Hx)))); [reflexivity|rewrite edges_len; exact Hi|exact He|exact Hin].
    - intros Hout. unfold hist_point. rewrite L. pose proof (lookup_even_out edges w d (val64 x) edges_doubles (dbl64 x (proj1 (double_moderate _ Hx)))) as O.
      rewrite edges_len in O. specialize (O Hn He Hout). destruct (get_bin_indices (N := DNum) edges (val64 x)) as [i m]. cbn [snd] in O. rewrite O. reflexivity.
  Qed.

  Lemma c129_differ : increasing edges -> widths_differ edges -> Rabs (val64 x - nth 0 edges 0) <= 2 ^ 1000 * rd (nth 1 edges 0 - nth 0 edges 0) ->
    exists v, answers (hist_ens_pdf (N := SFNum) h (PScalar x)) (length rows) v /\
      forall r, (r < length rows)%nat ->
        (forall i, (S i < length bins)%nat -> nth i edges 0 < val64 x <= nth (S i) edges 0 -> v r = nth i (nth r (h_pdfs h) []) zero64) /\
        (val64 x <= nth 0 edges 0 \/ nth (pred (length bins)) edges 0 < val64 x -> v r = zero64).
  Proof.
    intros Hs He Hq. eexists. split; [apply built_answers|]. intros r Hr.
    assert (Hw : 0 < rd (nth 1 edges 0 - nth 0 edges 0)).
    { assert (Hlt : nth 0 edges 0 < nth 1 edges 0) by (apply (inc_lt edges 0 1); auto; rewrite edges_len; lia).
      pose proof (sub_near (nth 1 edges 0) (nth 0 edges 0)) as S. specialize (S ltac:(apply edges_doubles, nth_In; rewrite edges_len; lia) ltac:(apply edges_doubles, nth_In; rewrite edges_len; lia)).
      rewrite (Rabs_pos_eq (nth 1 edges 0 - nth 0 edges 0)) in S by lra. apply Rabs_le_inv in S. lra. }
    pose proof (built_lookup Hw Hq) as L. split.
    - intros i Hi Hin. unfold hist_point. rewrite L, (lookup_differ edges (val64 x) i edges_doubles Hs He); [reflexivity|rewrite edges_len; exact Hi|exact Hin].
    - intros Hout. unfold hist_point. rewrite L. pose proof (lookup_differ_out edges (val64 x) edges_doubles Hs He) as O.
      rewrite edges_len in O. specialize (O Hn Hout). destruct (get_bin_indices (N := DNum) edges (val64 x)) as [i m]. cbn [snd] in O. rewrite O. reflexivity.
  Qed.
End Built.
