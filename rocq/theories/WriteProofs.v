(** Proofs about chunked writing. *)
From Coq Require Import String List Arith ZArith Bool Lia Reals Permutation.
From Verif Require Import Num NumProofs Py NdArray NumpyLib Utils ScipyWrap Spec Values Ensemble Classes Hdf5
  NdProofs InterpProofs Kinds KindProofs EnsembleProofs KindInputs ReachProofs EnsembleTheorems Hdf5Proofs.
Import ListNotations.
Local Open Scope string_scope.
Local Open Scope list_scope.

(** Replace the entries [a .. b-1] of a list *)
Definition splice {A} (l : list A) (a b : nat) (w : list A) : list A := firstn a l ++ w ++ skipn b l.
Lemma splice_length {A} (l w : list A) a b : (a <= b)%nat -> (b <= length l)%nat -> length w = (b - a)%nat -> length (splice l a b w) = length l.
Proof. intros. unfold splice. rewrite !app_length, firstn_length, skipn_length. lia. Qed.
Lemma splice_nth {A} (l w : list A) a b r dflt : (a <= b)%nat -> (b <= length l)%nat -> length w = (b - a)%nat ->
  nth r (splice l a b w) dflt = if (a <=? r)%nat && (r <? b)%nat then nth (r - a) w dflt else nth r l dflt.
Proof.
  intros Hab Hb Hw. unfold splice. destruct (Nat.leb_spec a r) as [H1|H1]; cbn [andb].
  - rewrite app_nth2 by (rewrite firstn_length; lia). rewrite firstn_length, Nat.min_l by lia.
    destruct (Nat.ltb_spec r b) as [H2|H2].
    + rewrite app_nth1 by lia. reflexivity.
    + rewrite app_nth2 by lia. rewrite <- (firstn_skipn b l) at 2. rewrite app_nth2 by (rewrite firstn_length; lia). rewrite firstn_length. f_equal. lia.
  - rewrite app_nth1 by (rewrite firstn_length; lia). rewrite <- (firstn_skipn a l) at 2. rewrite app_nth1 by (rewrite firstn_length; lia). reflexivity.
Qed.
Lemma splice_in {A} (l w : list A) a b x : In x (splice l a b w) -> In x l \/ In x w.
Proof.
  unfold splice. intros H. apply in_app_iff in H. destruct H as [H|H]; [left; rewrite <- (firstn_skipn a l); apply in_app_iff; auto|].
  apply in_app_iff in H. destruct H as [H|H]; [auto|]. left. rewrite <- (firstn_skipn b l). apply in_app_iff. auto.
Qed.
Lemma splice_map {A B} (f : A -> B) l a b w : map f (splice l a b w) = splice (map f l) a b (map f w).
Proof. unfold splice. rewrite !map_app, firstn_map, skipn_map. reflexivity. Qed.

Lemma write_rows {A} rest (rows w : list (list A)) a b : (forall r, In r rows -> length r = prod rest) -> (forall r, In r w -> length r = prod rest) ->
  (a < b)%nat -> (b <= length rows)%nat -> length w = (b - a)%nat ->
  write_nd (rows_nd rest rows) a b (rows_nd rest w) = Ok (rows_nd rest (splice rows a b w)).
Proof.
  intros Hr Hw Hab Hb Hl. unfold write_nd. cbn [shp rows_nd]. fold (rows_nd rest rows) (rows_nd rest w). rewrite Nat.min_l by lia. destruct (Nat.leb_spec b a); [lia|].
  destruct (list_eq_dec Nat.eq_dec rest rest); [|congruence]. rewrite Hl, Nat.eqb_refl. rewrite !rows_of_rows_nd by assumption.
  unfold rows_nd. fold (splice rows a b w). rewrite splice_length by lia. reflexivity.
Qed.
Lemma write_col c (cells w : list cell) a b : (forall x, In x cells -> cell_ok c x) -> (forall x, In x w -> cell_ok c x) ->
  (a < b)%nat -> (b <= length cells)%nat -> length w = (b - a)%nat ->
  write_value (col_value c cells) a b (col_value c w) = Ok (col_value c (splice cells a b w)).
Proof.
  intros Hc Hw Hab Hb Hl.
  assert (G : forall {A} (f : cell -> list A) rest, (forall x, cell_ok c x -> length (f x) = prod rest) ->
            write_nd (rows_nd rest (map f cells)) a b (rows_nd rest (map f w)) = Ok (rows_nd rest (map f (splice cells a b w)))).
  { intros A f rest Hf. rewrite write_rows; [rewrite splice_map; reflexivity|..]; rewrite ?map_length; auto; intros r Hr; apply in_map_iff in Hr; destruct Hr as (x & <- & Hx); auto. }
  destruct c as [s|s|s]; cbn [col_value write_value]; rewrite G; try reflexivity; intros x Hx; destruct x; try contradiction; exact Hx.
Qed.

(** ** The file while it is being written *)
(** The tables to be written: a name, a layout and the rows *)
Definition plan := list (string * (layout * list row)).
Definition plan_ok (n : nat) (G : plan) : Prop :=
  NoDup (map fst G) /\ forall g L D, In (g, (L, D)) G -> NoDup (map fst L) /\ length D = n /\ List.Forall (row_fits L) D.
Definition full (G : plan) : h5file R := map (fun x => (fst x, by_name (columns (fst (snd x)) (snd (snd x))))) G.
(** [partly G n f P]: the file [f] has the datasets of the plan, and the rows with [P group column row] are right *)
Definition partly (G : plan) (n : nat) (f : h5file R) (P : string -> string -> nat -> Prop) : Prop :=
  keys f = keys (full G) /\
  forall g L D, In (g, (L, D)) G -> exists gd, vget f g = Some gd /\ keys gd = keys (by_name (columns L D)) /\
    forall j key c, nth_error L j = Some (key, c) -> exists cells, vget gd key = Some (col_value c cells) /\ length cells = n /\
      (forall x, In x cells -> cell_ok c x) /\
      forall r, (r < n)%nat -> P g key r -> nth r cells (Nums []) = cell_at j (nth r D []).
(** A write of rows of the plan *)
Definition planned (G : plan) (n : nat) (s : step R) : Prop :=
  exists g L D j key c a b, In (g, (L, D)) G /\ nth_error L j = Some (key, c) /\ (a < b)%nat /\ (b <= n)%nat /\
    s = mkstep g key a b (col_value c (map (cell_at j) (firstn (b - a) (skipn a D)))).
Definition covers (s : step R) (g key : string) (r : nat) : Prop := s_group s = g /\ s_key s = key /\ (s_start s <= r < s_stop s)%nat.

Lemma full_keys G : keys (full G) = map fst G.
Proof. unfold full, keys. rewrite map_map. reflexivity. Qed.
Lemma plan_unique G n g L D L' D' : plan_ok n G -> In (g, (L, D)) G -> In (g, (L', D')) G -> (L, D) = (L', D').
Proof.
  intros [Hn _]. induction G as [|[x y] G IH]; [intros []|]. cbn [map fst] in Hn. inversion Hn as [|? ? Hx Hn']; subst.
  intros [E|E] [E'|E']; [congruence| | |auto]; exfalso; apply Hx; [injection E as -> _; apply (in_map fst) in E'|injection E' as -> _; apply (in_map fst) in E]; assumption.
Qed.
Lemma nth_key_unique (L : layout) j key c j' c' : NoDup (map fst L) -> nth_error L j = Some (key, c) -> nth_error L j' = Some (key, c') -> j = j' /\ c = c'.
Proof.
  intros Hn E E'. assert (j = j').
  { rewrite NoDup_nth_error in Hn. apply Hn; [rewrite map_length; apply nth_error_Some; congruence|]. rewrite (map_nth_error fst _ _ E), (map_nth_error fst _ _ E'). reflexivity. }
  subst. split; congruence.
Qed.
Lemma firstn_skipn_nth {A} (l : list A) a b r dflt : (a <= r < b)%nat -> nth (r - a) (firstn (b - a) (skipn a l)) dflt = nth r l dflt.
Proof.
  intros H. rewrite <- (firstn_skipn a l) at 2. destruct (Nat.le_gt_cases (length l) a) as [Hl|Hl].
  - rewrite skipn_all2 by lia. rewrite firstn_nil, app_nil_r, (nth_overflow (firstn a l)) by (rewrite firstn_length; lia). destruct (r - a)%nat; reflexivity.
  - rewrite app_nth2 by (rewrite firstn_length; lia). rewrite firstn_length, Nat.min_l by lia.
    rewrite <- (firstn_skipn (b - a) (skipn a l)) at 2. destruct (Nat.lt_ge_cases (r - a) (length (firstn (b - a) (skipn a l)))) as [H1|H1].
    + rewrite app_nth1 by exact H1. reflexivity.
    + rewrite (nth_overflow (firstn (b - a) (skipn a l))) by exact H1. rewrite firstn_length in H1. rewrite nth_overflow; [reflexivity|]. rewrite app_length, firstn_length, !skipn_length in *. lia.
Qed.
Lemma cell_at_nums j : cell_at j [] = Nums [].
Proof. destruct j; reflexivity. Qed.
Lemma nth_cells j D r : nth r (map (cell_at j) D) (Nums []) = cell_at j (nth r D []).
Proof. rewrite <- (cell_at_nums j). apply map_nth. Qed.

Lemma write_planned G n f P s : plan_ok n G -> partly G n f P -> planned G n s ->
  exists f', write_step f s = Ok f' /\ partly G n f' (fun g key r => P g key r \/ covers s g key r).
Proof.
  intros HG (Hk & Hf) (g & L & D & j & key & c & a & b & Hin & Hj & Hab & Hb & ->).
  pose proof (proj2 HG g L D Hin) as (HL & HD & Hfit). destruct (Hf g L D Hin) as (gd & Eg & Kg & Hgd). destruct (Hgd j key c Hj) as (cells & Ec & Hlen & Hok & Hright).
  unfold write_step. cbn [s_group s_key s_start s_stop s_value]. rewrite Eg, Ec.
  set (w := map (cell_at j) (firstn (b - a) (skipn a D))).
  assert (Hw : forall x, In x w -> cell_ok c x).
  { intros x Hx. unfold w in Hx. apply in_map_iff in Hx. destruct Hx as (d & <- & Hd). apply (row_fits_col L j key c d); [|exact Hj].
    rewrite Forall_forall in Hfit. apply Hfit. rewrite <- (firstn_skipn a D). apply in_app_iff. right. rewrite <- (firstn_skipn (b - a) (skipn a D)). apply in_app_iff. left. exact Hd. }
  assert (Lw : length w = (b - a)%nat) by (unfold w; rewrite map_length, firstn_length, skipn_length; lia).
  rewrite (write_col c cells w a b Hok Hw Hab) by lia. cbn [bind]. eexists. split; [reflexivity|]. split.
  { rewrite vset_keys; [exact Hk|]. rewrite Hk, full_keys. apply (in_map fst) in Hin. exact Hin. }
  intros g' L' D' Hin'. destruct (string_dec g' g) as [->|Hg].
  - pose proof (plan_unique G n g L' D' L D HG Hin' Hin) as E. injection E as -> ->. rewrite vset_get, String.eqb_refl. eexists. split; [reflexivity|].
    assert (Kin : In key (keys gd)).
    { destruct (in_dec string_dec key (keys gd)) as [?|Hno]; [assumption|]. apply vget_none in Hno. congruence. }
    split; [rewrite vset_keys by exact Kin; exact Kg|]. intros j' key' c' Hj'. destruct (string_dec key' key) as [->|Hkey].
    + destruct (nth_key_unique L j key c j' c' HL Hj Hj') as [<- <-]. rewrite vset_get, String.eqb_refl. eexists. split; [reflexivity|].
      split; [rewrite splice_length by lia; exact Hlen|]. split; [intros x Hx; apply splice_in in Hx; destruct Hx; auto|].
      intros r Hr HP. rewrite splice_nth by lia. destruct (Nat.leb_spec a r) as [H1|H1]; cbn [andb]; [destruct (Nat.ltb_spec r b) as [H2|H2]|].
      * unfold w. rewrite nth_cells, firstn_skipn_nth by lia. reflexivity.
      * apply Hright; [exact Hr|]. destruct HP as [HP|(_ & _ & HP)]; [exact HP|cbn in HP; lia].
      * apply Hright; [exact Hr|]. destruct HP as [HP|(_ & _ & HP)]; [exact HP|cbn in HP; lia].
    + destruct (Hgd j' key' c' Hj') as (cells' & Ec' & A1 & A2 & A3). exists cells'. rewrite vset_get. destruct (String.eqb_spec key' key); [congruence|].
      split; [exact Ec'|]. split; [exact A1|]. split; [exact A2|]. intros r Hr HP. apply A3; [exact Hr|]. destruct HP as [HP|(_ & E & _)]; [exact HP|cbn in E; congruence].
  - destruct (Hf g' L' D' Hin') as (gd' & Eg' & Kg' & Hgd'). exists gd'. rewrite vset_get. destruct (String.eqb_spec g' g); [congruence|]. split; [exact Eg'|]. split; [exact Kg'|].
    intros j' key' c' Hj'. destruct (Hgd' j' key' c' Hj') as (cells' & Ec' & A1 & A2 & A3). exists cells'. split; [exact Ec'|]. split; [exact A1|]. split; [exact A2|].
    intros r Hr HP. apply A3; [exact Hr|]. destruct HP as [HP|(E & _)]; [exact HP|cbn in E; congruence].
Qed.
Lemma partly_weaken G n f (P P' : string -> string -> nat -> Prop) : (forall g k r, P' g k r -> P g k r) -> partly G n f P -> partly G n f P'.
Proof.
  intros Hp (Hk & Hf). split; [exact Hk|]. intros g L D Hin. destruct (Hf g L D Hin) as (gd & E & K & H). exists gd. split; [exact E|]. split; [exact K|].
  intros j key c Hj. destruct (H j key c Hj) as (cells & A & B & C & D'). exists cells. split; [exact A|]. split; [exact B|]. split; [exact C|]. intros r Hr HP. apply D'; auto.
Qed.
Lemma write_all G n : plan_ok n G -> forall l f P, partly G n f P -> (forall s, In s l -> planned G n s) ->
  exists f', write_steps f l = (Ok tt, f') /\ partly G n f' (fun g key r => P g key r \/ exists s, In s l /\ covers s g key r).
Proof.
  intros HG. induction l as [|s l IH]; intros f P Hf Hl; [exists f; split; [reflexivity|]; eapply partly_weaken; [|exact Hf]; intros g k r [H|(s & [] & _)]; exact H|].
  cbn [write_steps]. destruct (write_planned G n f P s HG Hf (Hl s (or_introl eq_refl))) as (f1 & E1 & H1). rewrite E1.
  destruct (IH f1 _ H1) as (f2 & E2 & H2); [intros s' Hs'; apply Hl; right; exact Hs'|]. exists f2. split; [exact E2|]. eapply partly_weaken; [|exact H2].
  intros g k r [H|(s' & [->|Hs'] & H)]; [left; left; exact H|left; right; exact H|right; exists s'; auto].
Qed.
Lemma partly_full G n f : plan_ok n G -> partly G n f (fun _ _ _ => True) -> f = full G.
Proof.
  intros HG (Hk & Hf). apply dict_ext; [exact Hk|rewrite Hk, full_keys; apply HG|]. intros g.
  destruct (in_dec string_dec g (map fst G)) as [Hg|Hg].
  - apply in_map_iff in Hg. destruct Hg as ([g' [L D]] & E & Hin). cbn [fst] in E. subst g'. destruct (Hf g L D Hin) as (gd & Eg & Kg & Hgd). rewrite Eg.
    pose proof (proj2 HG g L D Hin) as (HL & HD & _).
    assert (NL : NoDup (keys (columns L D))) by (unfold columns; rewrite columns_keys; exact HL).
    assert (Egd : gd = by_name (columns L D)).
    { apply dict_ext; [exact Kg|rewrite Kg; apply by_name_nodup; exact NL|]. intros key. rewrite by_name_get by exact NL.
      destruct (in_dec string_dec key (map fst L)) as [Hkey|Hkey].
      - apply In_nth_error in Hkey. destruct Hkey as (j & Hj). rewrite nth_error_map in Hj. destruct (nth_error L j) as [[key' c]|] eqn:Ej; [|discriminate]. cbn in Hj. injection Hj as ->.
        destruct (Hgd j key c Ej) as (cells & Ec & Hlen & _ & Hr). rewrite Ec. symmetry. unfold columns. rewrite (columns_get L HL 0 D j key c Ej). cbn [plus]. do 2 f_equal.
        apply nth_ext with (d := Nums []) (d' := Nums []); [rewrite map_length; lia|]. intros r Hl. rewrite map_length in Hl. rewrite nth_cells. symmetry. apply Hr; [lia|exact I].
      - assert (N1 : vget gd key = None). { apply vget_none. rewrite Kg. intros H. apply Hkey. rewrite <- (columns_keys 0 L D). apply (Permutation_in _ (perm_keys _ _ (by_name_perm _)) H). }
        rewrite N1. symmetry. apply vget_none. unfold columns. rewrite columns_keys. exact Hkey. }
    rewrite Egd. symmetry. apply vget_in; [rewrite full_keys; apply HG|]. unfold full. apply in_map_iff. exists (g, (L, D)). split; [reflexivity|exact Hin].
  - assert (N1 : vget f g = None) by (apply vget_none; rewrite Hk, full_keys; exact Hg). rewrite N1. symmetry. apply vget_none. rewrite full_keys. exact Hg.
Qed.
