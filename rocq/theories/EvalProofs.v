(** Correctness of the evaluation-case dispatch behind scipy's flattening. *)
From Coq Require Import List Arith ZArith Bool Sorted Permutation Lia Reals Lra.
From Verif Require Import Num NumProofs Py NdArray NumpyLib Utils ScipyWrap SortProofs.
Import ListNotations.

Lemma map2_length {A B C} (f : A -> B -> C) l1 l2 :
  length (map2 f l1 l2) = Nat.min (length l1) (length l2).
Proof. revert l2; induction l1; destruct l2; simpl; auto. Qed.

Lemma map2_app {A B C} (f : A -> B -> C) l1 l1' l2 l2' : length l1 = length l2 ->
  map2 f (l1 ++ l1') (l2 ++ l2') = map2 f l1 l2 ++ map2 f l1' l2'.
Proof. revert l2; induction l1; destruct l2; simpl; intros; try discriminate; auto.
  f_equal. apply IHl1. lia. Qed.

Lemma map2_map_r {A B} (f : A -> nat -> B) l r :
  map2 f l (map (fun _ => r) l) = map (fun x => f x r) l.
Proof. induction l; simpl; auto. f_equal; auto. Qed.

Lemma map2_repeat_nth {A B C} (f : A -> B -> C) x n l2 : length l2 = n ->
  map2 f (repeat x n) l2 = map (f x) l2.
Proof. revert n; induction l2; destruct n; simpl; intros; try discriminate; auto.
  f_equal. apply IHl2. lia. Qed.

Lemma chunks_length {A} n k (l : list A) : length (chunks n k l) = n.
Proof. revert l; induction n; simpl; auto. Qed.

Lemma chunks_concat {A} k (rows : list (list A)) :
  (forall r, In r rows -> length r = k) -> chunks (length rows) k (concat rows) = rows.
Proof.
  induction rows as [|r rows IH]; simpl; intros; auto.
  assert (length r = k) by auto.
  rewrite firstn_app, skipn_app. subst k.
  rewrite Nat.sub_diag, firstn_all, skipn_all. simpl. rewrite app_nil_r.
  f_equal. apply IH. auto.
Qed.

Lemma map_chunks {A B} (f : A -> B) n k l :
  map (map f) (chunks n k l) = chunks n k (map f l).
Proof. revert l; induction n; simpl; intros; auto.
  rewrite IHn, firstn_map, skipn_map. auto. Qed.

Section Dispatch.
  Local Open Scope R_scope.
  (** [g x r] : PDF [r] at [x]. *)
  Variable g : R -> nat -> R.

  (** Rows of the expected result: PDF [r] at each of its points. *)
  Definition pointwise (xs : list (list R)) (rows : list nat) : list (list R) :=
    map2 (fun l r => map (fun x => g x r) l) xs rows.

  Lemma vectorize2_same (x : list R) (row : list nat) : length x = length row ->
    vectorize2 g x row = map2 g x row.
  Proof.
    intros. unfold vectorize2.
    destruct x as [|a [|b x]]; destruct row as [|r [|s row]]; simpl in *; try lia; auto.
  Qed.

  Lemma flat_rows_length (xs : list (list R)) rows : length xs = length rows ->
    length (flat_rows xs rows) = length (concat xs).
  Proof.
    unfold flat_rows. revert rows. induction xs; destruct rows; simpl; intros; try lia.
    rewrite !app_length, map_length. rewrite IHxs; lia.
  Qed.

  Lemma map2_flat (xs : list (list R)) rows : length xs = length rows ->
    map2 g (concat xs) (flat_rows xs rows) = concat (pointwise xs rows).
  Proof.
    unfold flat_rows, pointwise. revert rows.
    induction xs; destruct rows; simpl; intros; try lia; auto.
    rewrite map2_app by (rewrite map_length; auto).
    rewrite map2_map_r. f_equal. apply IHxs. lia.
  Qed.

  Definition product (xs : list R) (rows : list nat) : list R :=
    flat_map (fun r => map (fun x => g x r) xs) rows.

  Lemma product_pointwise xs rows :
    product xs rows = concat (pointwise (repeat xs (length rows)) rows).
  Proof.
    unfold product, pointwise. rewrite flat_map_concat_map. f_equal.
    induction rows; simpl; auto. f_equal; auto.
  Qed.

  (** The dispatcher on one-dimensional arguments of equal length. *)
  Lemma dispatch_flat (flat prod_ : list R -> list nat -> list R) two_d xf rf :
    length xf = length rf -> xf <> [] ->
    flat xf rf = map2 g xf rf ->
    (forall xs rows, (forall r, In r rows -> In r rf) -> rows <> [] ->
                     prod_ xs rows = product xs rows) ->
    dispatch (nd1 xf) (nd1 rf) flat prod_ two_d =
    let ux := np_unique xf in let ur := np_unique_nat rf in
    let xx := if (length ux =? length xf)%nat then xf else ux in
    let rr := if (length ur =? length rf)%nat then rf else ur in
    Ok (if ((length xf =? 1) || negb (length xx * length rr =? length xf))%nat
        then map2 g xf rf else product xx rr).
  Proof.
    intros Hl Hne Hf Hp. cbv zeta.
    set (rr := if (length (np_unique_nat rf) =? length rf)%nat then rf else np_unique_nat rf).
    assert (Hrr : forall r, In r rr -> In r rf).
    { intros r. unfold rr. destruct (_ =? _)%nat; auto. rewrite np_unique_nat_in. auto. }
    assert (Hrn : rr <> []).
    { destruct rf as [|r0 rf0] eqn:E; [destruct xf; simpl in *; congruence|].
      intro F. unfold rr in F. destruct (_ =? _)%nat; [discriminate|].
      assert (In r0 (np_unique_nat (r0 :: rf0))) by (apply np_unique_nat_in; left; auto).
      rewrite F in H. destruct H. }
    unfold dispatch, get_eval_case, np_ndim, np_size.
    cbn [nd1 shp dat length prod fold_right Nat.leb andb negb Nat.eqb].
    rewrite !Nat.mul_1_r.
    replace (length rf =? 1)%nat with (length xf =? 1)%nat by (rewrite Hl; auto).
    rewrite orb_diag.
    destruct (length xf =? 1)%nat eqn:E1; cbn [bind orb dat nd1].
    { rewrite Hf. reflexivity. }
    assert (S1 : forall (b : bool) (l1 l2 : list R), prod (shp (if b then nd1 l1 else nd1 l2))
                 = length (if b then l1 else l2)).
    { intros [] ? ?; simpl; lia. }
    assert (S2 : forall (b : bool) (l1 l2 : list nat), prod (shp (if b then nd1 l1 else nd1 l2))
                 = length (if b then l1 else l2)).
    { intros [] ? ?; simpl; lia. }
    rewrite S1, S2. fold rr.
    destruct (negb _); cbn [bind dat nd1].
    - rewrite Hf. reflexivity.
    - assert (D1 : forall (b : bool) (l1 l2 : list R), dat (if b then nd1 l1 else nd1 l2)
                 = (if b then l1 else l2)) by (intros [] ? ?; auto).
      assert (D2 : forall (b : bool) (l1 l2 : list nat), dat (if b then nd1 l1 else nd1 l2)
                 = (if b then l1 else l2)) by (intros [] ? ?; auto).
      unfold expand_last. cbn [dat]. rewrite D1, D2. fold rr.
      rewrite Hp; auto.
  Qed.
End Dispatch.

(** ** The scipy wrapper around a dispatching method *)
Section Wrapper.
  Local Open Scope R_scope.

  (** [m] is one of qp's methods, and evaluates PDF [r < npdf] by [g . r]. *)
  Definition dispatches (g : R -> nat -> R) (npdf : nat) (m : nd R -> nd nat -> res (list R)) : Prop :=
    exists flat prod_ two_d,
      (forall x row, m x row = dispatch x row flat prod_ two_d) /\
      (forall xf rf, length xf = length rf -> (forall r, In r rf -> (r < npdf)%nat) ->
                     flat xf rf = map2 g xf rf) /\
      (forall xs rows, rows <> [] -> (forall r, In r rows -> (r < npdf)%nat) ->
                       prod_ xs rows = product g xs rows).

  Variable g : R -> nat -> R.

  (** The points at which a grid request is really evaluated. *)
  Definition reordered (npdf : nat) (l : list R) : list R :=
    if ((npdf =? 1) || negb (length (np_unique l) =? length l))%nat then l else np_unique l.

  Lemma reordered_length npdf l : length (reordered npdf l) = length l.
  Proof.
    unfold reordered. destruct (npdf =? 1)%nat; simpl; auto.
    destruct (_ =? _)%nat eqn:E; simpl; auto. apply Nat.eqb_eq in E. auto.
  Qed.

  Lemma concat_repeat_in {A} (x : A) l k : (0 < k)%nat -> In x (concat (repeat l k)) <-> In x l.
  Proof.
    induction k; intros; [lia|]. simpl. rewrite in_app_iff. destruct k; [simpl; tauto|].
    rewrite IHk by lia. tauto.
  Qed.
  Lemma concat_repeat_length {A} (l : list A) k : length (concat (repeat l k)) = (k * length l)%nat.
  Proof. induction k; simpl; auto. rewrite app_length, IHk. auto. Qed.

  Lemma flat_rows_in (l : list R) rows r : l <> [] ->
    In r (flat_rows (repeat l (length rows)) rows) <-> In r rows.
  Proof.
    intros Hl. unfold flat_rows. induction rows; simpl; [tauto|].
    rewrite in_app_iff, IHrows. destruct l as [|x l]; [congruence|]. simpl.
    rewrite in_map_iff. split; intros H.
    - destruct H as [[->|[y [-> _]]]|H]; auto.
    - destruct H; auto.
  Qed.

  Lemma flat_rows_single (t : R) rows : flat_rows (repeat [t] (length rows)) rows = rows.
  Proof. unfold flat_rows. induction rows; simpl; auto. f_equal; auto. Qed.

  Lemma dispatches_grid npdf m l : dispatches g npdf m -> (0 < npdf)%nat -> l <> [] ->
    m (nd1 (concat (repeat l npdf))) (nd1 (flat_rows (repeat l npdf) (seq 0 npdf)))
    = Ok (product g (reordered npdf l) (seq 0 npdf)).
  Proof.
    intros (flat & prod_ & two_d & Hm & Hflat & Hprod) Hk Hl.
    rewrite Hm.
    set (xf := concat (repeat l npdf)). set (rf := flat_rows (repeat l npdf) (seq 0 npdf)).
    assert (Hlen : length xf = length rf).
    { unfold xf, rf. rewrite flat_rows_length; auto. rewrite repeat_length, seq_length; auto. }
    assert (Hxf : length xf = (npdf * length l)%nat) by apply concat_repeat_length.
    assert (Hrin : forall r, In r rf <-> In r (seq 0 npdf)).
    { intros. unfold rf. rewrite <- (seq_length npdf 0) at 1. apply flat_rows_in; auto. }
    assert (Hm1 : (0 < length l)%nat) by (destruct l; simpl; [congruence|lia]).
    rewrite (dispatch_flat g) with (flat := flat) (prod_ := prod_); auto.
    2:{ intro F. rewrite F in Hxf. simpl in Hxf. nia. }
    2:{ apply Hflat; auto. intros r Hr. apply Hrin, in_seq in Hr. lia. }
    2:{ intros xs rows Hi Hn. apply Hprod; auto. intros r Hr. apply Hi, Hrin, in_seq in Hr. lia. }
    cbv zeta. f_equal.
    assert (Hux : np_unique xf = np_unique l).
    { apply np_unique_ext. intros. apply concat_repeat_in; auto. }
    assert (Hur : np_unique_nat rf = seq 0 npdf).
    { rewrite (np_unique_nat_ext rf (seq 0 npdf)); auto. apply np_unique_nat_sorted_id, seq_sorted. }
    rewrite Hux, Hur, <- Hlen, Hxf, seq_length.
    assert (Hflat2 : map2 g xf rf = product g l (seq 0 npdf)).
    { unfold xf, rf. rewrite map2_flat by (rewrite repeat_length, seq_length; auto).
      rewrite product_pointwise, seq_length. auto. }
    rewrite Hflat2.
    pose proof (np_unique_length_le l) as Hle.
    unfold reordered.
    destruct (Nat.eqb_spec npdf 1) as [->|Hn1]; cbn [orb].
    - assert (H : xf = l) by (unfold xf; simpl; apply app_nil_r).
      rewrite !Nat.mul_1_l, H.
      destruct (Nat.eqb_spec (length l) 1); cbn [orb negb]; auto.
      destruct (Nat.eqb_spec 1 (length l)); [lia|].
      destruct (Nat.eqb_spec (length (np_unique l)) (length l)).
      + destruct (negb _); auto.
      + rewrite seq_length.
        destruct (Nat.eqb_spec (length (np_unique l) * 1) (length l)); cbn [negb]; auto. lia.
    - destruct (Nat.eqb_spec (npdf * length l) 1); [nia|]. cbn [orb].
      destruct (Nat.eqb_spec (length (np_unique l)) (npdf * length l)); [nia|].
      assert (Hrr : (if (npdf =? npdf * length l)%nat then rf else seq 0 npdf) = seq 0 npdf).
      { destruct (Nat.eqb_spec npdf (npdf * length l)); auto.
        assert (length l = 1%nat) by nia. destruct l as [|t [|? ?]]; simpl in *; try lia.
        unfold rf. rewrite <- (seq_length npdf 0) at 1. apply flat_rows_single. }
      rewrite Hrr, seq_length.
      destruct (Nat.eqb_spec (length (np_unique l)) (length l)) as [E|E]; cbn [negb].
      + rewrite E. rewrite (Nat.mul_comm (length l)).
        rewrite Nat.eqb_refl. reflexivity.
      + destruct (Nat.eqb_spec (length (np_unique l) * npdf) (npdf * length l)); simpl; auto. nia.
  Qed.

  Lemma place_app cond (other : R -> xnum R) p1 p2 v1 v2 :
    length v1 = length (filter cond p1) ->
    place cond other (p1 ++ p2) (v1 ++ v2) = place cond other p1 v1 ++ place cond other p2 v2.
  Proof.
    revert v1. induction p1 as [|p p1 IH]; simpl; intros.
    - destruct v1; simpl in *; [auto|lia].
    - destruct (cond p); simpl in *.
      + destruct v1; simpl in *; [lia|]. f_equal. apply IH. lia.
      + f_equal. apply IH. auto.
  Qed.

  Lemma place_length cond (other : R -> xnum R) p v : length (place cond other p v) = length p.
  Proof. revert v; induction p; simpl; intros; auto. destruct (cond a); [destruct v|]; simpl; auto. Qed.

  Lemma place_all cond (other : R -> xnum R) p v : length v = length p -> (forall x, In x p -> cond x = true) ->
    place cond other p v = map Fin v.
  Proof.
    revert v; induction p; destruct v; simpl; intros; try lia; auto.
    rewrite H0 by auto. f_equal. apply IHp; auto.
  Qed.

  Lemma filter_concat {A} (c : A -> bool) ls : filter c (concat ls) = concat (map (filter c) ls).
  Proof. induction ls; simpl; auto. rewrite filter_app, IHls. auto. Qed.
  Lemma map_repeat {A B} (f : A -> B) x n : map f (repeat x n) = repeat (f x) n.
  Proof. induction n; simpl; auto. f_equal; auto. Qed.

  Lemma combine_app {A B} (a1 a2 : list A) (b1 b2 : list B) : length a1 = length b1 ->
    combine (a1 ++ a2) (b1 ++ b2) = combine a1 b1 ++ combine a2 b2.
  Proof. revert b1; induction a1; destruct b1; simpl; intros; try lia; auto. f_equal; auto. Qed.

  Lemma filter_rows (c : R -> bool) xs rows : length xs = length rows ->
    map snd (filter (fun p => c (fst p)) (combine (concat xs) (flat_rows xs rows)))
    = flat_rows (map (filter c) xs) rows.
  Proof.
    unfold flat_rows. revert rows. induction xs as [|l xs IH]; destruct rows as [|r rows]; simpl; intros; try lia; auto.
    rewrite combine_app by (rewrite map_length; auto).
    rewrite filter_app, map_app, IH by lia. f_equal.
    clear. induction l; simpl; auto. destruct (c a); simpl; auto. f_equal; auto.
  Qed.

  Lemma place_concat cond (other : R -> xnum R) xs rows (vs : nat -> list R) :
    (forall r, In r rows -> length (vs r) = length (filter cond xs)) ->
    place cond other (concat (repeat xs (length rows))) (flat_map vs rows)
    = concat (map (fun r => place cond other xs (vs r)) rows).
  Proof.
    induction rows; simpl; intros; auto.
    rewrite place_app by auto. f_equal. apply IHrows. auto.
  Qed.

  (** MAIN LEMMA: what evaluating an ensemble on a common grid returns. *)
  Lemma rv_eval_grid npdf cond other m xs : dispatches g npdf m -> (0 < npdf)%nat ->
    rv_eval npdf cond other m (PGrid xs) =
    Ok (map (fun r => place cond other xs (map (fun x => g x r) (reordered npdf (filter cond xs))))
            (seq 0 npdf)).
  Proof.
    intros Hd Hk. unfold rv_eval. cbn [broadcast_points bind].
    rewrite repeat_length.
    assert (Hw : match repeat xs npdf with [] => 0%nat | l :: _ => length l end = length xs)
      by (destruct npdf; [lia|reflexivity]).
    rewrite Hw.
    assert (Fin_ : forall vals, vals = flat_map (fun r => map (fun x => g x r) (reordered npdf (filter cond xs))) (seq 0 npdf) ->
      chunks npdf (length xs) (place cond other (concat (repeat xs npdf)) vals) =
      map (fun r => place cond other xs (map (fun x => g x r) (reordered npdf (filter cond xs)))) (seq 0 npdf)).
    { intros vals ->. rewrite <- (seq_length npdf 0) at 2.
      rewrite place_concat by (intros; rewrite map_length; apply reordered_length).
      assert (C : forall n (ls : list (list (xnum R))), length ls = n -> (forall l0, In l0 ls -> length l0 = length xs) ->
                  chunks n (length xs) (concat ls) = ls)
        by (intros n ls <- Hls; apply chunks_concat; auto).
      apply C; [rewrite map_length, seq_length; auto|].
      intros l Hl. apply in_map_iff in Hl. destruct Hl as (r & <- & _). apply place_length. }
    destruct (forallb cond (concat (repeat xs npdf))) eqn:Ea.
    - assert (Hall : filter cond xs = xs).
      { rewrite forallb_forall in Ea.
        assert (Hx : forall x, In x xs -> cond x = true).
        { intros x Hx. apply Ea. apply concat_repeat_in; auto. }
        clear -Hx. induction xs; simpl; auto. rewrite Hx by (left; auto). f_equal.
        apply IHxs. intros; apply Hx; right; auto. }
      destruct (Nat.eqb_spec (length (concat (repeat xs npdf))) 0) as [E0|E0]; cbn [bind].
      + rewrite concat_repeat_length in E0. assert (length xs = 0%nat) by nia.
        f_equal. apply Fin_. rewrite Hall. destruct xs; simpl in *; [|lia].
        unfold reordered. simpl. replace (negb true) with false by auto.
        destruct (npdf =? 1)%nat; simpl; clear; induction (seq 0 npdf); simpl; auto.
      + rewrite dispatches_grid; auto.
        2:{ intros ->. rewrite concat_repeat_length in E0. simpl in E0. lia. }
        cbn [bind]. f_equal. apply Fin_. rewrite Hall. reflexivity.
    - destruct (existsb cond (concat (repeat xs npdf))) eqn:Ee; cbn [bind].
      + assert (Hne : filter cond xs <> []).
        { apply existsb_exists in Ee. destruct Ee as (x & Hx & Hc).
          apply concat_repeat_in in Hx; auto. intro F.
          assert (In x (filter cond xs)) by (apply filter_In; auto). rewrite F in H. destruct H. }
        rewrite filter_concat, map_repeat.
        rewrite filter_rows by (rewrite repeat_length, seq_length; auto).
        rewrite map_repeat.
        destruct (Nat.eqb_spec npdf 1) as [->|Hn1].
        * destruct Hd as (flat & prod_ & two_d & Hm & Hflat & Hprod).
          rewrite Hm. simpl repeat. simpl concat. rewrite app_nil_r.
          unfold dispatch, get_eval_case. cbn [np_ndim nd1 shp length Nat.leb andb negb Nat.eqb dat bind].
          rewrite Hprod; [|discriminate|intros r [<-|[]]; lia].
          cbn [bind]. f_equal. apply Fin_. unfold reordered. cbn [Nat.eqb orb]. reflexivity.
        * rewrite dispatches_grid; auto. cbn [bind]. f_equal. apply Fin_. reflexivity.
      + f_equal. apply Fin_.
        assert (filter cond xs = []).
        { destruct (filter cond xs) as [|x l] eqn:F; auto. exfalso.
          assert (Hx : In x (filter cond xs)) by (rewrite F; left; auto).
          apply filter_In in Hx. destruct Hx as [Hx Hc].
          assert (existsb cond (concat (repeat xs npdf)) = true).
          { apply existsb_exists. exists x. split; auto. apply concat_repeat_in; auto. }
          congruence. }
        rewrite H. unfold reordered. simpl. replace (negb true) with false by auto.
        destruct (npdf =? 1)%nat; simpl; clear; induction (seq 0 npdf); simpl; auto.
  Qed.

  Lemma flat_rows_in_mat (X : list (list R)) rows r w : (0 < w)%nat ->
    (forall l, In l X -> length l = w) -> length X = length rows ->
    In r (flat_rows X rows) <-> In r rows.
  Proof.
    intros Hw. unfold flat_rows. revert rows. induction X as [|l X IH]; destruct rows as [|r0 rows];
      simpl; intros HX Hl; try lia; try tauto.
    rewrite in_app_iff, IH by (auto; lia).
    assert (length l = w) by auto. destruct l as [|x l]; simpl in *; [lia|].
    rewrite in_map_iff. split; intros H1.
    - destruct H1 as [[->|[y [-> _]]]|H1]; auto.
    - destruct H1; auto.
  Qed.

  Lemma concat_length_const {A} (X : list (list A)) w : (forall l, In l X -> length l = w) ->
    length (concat X) = (length X * w)%nat.
  Proof. induction X; simpl; intros; auto. rewrite app_length, IHX by auto. rewrite H by auto. auto. Qed.

  Lemma flat_rows_width1 (X : list (list R)) rows : length X = length rows ->
    (forall l, In l X -> length l = 1%nat) -> flat_rows X rows = rows.
  Proof.
    unfold flat_rows. revert rows. induction X as [|l X IH]; destruct rows; simpl; intros; try lia; auto.
    assert (length l = 1%nat) by auto. destruct l as [|? [|? ?]]; simpl in *; try lia.
    f_equal. apply IH; auto.
  Qed.

  Lemma unique_one (l : list R) : length (np_unique l) = 1%nat -> forall x y, In x l -> In y l -> x = y.
  Proof.
    intros H x y Hx Hy. apply np_unique_in in Hx, Hy.
    destruct (np_unique l) as [|a [|? ?]]; simpl in *; try lia. destruct Hx as [<-|[]], Hy as [<-|[]]. auto.
  Qed.

  (** The matrix requests that are evaluated point by point. *)
  Definition mat_ok (X : list (list R)) (w : nat) : bool :=
    ((length X =? 1) || (w =? 1) || negb (length (np_unique (concat X)) =? w))%nat.

  Lemma dispatches_mat npdf m X w : dispatches g npdf m -> (0 < npdf)%nat -> (0 < w)%nat ->
    length X = npdf -> (forall l, In l X -> length l = w) ->
    m (nd1 (concat X)) (nd1 (flat_rows X (seq 0 npdf)))
    = Ok (if mat_ok X w then concat (pointwise g X (seq 0 npdf))
          else product g (np_unique (concat X)) (seq 0 npdf)).
  Proof.
    intros (flat & prod_ & two_d & Hm & Hflat & Hprod) Hk Hw HX Hr.
    rewrite Hm.
    set (xf := concat X). set (rf := flat_rows X (seq 0 npdf)).
    assert (HXs : length X = length (seq 0 npdf)) by (rewrite seq_length; auto).
    assert (Hlen : length xf = length rf).
    { unfold xf, rf. rewrite flat_rows_length; auto. }
    assert (Hxf : length xf = (npdf * w)%nat) by (rewrite <- HX; apply concat_length_const; auto).
    assert (Hrin : forall r, In r rf <-> In r (seq 0 npdf)).
    { intros. unfold rf. apply flat_rows_in_mat with (w := w); auto. }
    rewrite (dispatch_flat g) with (flat := flat) (prod_ := prod_); auto.
    2:{ intro F. rewrite F in Hxf. simpl in Hxf. nia. }
    2:{ apply Hflat; auto. intros r Hr'. apply Hrin, in_seq in Hr'. lia. }
    2:{ intros xs rows Hi Hn. apply Hprod; auto. intros r Hr'. apply Hi, Hrin, in_seq in Hr'. lia. }
    cbv zeta. f_equal.
    assert (Hur : np_unique_nat rf = seq 0 npdf).
    { rewrite (np_unique_nat_ext rf (seq 0 npdf)); auto. apply np_unique_nat_sorted_id, seq_sorted. }
    rewrite Hur, <- Hlen, Hxf, seq_length.
    replace (map2 g xf rf) with (concat (pointwise g X (seq 0 npdf))) by (symmetry; apply map2_flat; auto).
    pose proof (np_unique_length_le xf) as Hle. rewrite Hxf in Hle.
    assert (Hrr : (if (npdf =? npdf * w)%nat then rf else seq 0 npdf) = seq 0 npdf).
    { destruct (Nat.eqb_spec npdf (npdf * w)); auto.
      assert (w = 1%nat) by nia. subst w. apply flat_rows_width1; auto. }
    rewrite Hrr, seq_length. unfold mat_ok. fold xf. rewrite HX.
    destruct (Nat.eqb_spec npdf 1) as [->|Hn1]; cbn [orb].
    - rewrite !Nat.mul_1_l. rewrite Nat.mul_1_l in Hle.
      assert (Hp : product g xf (seq 0 1) = concat (pointwise g X (seq 0 1))).
      { destruct X as [|l [|? ?]]; simpl in HX; try lia. unfold xf, product, pointwise. simpl.
        rewrite !app_nil_r. auto. }
      destruct (Nat.eqb_spec (length (np_unique xf)) w).
      + rewrite Hp. destruct (_ || _)%bool; auto.
      + destruct (Nat.eqb_spec w 1); cbn [orb]; auto.
        destruct (Nat.eqb_spec (length (np_unique xf) * 1) w); cbn [negb]; auto. lia.
    - destruct (Nat.eqb_spec (npdf * w) 1); [nia|]. cbn [orb].
      destruct (Nat.eqb_spec w 1) as [->|Hw1]; cbn [orb].
      + rewrite !Nat.mul_1_r. 
        destruct (Nat.eqb_spec (length (np_unique xf)) npdf).
        * rewrite Hxf. destruct (Nat.eqb_spec (npdf * 1 * npdf) npdf); cbn [negb]; auto. nia.
        * destruct (Nat.eqb_spec (length (np_unique xf) * npdf) npdf) as [E|E]; cbn [negb]; auto.
          assert (E1 : length (np_unique xf) = 1%nat) by nia.
          rewrite product_pointwise. f_equal. rewrite seq_length. 
          replace (repeat (np_unique xf) npdf) with X; auto.
          assert (Hne : exists t, np_unique xf = [t]).
          { destruct (np_unique xf) as [|t [|? ?]]; simpl in E1; try lia. eauto. }
          destruct Hne as (t & Et). rewrite Et.
          assert (Hall : forall l, In l X -> l = [t]).
          { intros l Hl. assert (length l = 1%nat) by auto. destruct l as [|x [|? ?]]; simpl in *; try lia.
            assert (Hin : In x (np_unique xf)).
            { apply np_unique_in. unfold xf. apply in_concat. exists [x]. split; simpl; auto. }
            rewrite Et in Hin. destruct Hin as [->|[]]; auto. }
          clear - HX Hall. revert npdf HX. induction X; simpl; intros; subst; simpl; auto.
          f_equal; [apply Hall; left; auto| apply IHX; auto; intros; apply Hall; right; auto].
      + destruct (Nat.eqb_spec (length (np_unique xf)) (npdf * w)) as [E|E].
        * rewrite Hxf. destruct (Nat.eqb_spec (npdf * w * npdf) (npdf * w)); [nia|]. cbn [negb].
          destruct (Nat.eqb_spec (length (np_unique xf)) w); cbn [negb]; auto. nia.
        * destruct (Nat.eqb_spec (length (np_unique xf)) w) as [E2|E2]; cbn [negb].
          -- rewrite E2, (Nat.mul_comm w), Nat.eqb_refl. reflexivity.
          -- destruct (Nat.eqb_spec (length (np_unique xf) * npdf) (npdf * w)); cbn [negb]; auto. nia.
  Qed.

  Lemma pointwise_rows X rows : length X = length rows ->
    map (@length R) (pointwise g X rows) = map (@length R) X.
  Proof.
    revert rows. induction X; destruct rows; simpl; intros; try lia; auto.
    rewrite map_length. f_equal. apply IHX. lia.
  Qed.
  Lemma pointwise_length X rows : length (pointwise g X rows) = Nat.min (length X) (length rows).
  Proof. apply map2_length. Qed.

  (** MAIN LEMMA: what evaluating an ensemble at one line of points per PDF returns. *)
  Lemma rv_eval_mat npdf cond other m X w : dispatches g npdf m -> (0 < npdf)%nat -> (0 < w)%nat ->
    length X = npdf -> (forall l, In l X -> length l = w) ->
    (forall x, In x (concat X) -> cond x = true) ->
    rv_eval npdf cond other m (PMat X) =
    Ok (map (map Fin) (if mat_ok X w then pointwise g X (seq 0 npdf)
        else map (fun r => map (fun x => g x r) (np_unique (concat X))) (seq 0 npdf))).
  Proof.
    intros Hd Hk Hw HX Hr Hc. unfold rv_eval. cbn [broadcast_points]. rewrite HX, Nat.eqb_refl. cbn [bind].
    rewrite HX.
    assert (Hwd : match X with [] => 0%nat | l :: _ => length l end = w).
    { destruct X; simpl in HX; [lia|]. apply Hr. left; auto. }
    rewrite Hwd.
    assert (Hall : forallb cond (concat X) = true) by (apply forallb_forall; auto).
    assert (HXl : length (concat X) = (npdf * w)%nat) by (rewrite <- HX; apply concat_length_const; auto).
    rewrite Hall. destruct (Nat.eqb_spec (length (concat X)) 0); [nia|].
    rewrite dispatches_mat with (w := w); auto. cbn [bind]. f_equal.
    assert (HXs : length X = length (seq 0 npdf)) by (rewrite seq_length; auto).
    assert (C : forall (ls : list (list R)), length ls = npdf -> (forall l0, In l0 ls -> length l0 = w) ->
                  chunks npdf w (place cond other (concat X) (concat ls)) = map (map Fin) ls).
    { intros ls Hls Hl0. rewrite place_all; auto.
      - rewrite <- map_chunks. f_equal. rewrite <- Hls. apply chunks_concat; auto.
      - rewrite HXl, <- Hls. apply concat_length_const; auto. }
    unfold mat_ok in *.
    destruct (_ || negb _)%bool eqn:E.
    - apply C.
      + rewrite pointwise_length, seq_length. lia.
      + intros l Hl. apply (in_map (@length R)) in Hl. rewrite pointwise_rows in Hl by auto.
        apply in_map_iff in Hl. destruct Hl as (l1 & <- & Hl1). auto.
    - unfold product. rewrite flat_map_concat_map. apply C.
      + rewrite map_length, seq_length. auto.
      + intros l Hl. apply in_map_iff in Hl. destruct Hl as (r & <- & _). rewrite map_length.
        apply orb_false_iff in E. destruct E as [_ E]. apply negb_false_iff, Nat.eqb_eq in E. auto.
  Qed.
End Wrapper.

(** ** Every evaluator of utils.py dispatches to its point function *)
Lemma nth_map_in {A B} (f : A -> B) l r d d' : (r < length l)%nat -> nth r (map f l) d = f (nth r l d').
Proof. intros. rewrite nth_indep with (d' := f d') by (rewrite map_length; auto). apply map_nth. Qed.

Lemma map2_map_lr {A B C D} (f : B -> C -> D) (h : A -> B) (k : A -> C) l :
  map2 f (map h l) (map k l) = map (fun x => f (h x) (k x)) l.
Proof. induction l; simpl; auto. f_equal; auto. Qed.

Lemma flat_map_ext_in {A B} (f g : A -> list B) l : (forall x, In x l -> f x = g x) -> flat_map f l = flat_map g l.
Proof. induction l; simpl; intros; auto. rewrite H by auto. f_equal; auto. Qed.

Lemma hist_dispatches bins (vals : list (list R)) :
  dispatches (hist_point bins vals) (length vals) (fun x row => evaluate_hist_x_multi_y x row bins vals).
Proof.
  exists (evaluate_hist_x_multi_y_flat bins vals), (evaluate_hist_x_multi_y_product bins vals),
         (evaluate_hist_x_multi_y_2d bins vals).
  split; [reflexivity|split].
  - intros. apply vectorize2_same. auto.
  - intros xs rows _ Hr. unfold evaluate_hist_x_multi_y_product, product, per_row.
    apply flat_map_ext_in. intros r Hin. specialize (Hr _ Hin).
    rewrite nth_map_in with (d' := []) by auto.
    rewrite map_map, map2_map_lr. apply map_ext. intros x.
    unfold hist_point, at2. destruct (get_bin_indices bins x) as [i m]. reflexivity.
Qed.

Lemma hist_multi_dispatches bins vals derivs npdf :
  dispatches (hist_multi_point bins vals derivs) npdf
             (fun x row => evaluate_hist_multi_x_multi_y x row bins vals derivs).
Proof.
  do 3 eexists. split; [reflexivity|split].
  - intros. apply vectorize2_same. auto.
  - intros. reflexivity.
Qed.

Lemma multi_x_multi_y_dispatches ip (xv yv : list (list R)) npdf :
  dispatches (fun x r => ip (nth r xv []) (nth r yv []) x) npdf
             (fun x row => interpolate_multi_x_multi_y ip x row xv yv).
Proof.
  do 3 eexists. split; [reflexivity|split].
  - intros. apply vectorize2_same. auto.
  - intros. reflexivity.
Qed.

Lemma multi_x_y_dispatches ip (xv : list (list R)) (yv : list R) npdf :
  dispatches (fun x r => ip (nth r xv []) yv x) npdf
             (fun x row => interpolate_multi_x_y ip x row xv yv).
Proof.
  do 3 eexists. split; [reflexivity|split].
  - intros. apply vectorize2_same. auto.
  - intros. reflexivity.
Qed.

(** The two interpolation routines have to agree on the tables. *)
Lemma x_multi_y_dispatches ip1 ip2 (xv : list R) (yv : list (list R)) :
  (forall r x, (r < length yv)%nat -> ip1 xv (nth r yv []) x = ip2 xv (nth r yv []) x) ->
  dispatches (fun x r => ip1 xv (nth r yv []) x) (length yv)
             (fun x row => interpolate_x_multi_y ip1 ip2 x row xv yv).
Proof.
  intros E. do 3 eexists. split; [reflexivity|split].
  - intros. apply vectorize2_same. auto.
  - intros xs rows Hn Hr. cbv beta. unfold product, per_row.
    destruct rows as [|r [|r2 rows]]; [congruence| |].
    + simpl. rewrite app_nil_r. reflexivity.
    + apply flat_map_ext_in. intros r' Hin. apply map_ext. intros x. symmetry. apply E. auto.
Qed.
