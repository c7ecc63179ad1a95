(** What splev and splint compute: textbook B-splines, exact integrals. *)
From Coq Require Import List Arith ZArith Bool Lia Reals Lra.
From Coquelicot Require Import Coquelicot.
From Verif Require Import Num NumProofs Py NdArray NumpyLib Utils ScipyWrap Spec SplinePdf SortProofs InterpProofs IntegralProofs HistProofs MetricsProofs.
Import ListNotations.
Local Open Scope list_scope.
Local Open Scope R_scope.

(** ** Specification *)
(** knots in order *)
Definition ordered (t : list R) : Prop := forall i j, (i <= j < length t)%nat -> nth0 i t <= nth0 j t.
(** the Cox-de Boor recursion: the B-spline number [i] of order [k], with 0 for a quotient by 0 *)
Definition quot (a b : R) : R := if Req_EM_T b 0 then 0 else a / b.
Fixpoint B (t : list R) (k i : nat) (x : R) : R :=
  match k with
  | O => if Rle_dec (nth0 i t) x then if Rlt_dec x (nth0 (S i) t) then 1 else 0 else 0
  | S j => quot (x - nth0 i t) (nth0 (i + k) t - nth0 i t) * B t j i x + quot (nth0 (i + k + 1) t - x) (nth0 (i + k + 1) t - nth0 (i + 1) t) * B t j (S i) x
  end.
(** a polynomial of degree below [n] *)
Definition peval (p : list R) (x : R) : R := fold_right (fun a v => a + x * v) 0 p.
Definition polynomial (n : nat) (f : R -> R) : Prop := exists p, (length p <= n)%nat /\ forall x, f x = peval p x.
(** the base range of a spline of order [k]: from its knot number [k] to its knot number [k] from the end *)
Definition first_knot (t : list R) (k : nat) : R := nth0 k t.
Definition last_knot (t : list R) (k : nat) : R := nth0 (length t - 1 - k) t.
Definition clamp (lo hi x : R) : R := Rmin (Rmax x lo) hi.

(** ** Polynomials *)
Fixpoint padd (p q : list R) : list R :=
  match p, q with [], _ => q | _, [] => p | a :: p, b :: q => (a + b) :: padd p q end.
Lemma padd_eval p : forall q x, peval (padd p q) x = peval p x + peval q x.
Proof. induction p as [|a p IH]; intros [|b q] x; cbn [padd peval fold_right]; try lra. fold (peval (padd p q) x) (peval p x) (peval q x). rewrite IH. ring. Qed.
Lemma padd_length p : forall q n, (length p <= n -> length q <= n -> length (padd p q) <= n)%nat.
Proof. induction p as [|a p IH]; intros [|b q] n H1 H2; cbn [padd length] in *; try lia. destruct n; [lia|]. specialize (IH q n). lia. Qed.
Lemma pscale_eval c p x : peval (map (Rmult c) p) x = c * peval p x.
Proof. induction p as [|a p IH]; cbn [map peval fold_right]; [lra|]. fold (peval (map (Rmult c) p) x) (peval p x). rewrite IH. ring. Qed.
Lemma poly_ext n f g : polynomial n f -> (forall x, g x = f x) -> polynomial n g.
Proof. intros (p & L & H) E. exists p. split; [exact L|]. intros x. rewrite E. apply H. Qed.
Lemma poly_add n f g : polynomial n f -> polynomial n g -> polynomial n (fun x => f x + g x).
Proof. intros (p & Lp & Hp) (q & Lq & Hq). exists (padd p q). split; [apply padd_length; auto|]. intros x. rewrite padd_eval, Hp, Hq. reflexivity. Qed.
Lemma poly_scale n c f : polynomial n f -> polynomial n (fun x => c * f x).
Proof. intros (p & Lp & Hp). exists (map (Rmult c) p). split; [rewrite map_length; auto|]. intros x. rewrite pscale_eval, Hp. reflexivity. Qed.
Lemma poly_shift n f : polynomial n f -> polynomial (S n) (fun x => x * f x).
Proof. intros (p & Lp & Hp). exists (0 :: p). split; [simpl; lia|]. intros x. rewrite Hp. cbn [peval fold_right]. fold (peval p x). ring. Qed.
Lemma poly_le n m f : (n <= m)%nat -> polynomial n f -> polynomial m f.
Proof. intros H (p & L & Hp). exists p. split; [lia|exact Hp]. Qed.
Lemma poly_const c : polynomial 1 (fun _ => c).
Proof. exists [c]. split; [simpl; lia|]. intros x. simpl. ring. Qed.
Lemma poly_zero n : polynomial n (fun _ => 0).
Proof. exists []. split; [simpl; lia|]. intros x. reflexivity. Qed.
Lemma poly_affine n a b f : polynomial n f -> polynomial (S n) (fun x => f x * (a + b * x)).
Proof.
  intros H. apply (poly_ext _ (fun x => a * f x + b * (x * f x))); [|intros x; ring]. apply poly_add; [apply (poly_le n); [lia|]; apply poly_scale; exact H|apply poly_scale, poly_shift; exact H].
Qed.
Lemma poly_nsum {A} n (h : A -> R -> R) l : (forall a, In a l -> polynomial n (h a)) -> polynomial n (fun x => nsum (map (fun a => h a x) l)).
Proof.
  induction l as [|a l IH]; intros H; [apply poly_zero|]. apply (poly_ext _ (fun x => h a x + nsum (map (fun a => h a x) l))); [|intros x; cbn [map]; rewrite nsum_cons; reflexivity].
  apply poly_add; [apply H; left; reflexivity|]. apply IH. intros b Hb. apply H. right. exact Hb.
Qed.
Lemma bspl_poly t l j : forall m, polynomial (S j) (fun x => bspl t x l j m).
Proof.
  induction j as [|j IH]; intros m.
  - exact (poly_const (if Nat.eqb m l then n1 else n0)).
  - cbn [bspl]. apply poly_add.
    + destruct (neqb _ _); [apply poly_zero|]. set (d := nsub _ _).
      apply (poly_ext _ (fun x => bspl t x l j m * (- (/ d * nth0 m t) + / d * x))); [apply poly_affine, IH|]. intros x. numR. unfold Rdiv. ring.
    + destruct (neqb _ _); [apply poly_zero|]. set (d := nsub _ _).
      apply (poly_ext _ (fun x => bspl t x l j (m + 1) * (/ d * nth0 (m + S j + 1) t + - / d * x))); [apply poly_affine, IH|]. intros x. numR. unfold Rdiv. ring.
Qed.
Lemma piece_poly t c k l : polynomial (S k) (piece t c k l).
Proof. unfold piece. apply (poly_nsum (S k) (fun i x => nmul (nth0 (l - k + i) c) (bspl t x l k (l - k + i)))). intros i _. apply poly_scale, bspl_poly. Qed.
(** Boole's rule is exact up to degree 5 *)
Lemma six_coefs f : polynomial 6 f -> exists a0 a1 a2 a3 a4 a5, forall x, f x = a0 + a1 * x + a2 * x ^ 2 + a3 * x ^ 3 + a4 * x ^ 4 + a5 * x ^ 5.
Proof.
  intros (p & L & H). exists (nth0 0 p), (nth0 1 p), (nth0 2 p), (nth0 3 p), (nth0 4 p), (nth0 5 p). intros x. rewrite H. unfold nth0.
  do 7 (destruct p as [|? p]; [cbn [peval fold_right nth]; numR; ring|]). simpl in L. lia.
Qed.
Lemma boole_integral f a b : polynomial 6 f -> is_RInt f a b (boole f a b).
Proof.
  intros H. destruct (six_coefs f H) as (a0 & a1 & a2 & a3 & a4 & a5 & E).
  set (G := fun x => a0 * x + a1 * x ^ 2 / 2 + a2 * x ^ 3 / 3 + a3 * x ^ 4 / 4 + a4 * x ^ 5 / 5 + a5 * x ^ 6 / 6).
  assert (Eb : boole f a b = minus (G b) (G a)).
  { unfold boole, minus, plus, opp, G. rewrite !E. cbn. field. }
  rewrite Eb. apply (is_RInt_ext (fun x => a0 + a1 * x + a2 * x ^ 2 + a3 * x ^ 3 + a4 * x ^ 4 + a5 * x ^ 5)); [intros x _; symmetry; apply E|].
  apply (is_RInt_derive G).
  - intros x _. unfold G. auto_derive; [auto|]. field.
  - intros x _. apply (ex_derive_continuous (fun x => a0 + a1 * x + a2 * x ^ 2 + a3 * x ^ 3 + a4 * x ^ 4 + a5 * x ^ 5)). auto_derive. auto.
Qed.
Lemma boole_same f a : boole (N := RNum) f a a = 0.
Proof. unfold boole. numR. unfold Rdiv. ring. Qed.

(** ** The knot interval of a point *)
Lemma find_span_spec t x fuel : forall l, let l' := find_span t x fuel l in
  (l <= l' <= l + fuel)%nat /\ (forall j, (l < j <= l')%nat -> nth0 j t <= x) /\ ((l' < l + fuel)%nat -> x < nth0 (S l') t).
Proof.
  induction fuel as [|f IH]; intros l; cbn [find_span].
  - split; [lia|]. split; [intros j Hj; lia|lia].
  - destruct (nltb_reflect x (nth0 (S l) t)) as [A|A].
    + split; [lia|]. split; [intros j Hj; lia|auto].
    + destruct (IH (S l)) as (H1 & H2 & H3). split; [lia|]. split; [|intros H; apply H3; lia].
      intros j Hj. destruct (Nat.eq_dec j (S l)) as [->|Hne]; [lra|]. apply H2. lia.
Qed.
Lemma rsum_zero n (f : nat -> R) : (forall i, (i < n)%nat -> f i = 0) -> rsum n f = 0.
Proof. induction n as [|n IH]; intros H; [reflexivity|]. cbn [rsum]. rewrite IH by (intros; apply H; lia). rewrite H by lia. ring. Qed.
Lemma rsum_app n m (f : nat -> R) : rsum (n + m) f = rsum n f + rsum m (fun i => f (n + i)%nat).
Proof. induction m as [|m IH]; [rewrite Nat.add_0_r; cbn [rsum]; ring|]. rewrite Nat.add_succ_r. cbn [rsum]. rewrite IH. ring. Qed.
Lemma quot_nonneg a b : 0 <= a -> 0 <= b -> 0 <= quot a b.
Proof. intros Ha Hb. unfold quot. destruct (Req_EM_T b 0); [lra|]. apply Rmult_le_pos; [exact Ha|]. left. apply Rinv_0_lt_compat. lra. Qed.
Lemma clip_eq lo hi x : lo <= hi -> nclip lo hi x = clamp lo hi x.
Proof.
  intros H. unfold nclip, nmin, nmax, clamp, Rmin, Rmax. destruct (nleb_reflect x lo), (Rle_dec x lo); try lra; [destruct (nleb_reflect lo hi), (Rle_dec lo hi); try lra|destruct (nleb_reflect x hi), (Rle_dec x hi); try lra].
Qed.
Ltac clamps := unfold clamp, Rmin, Rmax; repeat match goal with |- context [Rle_dec ?a ?b] => lazymatch a with context [Rle_dec _ _] => fail | _ => destruct (Rle_dec a b) end end; lra.
(** ** The B-splines add up to one *)
Section Unity.
  Variable t : list R.
  Hypothesis Ht : ordered t.
  Lemma B_zero j : forall m x, (m + j + 1 < length t)%nat -> x < nth0 m t \/ nth0 (m + j + 1) t <= x -> B t j m x = 0.
  Proof.
    induction j as [|j IH]; intros m x Hm H.
    - cbn [B]. replace (m + 0 + 1)%nat with (S m) in H by lia. destruct (Rle_dec (nth0 m t) x); [|reflexivity]. destruct (Rlt_dec x (nth0 (S m) t)); [lra|reflexivity].
    - cbn [B]. rewrite (IH m), (IH (S m)); [ring|lia| |lia|].
      + destruct H as [H|H]; [left; pose proof (Ht m (S m) ltac:(lia)); lra|right; replace (S m + j + 1)%nat with (m + S j + 1)%nat by lia; exact H].
      + destruct H as [H|H]; [left; exact H|right; pose proof (Ht (m + j + 1)%nat (m + S j + 1)%nat ltac:(lia)); lra].
  Qed.
  Lemma B_nonneg j : forall m x, (m + j + 1 < length t)%nat -> 0 <= B t j m x.
  Proof.
    induction j as [|j IH]; intros m x Hm.
    - cbn [B]. destruct (Rle_dec _ _); [|lra]. destruct (Rlt_dec _ _); lra.
    - cbn [B]. apply Rplus_le_le_0_compat.
      + destruct (Rlt_le_dec x (nth0 m t)) as [H|H]; [rewrite B_zero by (try lia; left; exact H); lra|].
        apply Rmult_le_pos; [|apply IH; lia]. apply quot_nonneg; [lra|]. pose proof (Ht m (m + S j)%nat ltac:(lia)). lra.
      + destruct (Rle_lt_dec (nth0 (m + S j + 1) t) x) as [H|H]; [rewrite (B_zero j (S m)) by (try lia; right; replace (S m + j + 1)%nat with (m + S j + 1)%nat by lia; exact H); lra|].
        apply Rmult_le_pos; [|apply IH; lia]. apply quot_nonneg; [lra|]. replace (m + 1)%nat with (S m) by lia. pose proof (Ht (S m) (m + S j + 1)%nat ltac:(lia)). lra.
  Qed.
  Lemma unity_zero x : forall n, (n < length t)%nat -> nth0 0 t <= x -> rsum n (fun i => B t 0 i x) = if Rlt_dec x (nth0 n t) then 1 else 0.
  Proof.
    induction n as [|n IH]; intros Hn H0; [cbn [rsum]; destruct (Rlt_dec _ _); lra|]. cbn [rsum]. rewrite IH by (try lia; exact H0). cbn [B].
    pose proof (Ht n (S n) ltac:(lia)). destruct (Rlt_dec x (nth0 n t)), (Rle_dec (nth0 n t) x), (Rlt_dec x (nth0 (S n) t)); lra.
  Qed.
  Lemma rsum_first n (f : nat -> R) : rsum (S n) f = f 0%nat + rsum n (fun i => f (S i)).
  Proof. induction n as [|n IH]; [cbn [rsum]; ring|]. change (rsum (S (S n)) f) with (rsum (S n) f + f (S n)). rewrite IH. cbn [rsum]. ring. Qed.
  Lemma rsum_plus n (f g : nat -> R) : rsum n (fun i => f i + g i) = rsum n f + rsum n g.
  Proof. induction n as [|n IH]; cbn [rsum]; [ring|]. rewrite IH. ring. Qed.
  Lemma unity j : forall x, (2 * j + 2 <= length t)%nat -> nth0 j t <= x < nth0 (length t - 1 - j) t -> rsum (length t - j - 1) (fun i => B t j i x) = 1.
  Proof.
    induction j as [|j IH]; intros x Hl Hx.
    - rewrite unity_zero by (try lia; lra). replace (length t - 0 - 1)%nat with (length t - 1 - 0)%nat by lia. destruct (Rlt_dec _ _); lra.
    - set (M := (length t - S j - 1)%nat). assert (HM : (length t - j - 1 = S M)%nat) by lia.
      assert (I : rsum (S M) (fun i => B t j i x) = 1).
      { rewrite <- HM. apply IH; [lia|]. pose proof (Ht j (S j) ltac:(lia)). pose proof (Ht (length t - 1 - S j)%nat (length t - 1 - j)%nat ltac:(lia)). lra. }
      assert (Z0 : B t j 0 x = 0) by (apply B_zero; [lia|right; replace (0 + j + 1)%nat with (S j) by lia; lra]).
      assert (ZM : B t j M x = 0) by (apply B_zero; [lia|left; replace M with (length t - 1 - S j)%nat by lia; lra]).
      set (q1 := fun m => quot (x - nth0 m t) (nth0 (m + S j) t - nth0 m t)). set (q2 := fun m => quot (nth0 (m + S j) t - x) (nth0 (m + S j) t - nth0 m t)).
      assert (E : forall m, (m <= M)%nat -> q1 m * B t j m x + q2 m * B t j m x = B t j m x).
      { intros m Hm. unfold q1, q2, quot. destruct (Req_EM_T (nth0 (m + S j) t - nth0 m t) 0) as [Z|Z].
        - rewrite (B_zero j m x); [ring|lia|]. replace (m + j + 1)%nat with (m + S j)%nat by lia. lra.
        - field. exact Z. }
      transitivity (rsum M (fun i => q1 i * B t j i x + q2 (S i) * B t j (S i) x)).
      { apply rsum_ext. intros i Hi. unfold q1, q2. cbn [B]. replace (i + S j + 1)%nat with (S i + S j)%nat by lia. replace (i + 1)%nat with (S i) by lia. reflexivity. }
      rewrite rsum_plus.
      assert (S1 : rsum M (fun i => q1 i * B t j i x) = rsum (S M) (fun i => q1 i * B t j i x)) by (cbn [rsum]; rewrite ZM; ring).
      assert (S2 : rsum M (fun i => q2 (S i) * B t j (S i) x) = rsum (S M) (fun i => q2 i * B t j i x)) by (rewrite rsum_first, Z0; ring).
      rewrite S1, S2, <- rsum_plus, <- I. apply rsum_ext. intros i Hi. apply E. lia.
  Qed.
End Unity.
Section Knots.
  Variables (t c : list R) (k : nat).
  Hypothesis Ht : ordered t.
  Hypothesis Hk : (2 * k + 2 <= length t)%nat.
  Notation steps := (last_steps t k).
  Lemma last_interval : (k + steps + 1 = length t - 1 - k)%nat.
  Proof. unfold last_steps. lia. Qed.
  Lemma span_inside x i : (k <= i <= k + steps)%nat -> nth0 i t <= x < nth0 (S i) t -> span t k x = i.
  Proof.
    intros Hi Hx. unfold span. destruct (find_span_spec t x steps k) as (H1 & H2 & H3). set (l := find_span t x steps k) in *. pose proof last_interval as HL.
    destruct (Nat.lt_trichotomy l i) as [H|[H|H]]; [exfalso| exact H|exfalso].
    - specialize (H3 ltac:(lia)). pose proof (Ht (S l) i ltac:(lia)). lra.
    - pose proof (H2 (S i) ltac:(lia)). lra.
  Qed.
  Lemma span_low x : x < nth0 (S k) t -> span t k x = k.
  Proof.
    intros Hx. unfold span. destruct (find_span_spec t x steps k) as (H1 & H2 & H3). set (l := find_span t x steps k) in *.
    destruct (Nat.eq_dec l k) as [E|E]; [exact E|exfalso]. pose proof (H2 (S k) ltac:(lia)). lra.
  Qed.
  Lemma span_high x : nth0 (k + steps) t <= x -> span t k x = (k + steps)%nat.
  Proof.
    intros Hx. unfold span. destruct (find_span_spec t x steps k) as (H1 & H2 & H3). set (l := find_span t x steps k) in *. pose proof last_interval as HL.
    destruct (Nat.eq_dec l (k + steps)) as [E|E]; [exact E|exfalso]. specialize (H3 ltac:(lia)). pose proof (Ht (S l) (k + steps)%nat ltac:(lia)). lra.
  Qed.
  (** every point of the base range lies in an interval of the search *)
  Lemma span_at x : nth0 k t <= x < last_knot t k -> let l := span t k x in (k <= l <= k + steps)%nat /\ nth0 l t <= x < nth0 (S l) t.
  Proof.
    intros Hx. cbv zeta. unfold span. destruct (find_span_spec t x steps k) as (H1 & H2 & H3). set (l := find_span t x steps k) in *. split; [exact H1|]. split.
    - destruct (Nat.eq_dec l k) as [->|E]; [lra|]. apply H2. lia.
    - destruct (Nat.lt_ge_cases l (k + steps)) as [E|E]; [apply H3; exact E|]. assert (l = (k + steps)%nat) as -> by lia.
      destruct Hx as [_ Hx]. unfold last_knot in Hx. rewrite <- last_interval in Hx. replace (S (k + steps)) with (k + steps + 1)%nat by lia. exact Hx.
  Qed.

  (** ** Textbook B-splines *)
  Lemma bspl_B x l : (S l < length t)%nat -> nth0 l t <= x < nth0 (S l) t -> forall j m, (m + j + 1 < length t)%nat -> bspl t x l j m = B t j m x.
  Proof.
    intros Hl Hx. induction j as [|j IH]; intros m Hm.
    - cbn [bspl B]. destruct (Nat.eqb_spec m l) as [->|Hne].
      + destruct (Rle_dec (nth0 l t) x); [|lra]. destruct (Rlt_dec x (nth0 (S l) t)); [reflexivity|lra].
      + destruct (Rle_dec (nth0 m t) x) as [H1|]; [|reflexivity]. destruct (Rlt_dec x (nth0 (S m) t)) as [H2|]; [|reflexivity]. exfalso.
        destruct (Nat.lt_ge_cases m l) as [H|H]; [pose proof (Ht (S m) l ltac:(lia)); lra|pose proof (Ht (S l) m ltac:(lia)); lra].
    - cbn [bspl B]. rewrite (IH m) by lia. replace (m + 1)%nat with (S m) by lia. rewrite (IH (S m)) by lia. unfold quot.
      assert (P : forall a b a' b' : R, a = a' -> b = b' -> nadd a b = a' + b') by (intros; subst; reflexivity). apply P; clear P.
      + destruct (neqb_reflect (nth0 (m + S j) t) (nth0 m t)) as [A|A]; destruct (Req_EM_T (nth0 (m + S j) t - nth0 m t) 0) as [C|C]; numR; try (exfalso; apply C; lra); try (exfalso; apply A; lra); try lra; field; lra.
      + destruct (neqb_reflect (nth0 (m + S j + 1) t) (nth0 (S m) t)) as [A|A]; destruct (Req_EM_T (nth0 (m + S j + 1) t - nth0 (S m) t) 0) as [C|C]; numR; try (exfalso; apply C; lra); try (exfalso; apply A; lra); try lra; field; lra.
  Qed.
  (** the sum of all B-splines, of which only k + 1 differ from zero *)
  Definition spline_sum (x : R) : R := rsum (length t - k - 1) (fun i => nth0 i c * B t k i x).
  Lemma splev_B x : first_knot t k <= x < last_knot t k -> splev t c k x = spline_sum x.
  Proof.
    intros Hx. destruct (span_at x Hx) as (Hl & Hs). unfold splev. set (l := span t k x) in *. pose proof last_interval as HL.
    unfold piece. rewrite nsum_seq. unfold spline_sum.
    replace (length t - k - 1)%nat with ((l - k) + (S k + (length t - k - 1 - (l + 1))))%nat by lia. rewrite rsum_app, rsum_app.
    rewrite (rsum_zero (l - k)). 2:{ intros i Hi. rewrite (B_zero t Ht); [ring|lia|]. right. pose proof (Ht (i + k + 1)%nat l ltac:(lia)). lra. }
    rewrite (rsum_zero (length t - k - 1 - (l + 1))). 2:{ intros i Hi. rewrite (B_zero t Ht); [ring|lia|]. left. pose proof (Ht (S l) (l - k + (S k + i))%nat ltac:(lia)). lra. }
    rewrite Rplus_0_l, Rplus_0_r. apply rsum_ext. intros i Hi. rewrite (bspl_B x l) by (try lia; exact Hs). reflexivity.
  Qed.
  Lemma splev_nonneg x : (forall i, (i < length t - k - 1)%nat -> 0 <= nth0 i c) -> first_knot t k <= x < last_knot t k -> 0 <= splev t c k x.
  Proof.
    intros Hc Hx. rewrite splev_B by exact Hx. unfold spline_sum.
    assert (G : forall n, (n <= length t - k - 1)%nat -> 0 <= rsum n (fun i => nth0 i c * B t k i x)).
    { induction n as [|n IH]; intros Hn; cbn [rsum]; [lra|]. specialize (IH ltac:(lia)). assert (0 <= nth0 n c * B t k n x) by (apply Rmult_le_pos; [apply Hc; lia|apply (B_nonneg t Ht); lia]). lra. }
    apply G. lia.
  Qed.
  Lemma splev_bounds x lo hi : (forall i, (i < length t - k - 1)%nat -> lo <= nth0 i c <= hi) -> first_knot t k <= x < last_knot t k -> lo <= splev t c k x <= hi.
  Proof.
    intros Hc Hx. rewrite splev_B by exact Hx. unfold spline_sum. pose proof (unity t Ht k x Hk Hx) as U.
    assert (G : forall n, (n <= length t - k - 1)%nat -> lo * rsum n (fun i => B t k i x) <= rsum n (fun i => nth0 i c * B t k i x) <= hi * rsum n (fun i => B t k i x)).
    { induction n as [|n IH]; intros Hn; cbn [rsum]; [lra|]. specialize (IH ltac:(lia)). specialize (Hc n ltac:(lia)). pose proof (B_nonneg t Ht k n x ltac:(lia)) as Bn.
      pose proof (Rmult_le_compat_r _ _ _ Bn (proj1 Hc)). pose proof (Rmult_le_compat_r _ _ _ Bn (proj2 Hc)). lra. }
    specialize (G _ (Nat.le_refl _)). rewrite U in G. lra.
  Qed.
  (** outside, the end polynomials *)
  Lemma splev_low : exists f, polynomial (S k) f /\ forall x, x < nth0 (S k) t -> splev t c k x = f x.
  Proof. exists (piece t c k k). split; [apply piece_poly|]. intros x Hx. unfold splev. rewrite span_low by exact Hx. reflexivity. Qed.
  Lemma splev_high : exists f, polynomial (S k) f /\ forall x, nth0 (length t - 2 - k) t <= x -> splev t c k x = f x.
  Proof.
    exists (piece t c k (k + steps)). split; [apply piece_poly|]. intros x Hx. unfold splev. rewrite span_high; [reflexivity|]. pose proof last_interval. replace (k + steps)%nat with (length t - 2 - k)%nat by lia. exact Hx.
  Qed.

  (** ** Integrals *)
  Hypothesis H5 : (k <= 5)%nat.
  Lemma piece_integral i u v : (k <= i <= k + steps)%nat -> nth0 i t <= u -> u <= v -> v <= nth0 (S i) t -> is_RInt (splev t c k) u v (boole (piece t c k i) u v).
  Proof.
    intros Hi Hu Huv Hv. apply (is_RInt_open_ext (piece t c k i)); [exact Huv| |].
    - intros x Hx. unfold splev. rewrite (span_inside x i) by (try exact Hi; lra). reflexivity.
    - apply boole_integral. apply (poly_le (S k)); [lia|]. apply piece_poly.
  Qed.
  Lemma cumulative x : forall n, (n <= S steps)%nat ->
    is_RInt (splev t c k) (nth0 k t) (clamp (nth0 k t) (nth0 (k + n) t) x)
      (nsum (map (fun l => boole (piece t c k l) (nth0 l t) (nclip (nth0 l t) (nth0 (S l) t) x)) (seq k n))).
  Proof.
    induction n as [|n IH]; intros Hn; pose proof last_interval as HL.
    - cbn [seq map]. rewrite Nat.add_0_r. replace (clamp (nth0 k t) (nth0 k t) x) with (nth0 k t) by (clamps). apply (@is_RInt_point R_CompleteNormedModule).
    - rewrite seq_S, map_app, nsum_app. cbn [map]. rewrite nsum_cons, nsum_nil, Rplus_0_r. specialize (IH ltac:(lia)).
      pose proof (Ht k (k + n)%nat ltac:(lia)) as T1. pose proof (Ht (k + n)%nat (S (k + n)) ltac:(lia)) as T2. rewrite (clip_eq (nth0 (k + n) t)) by exact T2. replace (k + S n)%nat with (S (k + n)) by lia.
      destruct (Rle_lt_dec x (nth0 (k + n) t)) as [Hx|Hx].
      + replace (clamp (nth0 (k + n) t) (nth0 (S (k + n)) t) x) with (nth0 (k + n) t) by (clamps).
        rewrite boole_same, Rplus_0_r. replace (clamp (nth0 k t) (nth0 (S (k + n)) t) x) with (clamp (nth0 k t) (nth0 (k + n) t) x); [exact IH|].
        clamps.
      + replace (clamp (nth0 k t) (nth0 (k + n) t) x) with (nth0 (k + n) t) in IH by (clamps).
        replace (clamp (nth0 k t) (nth0 (S (k + n)) t) x) with (clamp (nth0 (k + n) t) (nth0 (S (k + n)) t) x).
        2:{ clamps. }
        apply (is_RInt_join _ _ _ _ _ _ IH). apply piece_integral; [lia|lra| |]; clamps.
  Qed.
  (** from below all knots *)
  Lemma splint_integral lo x : (forall y, In y t -> lo <= y) -> is_RInt (splev t c k) (first_knot t k) (clamp (first_knot t k) (last_knot t k) x) (splint t c k lo x).
  Proof.
    intros Hlo. pose proof (cumulative x (S steps) (Nat.le_refl _)) as H. pose proof last_interval as HL. replace (k + S steps)%nat with (length t - 1 - k)%nat in H by lia.
    unfold splint. replace (map _ (seq k (S (last_steps t k)))) with (map (fun l => boole (piece t c k l) (nth0 l t) (nclip (nth0 l t) (nth0 (S l) t) x)) (seq k (S steps))); [exact H|].
    apply map_ext_in. intros l Hl. apply in_seq in Hl. f_equal. assert (Hi : In (nth0 l t) t) by (apply nth_In; lia). pose proof (Ht l (S l) ltac:(lia)) as T.
    rewrite clip_eq by exact T. specialize (Hlo _ Hi). clamps.
  Qed.
  Lemma ends_order : first_knot t k <= last_knot t k.
  Proof using Ht Hk.
    clear H5. unfold first_knot, last_knot. apply Ht. lia. Qed.
  (** the spline can be integrated everywhere *)
  Lemma splev_integrable u v : ex_RInt (splev t c k) u v.
  Proof.
    assert (F : forall x, ex_RInt (splev t c k) (first_knot t k) x).
    { intros x. destruct (Rlt_le_dec x (first_knot t k)) as [H|H].
      - apply ex_RInt_swap. exists (boole (piece t c k k) x (first_knot t k)). apply (is_RInt_open_ext (piece t c k k)); [lra| |apply boole_integral; apply (poly_le (S k)); [lia|]; apply piece_poly].
        intros y Hy. unfold splev. rewrite span_low; [reflexivity|]. unfold first_knot in Hy. pose proof (Ht k (S k) ltac:(lia)). lra.
      - destruct (Rle_lt_dec x (last_knot t k)) as [H'|H'].
        + pose proof (splint_integral (nmin x (nth0 0 t)) x) as I. pose proof ends_order. replace (clamp (first_knot t k) (last_knot t k) x) with x in I by (clamps).
          eexists. apply I. intros y Hy. apply (In_nth _ _ 0) in Hy. destruct Hy as (i & Hi & <-). change (nth i t 0) with (nth0 i t). pose proof (Ht 0%nat i ltac:(lia)). unfold nmin. destruct (nleb_reflect x (nth0 0 t)); lra.
        + apply (ex_RInt_Chasles _ _ (last_knot t k)).
          * pose proof (splint_integral (nth0 0 t) x) as I. pose proof ends_order. replace (clamp (first_knot t k) (last_knot t k) x) with (last_knot t k) in I by (clamps).
            eexists. apply I. intros y Hy. apply (In_nth _ _ 0) in Hy. destruct Hy as (i & Hi & <-). apply (Ht 0%nat i). lia.
          * exists (boole (piece t c k (k + steps)) (last_knot t k) x). apply (is_RInt_open_ext (piece t c k (k + steps))); [lra| |apply boole_integral; apply (poly_le (S k)); [lia|]; apply piece_poly].
            intros y Hy. unfold splev. rewrite span_high; [reflexivity|]. unfold last_knot in Hy. pose proof last_interval as HL. pose proof (Ht (k + steps)%nat (length t - 1 - k)%nat ltac:(lia)). lra. }
    apply (ex_RInt_Chasles _ _ (first_knot t k)); [apply ex_RInt_swap|]; apply F.
  Qed.
End Knots.
