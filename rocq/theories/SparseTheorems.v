(** Sparse representations: integer coding, basis indices, in-place column swaps. *)
From Coq Require Import List Arith ZArith QArith Bool Lia Reals Lra Psatz.
From Coquelicot Require Import Coquelicot.
From Verif Require Import Num NumProofs Py NdArray NumpyLib Utils ScipyWrap Spec InterpPdf Packing Sparse
  SortProofs EvalProofs NdProofs InterpProofs IntegralProofs BinProofs HistProofs HistTheorems TableProofs InterpPdfProofs
  GridTheorems MixmodTheorems PackingTheorems PackedTheorems.
Import ListNotations.

(** ** Integer coding *)
Lemma land_mask n : Z.land n (2 ^ 16 - 1) = (n mod 2 ^ 16)%Z.
Proof. change (2 ^ 16 - 1)%Z with (Z.ones 16). apply Z.land_ones. lia. Qed.
Lemma c73_iff : forall c b : Z, get_N (combine_int c b) = (c, b) <-> (0 <= b < 2 ^ 16)%Z.
Proof.
  intros c b. unfold get_N, combine_int. split.
  - intros E. injection E as _ E. rewrite <- E, land_mask. apply Z.mod_pos_bound. lia.
  - intros Hb. f_equal.
    + rewrite Z.shiftr_lor, Z.shiftr_shiftl_l, Z.sub_diag, Z.shiftl_0_r by lia.
      rewrite (Z.shiftr_div_pow2 b), Z.div_small, Z.lor_0_r by lia. auto.
    + rewrite land_mask, <- Z.land_ones, Z.land_lor_distr_l, !Z.land_ones by lia.
      rewrite Z.shiftl_mul_pow2, Z.mod_mul, Z.lor_0_l, Z.mod_small by lia. auto.
Qed.
Lemma c18_partial : forall c b : Z, (0 <= b < 65536)%Z -> get_N (combine_int c b) = (c, b).
Proof. intros. apply c73_iff. exact H. Qed.
Lemma c18_refuted : exists c b : Z, (0 <= b)%Z /\ get_N (combine_int c b) <> (c, b) /\
  get_N (combine_int c b) = ((c + 1)%Z, 0%Z).
Proof. exists 2%Z, 65536%Z. vm_compute. repeat split; congruence. Qed.
(** Distinct (coefficient, index) pairs give distinct integers. *)
Lemma combine_injective : forall c b c' b' : Z, (0 <= b < 65536)%Z -> (0 <= b' < 65536)%Z ->
  combine_int c b = combine_int c' b' -> c = c' /\ b = b'.
Proof.
  intros c b c' b' Hb Hb' E. pose proof (c18_partial c b Hb) as E1. pose proof (c18_partial c' b' Hb') as E2.
  rewrite E in E1. rewrite E1 in E2. injection E2 as -> ->. auto.
Qed.

(** ** Basis indices *)
Lemma flat_map_nth {A} (f : nat -> list A) m d : (forall i, length (f i) = m) -> forall n s i k, (i < n)%nat -> (k < m)%nat ->
  nth (i * m + k) (flat_map f (seq s n)) d = nth k (f (s + i)%nat) d.
Proof.
  intros Hf. induction n; intros s i k Hi Hk; [lia|]. cbn [seq flat_map]. destruct i.
  - rewrite Nat.add_0_r. simpl (0 * m + k)%nat. rewrite app_nth1 by (rewrite Hf; auto). auto.
  - rewrite app_nth2; rewrite Hf; [|simpl; lia]. replace (S i * m + k - m)%nat with (i * m + k)%nat by (simpl; lia).
    rewrite IHn by lia. f_equal. f_equal. lia.
Qed.
Lemma flat_map_len {A} (f : nat -> list A) m : (forall i, length (f i) = m) -> forall n s, length (flat_map f (seq s n)) = (n * m)%nat.
Proof. intros Hf. induction n; intros s; simpl; auto. rewrite app_length, Hf, IHn. auto. Qed.

Section Shapes.
  Context {T : Type} {N : Num T}.
  Lemma params_length (mu sig : T * T) nmu nsig nv : length (basis_params mu sig nmu nsig nv) = (nmu * (nsig * nv))%nat.
  Proof.
    unfold basis_params. apply flat_map_len. intros i. rewrite (flat_map_len _ nv); auto.
    intros j. rewrite map_length, seq_length. auto.
  Qed.
  (** Column [d] of the dictionary is built with the parameters that [index_shape] recovers. *)
  Lemma params_nth (mu sig : T * T) nmu nsig nv d e : (d < nmu * (nsig * nv))%nat ->
    nth d (basis_params mu sig nmu nsig nv) e = index_shape mu sig nmu nsig nv d.
  Proof.
    intros Hd. unfold basis_params, index_shape.
    assert (Hm : (nsig * nv <> 0)%nat) by (intros E; rewrite E, Nat.mul_0_r in Hd; lia).
    assert (Hv : nv <> 0%nat) by (intros ->; rewrite Nat.mul_0_r in Hm; lia).
    pose proof (Nat.div_mod d (nsig * nv) Hm) as E1.
    pose proof (Nat.mod_upper_bound d (nsig * nv) Hm) as B1.
    set (q := (d / (nsig * nv))%nat) in *. set (r := (d mod (nsig * nv))%nat) in *.
    assert (Hq : (q < nmu)%nat) by (apply Nat.div_lt_upper_bound; auto; lia).
    rewrite E1 at 1. rewrite (Nat.mul_comm (nsig * nv) q).
    rewrite (flat_map_nth _ (nsig * nv)%nat) by
      (auto; intros i; rewrite (flat_map_len _ nv); auto; intros j; rewrite map_length, seq_length; auto).
    pose proof (Nat.div_mod r nv Hv) as E2. pose proof (Nat.mod_upper_bound r nv Hv) as B2.
    set (q2 := (r / nv)%nat) in *. set (r2 := (r mod nv)%nat) in *.
    assert (Hq2 : (q2 < nsig)%nat) by (apply Nat.div_lt_upper_bound; auto; lia).
    rewrite E2 at 1. rewrite (Nat.mul_comm nv q2).
    rewrite (flat_map_nth _ nv) by (auto; intros i; rewrite map_length, seq_length; auto).
    rewrite (nth_map' _ _ 0%nat) by (rewrite seq_length; auto).
    rewrite seq_nth by auto. reflexivity.
  Qed.
End Shapes.

Local Open Scope R_scope.

(** What the user reads off the coded integers: the column a coded index refers to, and the
    parameters [indices2shapes] reports for it. *)
Lemma c19_partial : forall (mu sig : R * R) nmu nsig nv ncoef (coefs : list Z) (bases : list nat),
  length coefs = length bases ->
  (forall b, In b bases -> (b < nmu * (nsig * nv))%nat /\ (Z.of_nat b < 65536)%Z) ->
  let inds := map2 (fun c b => combine_int c (Z.of_nat b)) coefs bases in
  snd (indices2shapes mu sig nmu nsig nv ncoef inds) =
  map (fun b => nth b (basis_params mu sig nmu nsig nv) (0, 0, 0)) bases.
Proof.
  intros mu sig nmu nsig nv ncoef coefs bases. revert bases.
  unfold indices2shapes. cbn [snd].
  induction coefs as [|c coefs IH]; intros [|b bases] Hl Hb; simpl in Hl; try lia; auto.
  cbn [map2 map]. rewrite c18_partial.
  - cbn [snd]. rewrite Nat2Z.id. rewrite <- params_nth with (e := (0, 0, 0)) by (apply Hb; left; auto).
    f_equal. apply IH; [lia|]. intros b' Hb'. apply Hb. right. auto.
  - destruct (Hb b) as (_ & ?); [left; auto|]. lia.
Qed.
Lemma c19_refuted : exists (mu sig : R * R) nmu nsig nv c b,
  (b < nmu * (nsig * nv))%nat /\
  snd (indices2shapes mu sig nmu nsig nv 32001 [combine_int c (Z.of_nat b)]) <>
  [nth b (basis_params mu sig nmu nsig nv) (0, 0, 0)].
Proof.
  remember (Z.to_nat 65535) as n eqn:En.
  assert (Eb : Z.of_nat (S n) = 65536%Z) by (rewrite Nat2Z.inj_succ, En, Z2Nat.id by lia; reflexivity).
  exists (0, 1), (1, 2), (S (S n)), 1%nat, 1%nat, 7%Z, (S n).
  clear En. assert (Hd : (S n < S (S n) * (1 * 1))%nat) by lia.
  split; auto. rewrite params_nth by auto. unfold indices2shapes. cbn [snd map]. rewrite Eb.
  assert (E : snd (get_N (combine_int 7 65536)) = 0%Z) by (vm_compute; auto). rewrite E.
  unfold index_shape. intros C. apply (f_equal (fun l => fst (fst (hd (0, 0, 0) l)))) in C. cbn [hd fst snd] in C. revert C.
  change (1 * 1)%nat with 1%nat. rewrite !Nat.div_1_r. change (Z.to_nat 0) with 0%nat. cbn [fst snd].
  rewrite !linspace_nth by lia.
  assert (INR (S n) <> 0) by (apply not_0_INR; lia).
  replace (0 + INR (S n) * ((1 - 0) / INR (S n))) with 1 by (field; auto).
  change (INR 0) with 0. lra.
Qed.

(** ** Column swaps *)
Section Lists.
  Context {A : Type}.
  Lemma upd_length i (v : A) l : length (upd i v l) = length l.
  Proof. revert i. induction l; intros [|i]; simpl; auto. Qed.
  Lemma upd_nth i (v : A) l p d : (i < length l)%nat -> nth p (upd i v l) d = if Nat.eqb p i then v else nth p l d.
  Proof.
    revert i p. induction l; intros [|i] [|p] H; simpl in *; try lia; auto.
    - apply IHl. lia.
  Qed.
  Lemma swap_length (d : A) i j l : length (swap d i j l) = length l.
  Proof. unfold swap. rewrite !upd_length. auto. Qed.
  Lemma swap_nth (d : A) i j l p e : (i < length l)%nat -> (j < length l)%nat ->
    nth p (swap d i j l) e = if Nat.eqb p j then nth i l e else if Nat.eqb p i then nth j l e else nth p l e.
  Proof.
    intros Hi Hj. unfold swap. rewrite upd_nth by (rewrite upd_length; auto). rewrite upd_nth by auto.
    rewrite (nth_indep l d e Hi), (nth_indep l d e Hj). auto.
  Qed.
End Lists.

Section Pursuit.
  Variables (sqrt : R -> R) (chol : list (list R) -> list R -> list R) (dependent : list (list R) -> list R -> bool).
  Notation loop := (pursuit_loop sqrt chol dependent).
  Notation basis := (sparse_basis sqrt chol dependent).
  Notation one := (build_one sqrt chol dependent).
  Notation all := (build_all sqrt chol dependent).

  (** Position p of the working dictionary holds column idx[p] of the original one; a position
      not yet filled is untouched unless its own column has been selected. *)
  Definition inv (D : list (list R)) (n : nat) (s : pursuit (T := R)) : Prop :=
    length (p_dict s) = length D /\ length (p_idx s) = length D /\
    (forall p, (p < length D)%nat -> (nth p (p_idx s) 0 < length D)%nat /\
       nth p (p_dict s) [] = nth (nth p (p_idx s) 0%nat) D []) /\
    (forall p q, (p < length D)%nat -> (q < length D)%nat -> nth p (p_idx s) 0%nat = nth q (p_idx s) 0%nat -> p = q) /\
    (forall p, (n <= p < length D)%nat -> nth p (p_idx s) 0%nat = p \/ exists q, (q < n)%nat /\ nth q (p_idx s) 0%nat = p) /\
    (n <= length D)%nat.

  Lemma inv_S D n s : inv D n s -> (n < length D)%nat -> inv D (S n) s.
  Proof using.
    intros (I1 & I2 & I3 & I4 & I5 & I6) Hn. repeat split; auto; try (apply I3; auto); try lia.
    intros p Hp. destruct (I5 p) as [|(q & Hq & E)]; auto; [lia|]. right. exists q. split; auto.
  Qed.

  Lemma inv_step D query n lam s : inv D n s -> (n <= lam)%nat -> (lam < length D)%nat ->
    inv D (S n) (pursuit_step chol query n lam s).
  Proof using.
    intros (I1 & I2 & I3 & I4 & I5 & I6) Hn Hl.
    assert (Hsw : forall p, nth p (swap 0%nat n lam (p_idx s)) 0%nat =
              if Nat.eqb p lam then nth n (p_idx s) 0%nat else if Nat.eqb p n then nth lam (p_idx s) 0%nat else nth p (p_idx s) 0%nat)
      by (intros p; apply swap_nth; lia).
    unfold pursuit_step. repeat split; cbn [p_dict p_idx].
    - rewrite swap_length. auto.
    - rewrite swap_length. auto.
    - rewrite Hsw. repeat match goal with |- context [Nat.eqb ?a ?b] => destruct (Nat.eqb_spec a b) end; apply I3; lia.
    - rewrite Hsw, swap_nth by lia.
      repeat match goal with |- context [Nat.eqb ?a ?b] => destruct (Nat.eqb_spec a b) end; apply I3; lia.
    - intros p q Hp Hq. rewrite !Hsw.
      repeat match goal with |- context [Nat.eqb ?a ?b] => destruct (Nat.eqb_spec a b) end; intros E; apply I4 in E; lia.
    - intros p Hp. rewrite Hsw. destruct (Nat.eqb_spec p lam) as [->|Hne].
      + destruct (I5 lam) as [E|(q & Hq & E)]; [lia| |].
        * right. exists n. split; [lia|]. rewrite Hsw.
          destruct (Nat.eqb_spec n lam); [lia|]. rewrite Nat.eqb_refl. auto.
        * right. exists q. split; [lia|]. rewrite Hsw.
          destruct (Nat.eqb_spec q lam); [lia|]. destruct (Nat.eqb_spec q n); [lia|]. auto.
      + destruct (Nat.eqb_spec p n); [lia|].
        destruct (I5 p) as [E|(q & Hq & E)]; [lia|auto|].
        right. exists q. split; [lia|]. rewrite Hsw.
        destruct (Nat.eqb_spec q lam); [lia|]. destruct (Nat.eqb_spec q n); [lia|]. auto.
    - lia.
  Qed.

  Lemma argmax_from_lt (l : list R) best bi i : (bi < i)%nat -> (argmax_from best bi i l < i + length l)%nat.
  Proof using.
    revert best bi i. induction l as [|x l IH]; intros best bi i H; simpl; [lia|].
    destruct (nltb best x); [specialize (IH x i (S i))|specialize (IH best bi (S i))]; lia.
  Qed.
  Lemma argmax_lt (l : list R) : l <> [] -> (np_argmax l < length l)%nat.
  Proof using. destruct l; [congruence|]. intros _. unfold np_argmax. pose proof (argmax_from_lt l r 0 1 ltac:(lia)). simpl. lia. Qed.

  Lemma loop_inv D query tol : D <> [] -> forall k n s, inv D n s ->
    let '(m, s') := loop query tol k n s in inv D m s'.
  Proof using.
    intros HD. induction k; intros n s I; cbn [pursuit_loop]; auto.
    set (lam := np_argmax _). destruct (_ || _)%bool eqn:E1; auto.
    apply orb_false_iff in E1. destruct E1 as (E1 & _). apply Nat.ltb_ge in E1.
    assert (Hlam : (lam < length D)%nat).
    { unfold lam. destruct I as (I1 & _). pose proof (argmax_lt (map (fun c => nabs (dot c (p_res s))) (p_dict s))) as L.
      rewrite map_length, I1 in L. apply L. intros C. apply map_eq_nil in C. rewrite C in I1. destruct D; simpl in I1; congruence. }
    destruct (_ && _)%bool; [apply inv_S; auto; lia|].
    pose proof (inv_step D query n lam s I E1 Hlam) as I'.
    destruct (match tol with Some _ => _ | None => _ end); auto.
    apply IHk. auto.
  Qed.

  Lemma basis_inv D query nb tol dind dval D' : basis D query nb tol = Ok (dind, dval, D') ->
    exists m s, inv D m s /\ dind = firstn m (p_idx s) /\ D' = p_dict s.
  Proof using.
    unfold sparse_basis. destruct (nb =? 0)%nat; [congruence|].
    destruct (length D =? 0)%nat eqn:E0; [congruence|]. apply Nat.eqb_neq in E0.
    assert (HD : D <> []) by (intros ->; apply E0; auto).
    set (s0 := mkpursuit _ _ _ _ _).
    assert (I0 : inv D 0 s0).
    { unfold s0. repeat split; cbn [p_dict p_idx]; auto; try lia; rewrite ?seq_length; auto.
      - rewrite seq_nth by auto. auto.
      - rewrite seq_nth by auto. auto.
      - intros p q Hp Hq. rewrite !seq_nth by auto. auto.
      - intros p Hp. left. rewrite seq_nth by lia. auto. }
    pose proof (loop_inv D query tol HD nb 0 s0 I0) as L.
    destruct (loop query tol nb 0 s0) as (m, s). destruct (p_gamma s) as [g|]; [|congruence].
    destruct (negb _); [congruence|]. intros E. injection E as <- <- <-. exists m, s. auto.
  Qed.

  Lemma nth_firstn {A} (l : list A) m j d : (j < m)%nat -> nth j (firstn m l) d = nth j l d.
  Proof using.
    revert m j. induction l; intros [|m] [|j] H; simpl; auto; try lia. apply IHl. lia.
  Qed.

  (** [A[:, Dind] = A[:, :n]]: position Dind[j] receives column j. *)
  Lemma swap_back_spec (dind : list nat) (B : list (list R)) :
    NoDup dind -> (forall d, In d dind -> (d < length B)%nat) ->
    length (swap_back dind B) = length B /\
    (forall j, (j < length dind)%nat -> nth (nth j dind 0%nat) (swap_back dind B) [] = nth j B []) /\
    (forall p, ~ In p dind -> nth p (swap_back dind B) [] = nth p B []).
  Proof using.
    unfold swap_back. intros Hnd Hlt.
    assert (G : forall (dd : list nat) s C, length C = length B -> NoDup dd -> (forall d, In d dd -> (d < length B)%nat) ->
      let R := fold_left (fun B0 jd => upd (snd jd) (nth (fst jd) B []) B0) (combine (seq s (length dd)) dd) C in
      length R = length B /\
      (forall j, (j < length dd)%nat -> nth (nth j dd 0%nat) R [] = nth (s + j) B []) /\
      (forall p, ~ In p dd -> nth p R [] = nth p C [])).
    { induction dd as [|d dd IH]; intros s C HC ND Hr; [cbn; repeat split; auto; intros; lia|].
      cbn [length seq combine fold_left fst snd]. inversion ND as [|? ? Hni ND']; subst.
      destruct (IH (S s) (upd d (nth s B []) C)) as (R1 & R2 & R3); auto.
      { rewrite upd_length. auto. } { intros; apply Hr; right; auto. }
      split; [auto|]. split.
      - intros [|j] Hj.
        + cbn [nth]. rewrite R3 by auto. rewrite upd_nth by (rewrite HC; apply Hr; left; auto).
          rewrite Nat.eqb_refl, Nat.add_0_r. auto.
        + cbn [nth]. rewrite R2 by (simpl in Hj; lia). f_equal. lia.
      - intros p Hp. rewrite R3 by (intros C'; apply Hp; right; auto).
        rewrite upd_nth by (rewrite HC; apply Hr; left; auto).
        destruct (Nat.eqb_spec p d) as [->|]; auto. exfalso. apply Hp. left. auto. }
    destruct (G dind 0%nat B eq_refl Hnd Hlt) as (G1 & G2 & G3). auto.
  Qed.

  Lemma inv_dind D m s : inv D m s -> let dind := firstn m (p_idx s) in
    length dind = m /\ NoDup dind /\ (forall d, In d dind -> (d < length D)%nat).
  Proof using.
    intros (I1 & I2 & I3 & I4 & I5 & I6) dind.
    assert (L : length dind = m) by (unfold dind; rewrite firstn_length; lia).
    split; auto. split.
    - apply (NoDup_nth dind 0%nat). intros i j Hi Hj E. unfold dind in E. rewrite !nth_firstn in E by lia.
      apply I4 in E; auto; lia.
    - intros d Hd. apply (In_nth _ _ 0%nat) in Hd. destruct Hd as (j & Hj & <-).
      unfold dind. rewrite nth_firstn by lia. apply I3. lia.
  Qed.

  (** What is left of the dictionary after one PDF. *)
  Lemma c75_dictionary : forall nsparse tol D pdf line D',
    one nsparse tol D pdf = Ok (line, D') ->
    exists dind dval D1, basis D pdf nsparse (Some tol) = Ok (dind, dval, D1) /\
      length D' = length D /\
      NoDup dind /\ (forall d, In d dind -> (d < length D)%nat) /\
      (forall p, (p < length D)%nat -> In p dind \/ (length dind <= p)%nat -> nth p D' [] = nth p D []) /\
      (forall p, (p < length dind)%nat -> ~ In p dind -> nth p D' [] = nth (nth p dind 0%nat) D []).
  Proof using.
    intros nsparse tol D pdf line D' E. unfold build_one in E.
    destruct (basis D pdf nsparse (Some tol)) as [[[dind dval] D1]|] eqn:Eb; cbn [bind] in E; [|congruence].
    exists dind, dval, D1. split; auto.
    destruct (basis_inv _ _ _ _ _ _ _ Eb) as (m & s & I & Ed & ED1).
    pose proof (inv_dind D m s I) as ID. cbv zeta in ID. rewrite <- Ed in ID. destruct ID as (Lm & ND & Hr).
    pose proof I as (I1 & I2 & I3 & I4 & I5 & I6).
    assert (Hj : forall j, (j < m)%nat -> nth j dind 0%nat = nth j (p_idx s) 0%nat) by (intros; rewrite Ed; apply nth_firstn; auto).
    destruct (length dind <? 1)%nat eqn:E0.
    - apply Nat.ltb_lt in E0. injection E as <- <-.
      assert (dind = []) by (apply length_zero_iff_nil; lia). subst dind. simpl in Lm. assert (m = 0)%nat by lia. 
      rewrite ED1. split; [auto|]. split; [auto|]. split; [auto|]. split; [|simpl; intros; lia].
      intros p Hp _. destruct (I5 p) as [E1|(q & Hq & _)]; [lia| |lia].
      destruct (I3 p Hp) as (_ & ->). rewrite E1. auto.
    - injection E as <- <-.
      destruct (swap_back_spec dind D1) as (S1 & S2 & S3); auto.
      { intros d Hd. rewrite ED1, I1. auto. }
      split; [rewrite S1, ED1; auto|]. split; [auto|]. split; [auto|]. split.
      + intros p Hp Hc. destruct (in_dec Nat.eq_dec p dind) as [Hi|Hni].
        * apply (In_nth _ _ 0%nat) in Hi. destruct Hi as (j & Hj' & <-). rewrite S2 by auto.
          rewrite ED1. destruct (I3 j) as (_ & ->); [lia|]. rewrite Hj by lia. auto.
        * rewrite S3 by auto. rewrite ED1. destruct (I3 p Hp) as (_ & ->).
          destruct (I5 p) as [E1|(q & Hq & E1)]; [destruct Hc; [contradiction|lia]|rewrite E1; auto|].
          exfalso. apply Hni. rewrite <- E1, <- (Hj q Hq). apply nth_In. lia.
      + intros p Hp Hni. rewrite S3 by auto. rewrite ED1. destruct (I3 p) as (_ & ->); [lia|]. rewrite Hj by lia. auto.
  Qed.

  (** If every PDF, taken alone, selects exactly the first columns, the batch is handled PDF by PDF. *)
  Lemma restored nsparse tol D pdf line D' :
    one nsparse tol D pdf = Ok (line, D') ->
    (forall dind dval D1, basis D pdf nsparse (Some tol) = Ok (dind, dval, D1) ->
       forall p, (p < length dind)%nat -> In p dind) -> D' = D.
  Proof using.
    intros E H. destruct (c75_dictionary _ _ _ _ _ _ E) as (dind & dval & D1 & Eb & L & ND & Hr & H1 & H2).
    apply nth_ext with (d := []) (d' := []); auto. intros p Hp. rewrite L in Hp. apply H1; auto.
    destruct (Nat.lt_ge_cases p (length dind)); [left; eapply H; eauto|right; auto].
  Qed.
  Lemma c20_partial : forall nsparse tol D P lines,
    (forall pdf, In pdf P -> forall dind dval D1, basis D pdf nsparse (Some tol) = Ok (dind, dval, D1) ->
       forall p, (p < length dind)%nat -> In p dind) ->
    mapM (fun pdf => let* r := all nsparse tol D [pdf] in Ok (nth 0 (fst r) [])) P = Ok lines ->
    all nsparse tol D P = Ok (lines, D).
  Proof using.
    intros nsparse tol D. induction P as [|pdf P IH]; intros lines H E; cbn [mapM] in E.
    - injection E as <-. reflexivity.
    - cbn [build_all] in *. destruct (one nsparse tol D pdf) as [(line, D')|] eqn:E1; cbn [bind fst snd] in *; [|congruence].
      cbn [nth] in E.
      assert (D' = D).
      { eapply restored; [exact E1|]. apply H. left. auto. }
      subst D'.
      destruct (mapM _ P) as [rest|] eqn:E2; cbn [bind] in E; [|congruence]. injection E as <-.
      rewrite (IH rest); auto. intros; eapply H; [right|..]; eauto.
  Qed.
End Pursuit.

(** Orthonormal columns: the normal equations are solved by the scalar products themselves. *)
Definition orthonormalQ (cols : list (list Q)) : Prop :=
  forall i j, (i < length cols)%nat -> (j < length cols)%nat ->
    dot (nth i cols []) (nth j cols []) = if Nat.eqb i j then 1%Q else 0%Q.

Lemma c20_refuted : exists (D : list (list Q)) (pdf0 pdf1 : list Q) (chol : list (list Q) -> list Q -> list Q) dep l0 l1 D',
  orthonormalQ D /\
  (forall cols a, orthonormalQ cols -> chol cols a = a) /\
  (* alone, each PDF is coded (it is a column of the dictionary) *)
  build_all (fun x => x) chol dep 1 (1 # 100) D [pdf0] = Ok ([l0], D') /\
  build_all (fun x => x) chol dep 1 (1 # 100) D [pdf1] = Ok ([l1], D) /\
  (* together the second one fails *)
  build_all (fun x => x) chol dep 1 (1 # 100) D [pdf0; pdf1] = Err UnboundLocalError /\
  (* because column 0 of the dictionary is gone *)
  nth 0 D' [] = nth 2 D [] /\ nth 0 D' [] <> nth 0 D [].
Proof.
  exists [[1; 0; 0]; [0; 1; 0]; [0; 0; 1]]%Q, [0; 0; 1]%Q, [1; 0; 0]%Q, (fun _ a => a), (fun _ _ => false).
  eexists _, _, _. split; [|split; [auto|]].
  - intros i j Hi Hj. simpl in Hi, Hj.
    destruct i as [|[|[|]]]; try lia; destruct j as [|[|[|]]]; try lia; vm_compute; reflexivity.
  - split; [vm_compute; reflexivity|]. split; [vm_compute; reflexivity|]. split; [vm_compute; reflexivity|].
    split; [vm_compute; reflexivity|]. vm_compute. congruence.
Qed.

(** ** Coefficients *)
Lemma map2_len' {A B C} (f : A -> B -> C) l1 l2 : length l1 = length l2 -> length (map2 f l1 l2) = length l1.
Proof. revert l2. induction l1; intros [|b l2] H; simpl in *; auto; lia. Qed.
Lemma map2_nth' {A B C} (f : A -> B -> C) l1 l2 i a b c : (i < length l1)%nat -> (i < length l2)%nat ->
  nth i (map2 f l1 l2) c = f (nth i l1 a) (nth i l2 b).
Proof. revert l2 i. induction l1; intros [|b' l2] [|i] H1 H2; simpl in *; try lia; auto. apply IHl1; lia. Qed.

Lemma decode_length ncoef (cs : list Z) : length (decode_weights (T := R) ncoef cs) = length cs.
Proof. unfold decode_weights. destruct cs; simpl; auto. rewrite map_length. auto. Qed.
Lemma decode_first ncoef (cs : list Z) : cs <> [] -> nth0 0 (decode_weights (T := R) ncoef cs) = 1.
Proof. destruct cs; [congruence|]. reflexivity. Qed.
Lemma decode_nth ncoef (cs : list Z) j : (0 < j)%nat -> (j < length cs)%nat ->
  nth0 j (decode_weights (T := R) ncoef cs) = IZR (nth j cs 0%Z) / IZR (ncoef - 1).
Proof.
  intros H0 Hj. destruct cs as [|c cs]; [simpl in Hj; lia|]. destruct j; [lia|].
  unfold decode_weights. cbn [map]. rewrite nth0_cons_S. rewrite (nth0_map' _ _ 0%Z) by (simpl in Hj; lia).
  cbn [nth]. numR. unfold Rdiv. ring.
Qed.

(** Reading back what was written for one PDF. *)
Lemma c74_weights : forall (dind : list nat) (dval : list R),
  length dval = length dind -> dind <> [] -> (forall d, In d dind -> (Z.of_nat d < 65536)%Z) ->
  forall mx, is_max mx dval -> 0 < mx ->
  exists w, decode_sparse (encode dind dval) = (dind, w) /\ length w = length dval /\
    nth0 0 w = 1 /\
    (forall j, (0 < j)%nat -> (j < length dval)%nat -> Rabs (nth0 j w - nth0 j dval / mx) <= 1 / 64000) /\
    (nth0 0 dval = mx -> forall j, (j < length dval)%nat -> Rabs (nth0 j w - nth0 j dval / mx) <= 1 / 64000).
Proof.
  intros dind dval Hl Hne Hd mx Hmx Hpos.
  assert (Hdv : dval <> []) by (intros ->; destruct dind; simpl in Hl; congruence).
  unfold encode. change (nmaximum (nhead dval) (tl dval)) with (row_max dval).
  rewrite (is_max_unique _ _ _ (row_max_spec dval Hdv) Hmx).
  change (n0 : R) with 0. destruct (nltb_reflect 0 mx); [|lra].
  set (index := upd 0 _ _).
  assert (Li : length index = length dind) by (unfold index; rewrite upd_length, map_length; auto).
  set (inds := map2 _ index dind).
  assert (Linds : length inds = length dind) by (unfold inds; rewrite map2_len'; auto).
  assert (Eg : map get_N inds = map2 (fun c b => (c, Z.of_nat b)) index dind).
  { unfold inds. clear -Hd Li. revert dind Hd Li. induction index as [|c index IH]; intros [|b dind] Hd Li; simpl in Li; try lia; auto.
    cbn [map2 map]. rewrite c18_partial by (specialize (Hd b (or_introl eq_refl)); lia). f_equal. apply IH; [|lia].
    intros; apply Hd; right; auto. }
  unfold decode_sparse. rewrite Eg.
  assert (E1 : map (fun p : Z * Z => Z.to_nat (snd p)) (map2 (fun c b => (c, Z.of_nat b)) index dind) = dind).
  { clear -Li. revert dind Li. induction index as [|c index IH]; intros [|b dind] Li; simpl in Li; try lia; auto.
    cbn [map2 map snd]. rewrite Nat2Z.id. f_equal. apply IH. lia. }
  assert (E2 : map fst (map2 (fun (c : Z) b => (c, Z.of_nat b)) index dind) = index).
  { clear -Li. revert dind Li. induction index as [|c index IH]; intros [|b dind] Li; simpl in Li; try lia; auto.
    cbn [map2 map fst]. f_equal. apply IH. lia. }
  rewrite E1, E2. eexists. split; [reflexivity|].
  rewrite decode_length, Li, Hl. split; auto.
  assert (W0 : nth0 0 (decode_weights (T := R) 32001 index) = 1).
  { apply decode_first. intros C. rewrite C in Li. simpl in Li. destruct dind; simpl in Li; congruence. }
  split; [exact W0|].
  assert (HJ : forall j, (0 < j)%nat -> (j < length dind)%nat ->
    Rabs (nth0 j (decode_weights (T := R) 32001 index) - nth0 j dval / mx) <= 1 / 64000).
  { intros j H0 Hj. rewrite decode_nth by lia. unfold index.
    rewrite upd_nth by (rewrite map_length; destruct dval; simpl in *; [congruence|lia]).
    destruct (Nat.eqb_spec j 0); [lia|]. rewrite (nth_map' _ _ 0) by lia.
    change (nth j dval 0) with (nth0 j dval). numR. change (32001 - 1)%Z with 32000%Z.
    set (x := nth0 j dval / mx). replace (x / (1 / 32000)) with (32000 * x) by field.
    pose proof (nround_error (32000 * x)) as E. apply Rabs_le_between in E. apply Rabs_le_between. lra. }
  split; [exact HJ|].
  intros Hfirst j Hj. destruct (Nat.eq_dec j 0) as [->|Hj0]; [|apply HJ; lia].
  rewrite W0, Hfirst. replace (1 - mx / mx) with 0 by (field; lra). rewrite Rabs_R0. lra.
Qed.
(** The first weight is not stored: coefficients (1, 2) and (2, 2) read back the same. *)
Lemma c74_first_refuted : exists (dind : list nat) (dval dval' : list Q),
  dval <> dval' /\
  decode_sparse (encode dind dval) = (dind, [1; 1]%Q) /\
  decode_sparse (encode dind dval') = (dind, [1; 1]%Q) /\ dval = [1; 2]%Q.
Proof. exists [0; 3]%nat, [1; 2]%Q, [2; 2]%Q. repeat split; try (vm_compute; reflexivity). congruence. Qed.

(** ** The ensemble *)
Section Ens.
  Variables (voigt : R -> R -> R -> R) (sqrt : R -> R).
  Variables (xs : list R) (mu sig : R * R) (nmu nsig nv : nat) (cut : R).
  Notation A := (create_voigt_basis voigt sqrt xs mu nmu sig nsig nv cut).

  (** The function coded by the pairs (weight, basis index), at grid point [x]: the weighted
      sum of the columns whose parameters belong to the indices. *)
  Definition coded (bases : list nat) (w : list R) (x : nat) : R :=
    rsum (length bases) (fun t =>
      nth0 x (basis_column voigt sqrt cut xs (nth (nth t bases 0%nat) (basis_params mu sig nmu nsig nv) (0, 0, 0))) * nth0 t w).

  Lemma weighted_sum_ok bases w : length w = length bases ->
    (forall b, In b bases -> (b < nmu * (nsig * nv))%nat) ->
    weighted_sum A (length xs) bases w = Ok (map (coded bases w) (seq 0 (length xs))).
  Proof using.
    intros Hl Hb. unfold weighted_sum.
    assert (LA : length A = (nmu * (nsig * nv))%nat) by (unfold create_voigt_basis; rewrite map_length; apply params_length).
    assert (E : existsb (fun i => (length A <=? i)%nat) bases = false).
    { destruct (existsb _ bases) eqn:E; auto. apply existsb_exists in E. destruct E as (b & Hb' & E).
      apply Nat.leb_le in E. specialize (Hb b Hb'). lia. }
    rewrite E. f_equal. apply map_ext_in. intros x _. unfold coded.
    rewrite nsum_rsum, map2_len' by auto. apply rsum_ext. intros t Ht.
    unfold nth0 at 1. rewrite (map2_nth' _ _ _ _ 0%nat 0) by lia. numR. f_equal.
    f_equal. unfold create_voigt_basis. rewrite (nth_map' _ _ (0, 0, 0)) by (rewrite params_length; apply Hb, nth_In; auto). auto.
  Qed.

  Lemma trapezoid_area (x y : list R) : length y = length x -> trapezoid x y = area x y.
  Proof using.
    intros Hl. unfold trapezoid, area. rewrite nsum_rsum.
    rewrite map2_len' by (rewrite map2_len', ndiff_length, tl_length by (rewrite tl_length, removelast_length; lia); lia).
    rewrite ndiff_length. apply rsum_ext. intros i Hi.
    rewrite nth0_map2 by (rewrite ?map2_len', ?ndiff_length, ?tl_length by (rewrite tl_length, removelast_length; lia); lia).
    rewrite ndiff_nth by lia. rewrite nth0_map2 by (rewrite ?tl_length, ?removelast_length; lia).
    assert (E1 : nth0 i (tl y) = nth0 (S i) y) by apply tl_nth.
    assert (E2 : nth0 i (removelast y) = nth0 i y) by (apply removelast_nth; lia).
    rewrite E1, E2. unfold trap. numR. field.
  Qed.

  Lemma area_scale (x y : list R) k : length y = length x -> k <> 0 -> area x (map (fun v => v / k) y) = area x y / k.
  Proof using.
    intros Hl Hk. unfold area. change (rsum (pred (length x)) (trap x y) / k) with (rsum (pred (length x)) (trap x y) * / k).
    rewrite <- rsum_scale. apply rsum_ext. intros i Hi.
    unfold trap. rewrite !nth0_map by lia. field. auto.
  Qed.

  (** Some value of the profile on the grid reaches the cut.  (Otherwise the code divides 0 by the norm 0 and the column is nan.) *)
  Definition shown (p : R * R * R) : Prop :=
    let '(mean, sigma, gamma) := p in exists j, (j < length xs)%nat /\ cut <= voigt (nth0 j xs - mean) sigma gamma.
  Lemma c76_sparse : forall (codes : list (list (Z * nat))),
    increasing xs -> (2 <= length xs)%nat -> codes <> [] ->
    (forall c, In c codes -> c <> [] /\ forall z b, In (z, b) c -> (b < nmu * (nsig * nv))%nat /\ (Z.of_nat b < 65536)%Z) ->
    (forall c z b, In c codes -> In (z, b) c -> shown (nth b (basis_params mu sig nmu nsig nv) (0, 0, 0))) ->
    let bases := fun c : list (Z * nat) => map snd c in
    let weights := fun c : list (Z * nat) => decode_weights (T := R) 32001 (map fst c) in
    let y := fun r => coded (bases (nth r codes [])) (weights (nth r codes [])) in
    (forall r, (r < length codes)%nat ->
       (forall j, (j < length xs)%nat -> 0 <= y r j) /\ exists j, (j < length xs)%nat /\ 0 < y r j) ->
    exists i, sparse_ctor voigt sqrt xs mu sig nmu nsig nv cut
                (map (map (fun zb => combine_int (fst zb) (Z.of_nat (snd zb)))) codes) = Ok i /\
    exists f, evaluates (interp_ens_pdf i) (length codes) f /\
      forall r, (r < length codes)%nat ->
        (forall x, 0 <= f r x) /\ is_RInt (f r) (nth0 0 xs) (nlast xs) 1 /\ (forall x, x < nth0 0 xs \/ nlast xs < x -> f r x = 0) /\
        (exists k, 0 < k /\ forall j, (j < length xs)%nat -> f r (nth0 j xs) = k * y r j) /\
        (forall j x, (S j < length xs)%nat -> nth0 j xs <= x <= nth0 (S j) xs ->
           f r x * (nth0 (S j) xs - nth0 j xs) = f r (nth0 j xs) * (nth0 (S j) xs - x) + f r (nth0 (S j) xs) * (x - nth0 j xs)).
  Proof using.
    intros codes Hs Hn Hne Hc _ bases weights y Hy.
    set (ys0 := map (fun c => map (coded (bases c) (weights c)) (seq 0 (length xs))) codes).
    assert (EM : mapM (fun inds => let '(ix, vals) := decode_sparse inds in weighted_sum A (length xs) ix vals)
                   (map (map (fun zb => combine_int (fst zb) (Z.of_nat (snd zb)))) codes) = Ok ys0).
    { unfold ys0. clear Hy Hne y. induction codes as [|c codes IH]; cbn [map mapM]; auto.
      assert (ED : decode_sparse (map (fun zb => combine_int (fst zb) (Z.of_nat (snd zb))) c) = (bases c, weights c)).
      { unfold decode_sparse, bases, weights.
        assert (EG : map get_N (map (fun zb : Z * nat => combine_int (fst zb) (Z.of_nat (snd zb))) c) = map (fun zb => (fst zb, Z.of_nat (snd zb))) c).
        { rewrite map_map. apply map_ext_in. intros (z, b) Hzb. cbn [fst snd]. apply c18_partial.
          destruct (Hc c (or_introl eq_refl)) as (_ & H). destruct (H z b Hzb). lia. }
        rewrite EG, !map_map. cbn [fst snd]. f_equal. apply map_ext. intros (z, b). apply Nat2Z.id. }
      rewrite ED. rewrite weighted_sum_ok.
      - cbn [bind]. rewrite IH by (intros; apply Hc; right; auto). reflexivity.
      - unfold weights, bases. rewrite decode_length, !map_length. auto.
      - intros b Hb. unfold bases in Hb. apply in_map_iff in Hb. destruct Hb as ((z, b') & <- & Hb).
        destruct (Hc c (or_introl eq_refl)) as (_ & H). apply (H z b'); auto. }
    unfold sparse_ctor. rewrite EM. cbn [bind].
    set (ys := map (fun y => map (fun v => v / trapezoid xs y) y) ys0).
    assert (L0 : length ys0 = length codes) by apply map_length.
    assert (Ls : length ys = length codes) by (unfold ys; rewrite map_length; auto).
    assert (Row : forall r, (r < length codes)%nat -> nth r ys0 [] = map (y r) (seq 0 (length xs))).
    { intros r Hr. unfold ys0. rewrite (nth_map' _ _ []) by auto. reflexivity. }
    assert (RP : forall r, (r < length codes)%nat -> length (nth r ys0 []) = length xs /\ packable (nth r ys0 []) /\ 0 < area xs (nth r ys0 [])).
    { intros r Hr. assert (Lr : length (nth r ys0 []) = length xs) by (rewrite Row, map_length, seq_length by auto; auto).
      assert (NT : forall j, (j < length xs)%nat -> nth0 j (nth r ys0 []) = y r j).
      { intros j Hj. rewrite Row by auto. rewrite (nth0_map' _ _ 0%nat) by (rewrite seq_length; auto). rewrite seq_nth by auto. auto. }
      assert (Pk : packable (nth r ys0 [])).
      { destruct (Hy r Hr) as (Y1 & j & Hj & Y2). split.
        - intros k Hk. rewrite NT by lia. apply Y1. lia.
        - exists j. split; [lia|]. rewrite NT; auto. }
      split; auto. split; auto. apply area_pos; auto. }
    assert (Hin : interp_input xs ys).
    { split; auto. split; auto. split.
      { intros C. rewrite C in Ls. simpl in Ls. destruct codes; simpl in Ls; congruence. }
      intros row Hr. apply (In_nth _ _ []) in Hr. destruct Hr as (r & Hr & <-). rewrite Ls in Hr.
      destruct (RP r Hr) as (Lr & Pk & Ar). unfold ys. rewrite (nth_map' _ ys0 []) by lia.
      rewrite trapezoid_area by auto. rewrite map_length.
      split; auto. split.
      - intros k Hk. rewrite nth0_map by auto. apply Rmult_le_pos; [apply Pk; auto|left; apply Rinv_0_lt_compat; auto].
      - change (0 < area xs (map (fun v => v / area xs (nth r ys0 [])) (nth r ys0 []))). rewrite area_scale by (auto; lra).
        replace (area xs (nth r ys0 []) / area xs (nth r ys0 [])) with 1 by (field; lra). lra. }
    destruct (c08 xs ys Hin) as (i & Ei & f & Ef & Hf).
    exists i. split; [exact Ei|]. exists f. split; [rewrite <- Ls; exact Ef|].
    intros r Hr. destruct (Hf r) as (F1 & F2 & F3 & (k & Hk & F4) & F5); [rewrite Ls; auto|].
    split; auto. split; auto. split; auto. split; [|exact F5]. destruct (RP r Hr) as (Lr & Pk & Ar).
    exists (k / area xs (nth r ys0 [])). split; [apply Rdiv_lt_0_compat; auto|].
    intros j Hj. rewrite F4 by auto. unfold at2, ys. rewrite (nth_map' _ ys0 []) by lia.
    rewrite trapezoid_area by auto. rewrite nth0_map by lia. rewrite Row at 1 by auto.
    rewrite (nth0_map' _ _ 0%nat) by (rewrite seq_length; auto). rewrite seq_nth by auto. simpl (0 + j)%nat. field. lra.
  Qed.
End Ens.

(** The hypotheses can be met: one basis function equal to 1 everywhere. *)
Lemma c76_example : exists voigt sqrt xs mu sig codes,
  increasing xs /\ (2 <= length xs)%nat /\ codes <> [] /\
  (forall c, In c codes -> c <> [] /\ forall z b, In (z, b) c -> (b < 1 * (1 * 1))%nat /\ (Z.of_nat b < 65536)%Z) /\
  (forall c z b, In c codes -> In (z, b) c -> shown voigt xs (1 / 100000) (nth b (basis_params mu sig 1 1 1) (0, 0, 0))) /\
  forall r, (r < length codes)%nat ->
     let y := coded voigt sqrt xs mu sig 1 1 1 (1 / 100000) (map snd (nth r codes [])) (decode_weights 32001 (map fst (nth r codes []))) in
     (forall j, (j < length xs)%nat -> 0 <= y j) /\ exists j, (j < length xs)%nat /\ 0 < y j.
Proof.
  exists (fun _ _ _ => 1), (fun _ => 1), [0; 1; 3], (0, 1), (1, 2), [[(32000%Z, 0%nat)]].
  split; [repeat constructor; lra|]. split; [simpl; lia|]. split; [congruence|]. split; [|split].
  - intros c [<-|[]]. split; [congruence|]. intros z b [E|[]]. injection E as <- <-. split; [lia|reflexivity].
  - intros c z b _ _. destruct (nth b _ _) as ((m, s), g). exists 0%nat. split; [simpl; lia|lra].
  - intros [|r] Hr; [|simpl in Hr; lia]. cbv zeta.
    assert (E : forall j, (j < 3)%nat -> coded (fun _ _ _ => 1) (fun _ => 1) [0; 1; 3] (0, 1) (1, 2) 1 1 1 (1 / 100000)
       (map snd [(32000%Z, 0%nat)]) (decode_weights 32001 (map fst [(32000%Z, 0%nat)])) j = 1).
    { intros j Hj. unfold coded. cbn [map snd fst length rsum]. rewrite decode_first by congruence.
      rewrite params_nth by (simpl; lia). unfold basis_column, index_shape, norm.
      assert (E1 : nleb (1 / 100000) 1 = true) by (destruct (nleb_reflect (1 / 100000) 1); auto; lra).
      rewrite (nth0_map' _ _ 0) by (rewrite map_length; simpl; lia).
      change (nth j ?l 0) with (nth0 j l). rewrite nth0_map by (simpl; lia). rewrite E1. numR. lra. }
    cbn [nth]. split; [intros j Hj; simpl in Hj; rewrite (E j Hj); lra|].
    exists 0%nat. split; [simpl; lia|]. rewrite (E 0%nat) by lia. lra.
Qed.
