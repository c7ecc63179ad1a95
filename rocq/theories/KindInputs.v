(** What a user passes to the constructor of a class, and what the ensemble then holds. *)
From Coq Require Import String List Arith ZArith Bool Lia Reals Lra.
From Verif Require Import Num NumProofs PairwiseProofs Py NdArray NumpyLib Utils ScipyWrap Spec Values Ensemble Classes
  HistPdf InterpPdf QuantPdf MixmodPdf Packing PackedPdf SplinePdf
  SortProofs BinProofs EvalProofs NdProofs InterpProofs HistProofs HistTheorems TableProofs InterpPdfProofs GridTheorems IrrTheorems
  EvalTheorems QuantTheorems MixmodTheorems PackingTheorems PackedTheorems Voigt Sparse SparseTheorems Kinds KindProofs EnsembleProofs.
Import ListNotations.
Local Open Scope string_scope.
Local Open Scope list_scope.
Local Open Scope R_scope.

(** ** The arguments *)
Inductive input :=
| IHist (bins : list R) (rows : list (list R))
| IInterp (xs : list R) (rows : list (list R))
| IIrr (n : nat) (xr yr : list (list R))
| IMix (n : nat) (means stds weights : list (list R))
| IQuant (quants : list R) (rows : list (list R)) (name : string)
| IPacked (xs : list R) (packed : list (list Z)) (maxs : list R) (pt : packing) (lf : R)
| ISpline (n : nat) (knots coefs : list (list R)) (orders : list nat)
| ISparse (xs : list R) (mu sig : R * R) (dims : list Z) (n : nat) (codes : list (list Z))
| INorm (locs scales : list R).

(** The arguments for which the class is meant: grids increase, densities are not negative
    and not zero everywhere, quantiles start at 0 (or at a floating-point distance from it)
    and make at least three points, ... *)
Definition input_ok (i : input) : Prop :=
  match i with
  | IHist bins rows => hist_input bins rows
  | IInterp xs rows => interp_input xs rows
  | IIrr n xr yr => irr_input n xr yr
  | IMix n means stds weights => mix_input n means stds weights
  | IQuant quants rows name => quant_input quants rows /\ In name pdf_constructor_names /\
      (nth0 0 quants = 0 \/ float_eps < nth0 0 quants) /\
      ((3 <= length quants)%nat \/ float_eps < nth0 0 quants \/ nlast quants < 1)
  | IPacked xs packed maxs pt lf => increasing xs /\ (2 <= length xs)%nat /\ packed <> [] /\ length maxs = length packed /\
      (forall row, In row packed -> length row = length xs /\ (forall b, In b row -> (0 <= b <= 255)%Z) /\ exists b, In b row /\ (0 < b)%Z) /\
      (forall m, In m maxs -> 0 < m) /\ legal pt lf
  | ISpline n knots coefs orders => (0 < n)%nat /\ knots <> [] /\ length coefs = length knots /\ length orders = length knots /\
      (forall row, In row knots -> length row = n) /\ (forall row, In row coefs -> length row = n) /\ (forall k, In k orders -> (k <= 5)%nat /\ (2 * k + 2 <= n)%nat)
  | ISparse xs mu sig dims n codes => increasing xs /\ (2 <= length xs)%nat /\ (0 < n)%nat /\ (5 <= length dims)%nat /\ List.Forall (Z.le 0) dims /\ codes <> [] /\
      (forall line, In line codes -> length line = n /\ sparse_line_ok xs mu sig dims line)
  | INorm locs scales => locs <> [] /\ length scales = length locs /\ forall s, In s scales -> 0 < s
  end.
Definition input_name (i : input) : string :=
  match i with
  | IHist _ _ => "hist" | IInterp _ _ => "interp" | IIrr _ _ _ => "interp_irregular" | IMix _ _ _ _ => "mixmod"
  | IQuant _ _ _ => "quant" | IPacked _ _ _ _ _ => "packed_interp" | ISpline _ _ _ _ => "spline" | ISparse _ _ _ _ _ _ => "sparse" | INorm _ _ => "norm"
  end.
(** The keywords of the call *)
Definition input_dict (i : input) : vdict R :=
  match i with
  | IHist bins rows => [("bins", VArr (nd1 bins)); ("pdfs", VArr (nd2 (pred (length bins)) rows))]
  | IInterp xs rows => [("xvals", VArr (nd1 xs)); ("yvals", VArr (nd2 (length xs) rows))]
  | IIrr n xr yr => [("xvals", VArr (nd2 n xr)); ("yvals", VArr (nd2 n yr))]
  | IMix n means stds weights => [("weights", VArr (nd2 n weights)); ("stds", VArr (nd2 n stds)); ("means", VArr (nd2 n means))]
  | IQuant quants rows name =>
      [("quants", VArr (nd1 quants)); ("locs", VArr (nd2 (length quants) rows)); ("pdf_constructor_name", VStr name)]
  | IPacked xs packed maxs pt lf =>
      [("xvals", VArr (nd1 xs)); ("ypacked", VByt (nd2 (length xs) packed)); ("ymax", VArr (column maxs));
       ("packing_type", VNum (of_packing pt)); ("log_floor", VNum lf)]
  | ISpline n knots coefs orders => [("splx", VArr (nd2 n knots)); ("sply", VArr (nd2 n coefs)); ("spln", VArr (column (map INR orders)))]
  | ISparse xs mu sig dims n codes =>
      [("xvals", VArr (nd1 xs)); ("mu", VArr (nd1 [fst mu; snd mu])); ("sig", VArr (nd1 [fst sig; snd sig])); ("dims", VByt (nd1 dims));
       ("sparse_indices", VByt (nd2 n codes))]
  | INorm locs scales => [("loc", VArr (column locs)); ("scale", VArr (column scales))]
  end.
Definition input_npdf (i : input) : nat :=
  match i with
  | IHist _ rows => length rows | IInterp _ rows => length rows | IIrr _ xr _ => length xr
  | IMix _ means _ _ => length means | IQuant _ rows _ => length rows | IPacked _ packed _ _ _ => length packed
  | ISpline _ knots _ _ => length knots
  | ISparse _ _ _ _ _ codes => length codes
  | INorm locs _ => length locs
  end.
(** The methods that answer for a PDF from the parameters of that PDF alone.  Not among them:
    the ppf of a mixture (its grid spans the whole ensemble) and the spline densities of a
    quantile ensemble (they answer for the first PDF). *)
Definition input_methods (i : input) : list method :=
  match i with
  | IMix _ _ _ _ | ISpline _ _ _ _ => [MPdf; MCdf]
  | IQuant _ _ name => if String.eqb name "piecewise_linear" || String.eqb name "piecewise_constant"
                       then [MPdf; MCdf; MPpf] else [MCdf; MPpf]
  | _ => [MPdf; MCdf; MPpf]
  end.

(** ** What is stored *)
Definition input_kind (i : input) : kind :=
  match i with
  | IHist bins _ => KHist bins | IInterp xs _ => KInterp xs | IIrr n _ _ => KIrr n | IMix n _ _ _ => KMix n
  | IQuant quants _ name => KQuant (pad_quants quants) name | IPacked xs _ _ pt lf => KPacked xs pt lf | ISpline n _ _ _ => KSpline n | ISparse xs mu sig dims n _ => KSparse xs mu sig dims n | INorm _ _ => KNorm
  end.
Definition input_rows (i : input) : list row :=
  match i with
  | IHist bins rows => map (fun r => [Nums (hist_norm_row (bin_widths bins) r)]) rows
  | IInterp xs rows => map (fun r => [Nums (inorm xs r)]) rows
  | IIrr n xr yr => map2 (fun x y => [Nums x; Nums (normalize_interp1d_row x y)]) xr yr
  | IMix n means stds weights => map2 (fun w (sm : list R * list R) => [Nums (map (fun x => ndiv x (nsum w)) w); Nums (fst sm); Nums (snd sm)])
                                   weights (combine stds means)
  | IQuant quants rows name => map (fun r => [Nums (pad_locs quants r)]) rows
  | IPacked xs packed maxs pt lf => map2 (fun p m => [Bytes p; Nums [m]]) packed maxs
  | ISpline n knots coefs orders => map2 (fun x (ck : list R * nat) => [Nums x; Nums (fst ck); Nums [INR (snd ck)]]) knots (combine coefs orders)
  | ISparse _ _ _ _ _ codes => map (fun c => [Bytes c]) codes
  | INorm locs scales => map2 (fun l s => [Nums [l]; Nums [s]]) locs scales
  end.
Lemma input_kind_name i : kind_name (input_kind i) = input_name i.
Proof. destruct i; reflexivity. Qed.
Lemma input_kind_methods i : methods (input_kind i) = input_methods i.
Proof. destruct i; reflexivity. Qed.
Lemma input_rows_length i : input_ok i -> length (input_rows i) = input_npdf i.
Proof.
  destruct i; cbn [input_rows input_npdf input_ok]; intros H; rewrite ?map_length, ?map2_length, ?combine_length; auto.
  - destruct H as (_ & _ & H & _). lia.
  - destruct H as (_ & _ & H1 & H2 & _). lia.
  - destruct H as (_ & _ & _ & H & _). lia.
  - destruct H as (_ & _ & H1 & H2 & _). lia.
  - destruct H as (_ & H & _). lia.
Qed.
Lemma div_one (l : list R) s : s = 1 -> map (fun x => ndiv x s) l = l.
Proof. intros ->. apply map_fixed. intros x _. numR. field. Qed.

Lemma hist_norm_idem bins row : increasing bins -> (2 <= length bins)%nat -> length row = pred (length bins) -> 0 < mass bins row ->
  hist_norm_row (bin_widths bins) (hist_norm_row (bin_widths bins) row) = hist_norm_row (bin_widths bins) row.
Proof.
  intros Hs Hn Hl Hm. set (r' := hist_norm_row (bin_widths bins) row). rewrite (hist_norm_row_R _ r'). apply div_one.
  assert (Hl' : length r' = pred (length bins)) by (apply norm_row_length; auto).
  rewrite (mass_sum bins r') by auto. unfold mass.
  rewrite (rsum_ext _ _ (fun i => nth0 i row * (nth0 (S i) bins - nth0 i bins) * / mass bins row)).
  - rewrite rsum_scale. fold (mass bins row). field. lra.
  - intros i Hi. unfold r'. rewrite norm_row_nth by auto. unfold Rdiv. ring.
Qed.
Lemma map2_rows_in {A B C} (f : A -> B -> C) l l' z : In z (map2 f l l') -> exists r a b, (r < length l)%nat /\ (r < length l')%nat /\ nth_error l r = Some a /\ nth_error l' r = Some b /\ z = f a b.
Proof.
  revert l'. induction l as [|a l IH]; [intros l' []|]. intros [|b l'] H; [destruct H|]. cbn [map2] in H. destruct H as [<-|H].
  - exists 0%nat, a, b. simpl. repeat split; auto; lia.
  - destruct (IH l' H) as (r & a' & b' & H1 & H2 & H3 & H4 & H5). exists (S r), a', b'. simpl. repeat split; auto; lia.
Qed.
Lemma map_map2 {A B C D} (g : C -> D) (f : A -> B -> C) l l' : map g (map2 f l l') = map2 (fun a b => g (f a b)) l l'.
Proof. revert l'. induction l as [|a l IH]; intros [|b l']; simpl; auto. f_equal. apply IH. Qed.
Lemma map2_fst {A B C} (g : A -> C) (l : list A) (l' : list B) : length l' = length l -> map2 (fun a _ => g a) l l' = map g l.
Proof. revert l'. induction l as [|a l IH]; intros [|b l'] H; try discriminate; simpl; auto. f_equal. apply IH. simpl in H. lia. Qed.
Lemma map2_snd {A B C} (g : B -> C) (l : list A) (l' : list B) : length l' = length l -> map2 (fun _ b => g b) l l' = map g l'.
Proof. revert l'. induction l as [|a l IH]; intros [|b l'] H; try discriminate; simpl; auto. f_equal. apply IH. simpl in H. lia. Qed.
Lemma map_fst_combine {A B} (l : list A) (l' : list B) : length l = length l' -> map fst (combine l l') = l.
Proof. revert l'. induction l as [|a l IH]; intros [|b l'] H; try discriminate; simpl; auto. f_equal. apply IH. simpl in H. lia. Qed.
Lemma map_snd_combine {A B} (l : list A) (l' : list B) : length l = length l' -> map snd (combine l l') = l'.
Proof. revert l'. induction l as [|a l IH]; intros [|b l'] H; try discriminate; simpl; auto. f_equal. apply IH. simpl in H. lia. Qed.
Lemma ne_length {A B} (l : list A) (l' : list B) : length l = length l' -> l <> [] -> l' <> [].
Proof. destruct l, l'; simpl; congruence. Qed.

Lemma nth_ext0 (l l' : list R) : length l = length l' -> (forall j, (j < length l)%nat -> nth0 j l = nth0 j l') -> l = l'.
Proof. intros H1 H2. apply (nth_ext l l' 0 0); auto. Qed.

Section Inputs.
  Variables (phi Phi : R -> R) (quad : list R -> list R -> R -> R -> R -> R)
            (cubic dspline : list R -> list R -> R -> R) (Phinv : R -> xnum R).
  Notation kind_create := (Kinds.kind_create phi Phi quad cubic dspline Phinv).

  Definition same_call (i : input) : Prop :=
    good_kind (input_kind i) /\ List.Forall (good_row (input_kind i)) (input_rows i) /\
    kind_create (input_kind i) (input_dict i) = kind_create (input_kind i) (kind_args (input_kind i) ++ cols (input_kind i) (input_rows i)).

  Ltac one_row := constructor; [|constructor].
  Lemma hist_call bins rows : hist_input bins rows -> same_call (IHist bins rows).
  Proof.
    intros (Hs & Hn & Hne & Hr). unfold same_call. cbn [input_kind input_rows input_dict]. split; [split; auto|]. split.
    - apply Forall_forall. intros d Hd. apply in_map_iff in Hd. destruct Hd as (r & <- & Hin). destruct (Hr r Hin) as (Hl & Hp & Hm). split.
      + constructor; [|constructor]. cbn [snd cell_ok]. rewrite norm_row_length by auto. unfold prod. simpl. lia.
      + cbn [num_at cell_at nth nums]. apply hist_norm_idem; auto.
    - unfold Kinds.kind_create, kind_args, cols, columns.
      cbn [kind_own_meta map fst snd add_meta v_expand_first v_squeeze kind_layout columns_from col_value app]. rewrite squeeze_grid by lia.
      rewrite !map_map. change (rows_nd [pred (length bins)]) with (@nd2 R (pred (length bins))).
      change (create_of _ (kind_name (KHist bins))) with (@hist_create R _).
      cbn [cell_at nth nums]. rewrite !(fun p d => hist_create_eq bins p d) with (1 := or_introl eq_refl).
      rewrite !hist_build.
      + rewrite map_map, map_length. do 3 f_equal. apply map_ext_in. intros r Hin. destruct (Hr r Hin) as (Hl & Hp & Hm). symmetry. apply hist_norm_idem; auto.
      + intros r Hin. apply in_map_iff in Hin. destruct Hin as (r0 & <- & Hin). apply norm_row_length; apply Hr; auto.
      + intros r Hin. apply Hr; auto.
  Qed.
  Lemma interp_call xs rows : interp_input xs rows -> same_call (IInterp xs rows).
  Proof.
    intros Hi. pose proof Hi as (Hs & Hn & Hne & Hr). unfold same_call. cbn [input_kind input_rows input_dict]. split; [split; auto|].
    assert (Hid : forall row, In row rows -> inorm xs (inorm xs row) = inorm xs row).
    { intros row Hin. destruct (In_nth _ _ [] Hin) as (r & Hlt & Er). unfold inorm at 1. apply div_one.
      pose proof (total_one xs rows Hi r Hlt) as T. unfold irow in T. rewrite Er in T.
      rewrite yc_last; [exact T|auto|]. unfold inorm. rewrite map_length. apply Hr; auto. }
    split.
    - apply Forall_forall. intros d Hd. apply in_map_iff in Hd. destruct Hd as (r & <- & Hin). destruct (Hr r Hin) as (Hl & Hp & Hm). split.
      + constructor; [|constructor]. cbn [snd cell_ok]. unfold inorm. rewrite map_length. unfold prod. simpl. lia.
      + cbn [num_at cell_at nth nums]. apply Hid; auto.
    - unfold Kinds.kind_create, kind_args, cols, columns.
      cbn [kind_own_meta map fst snd add_meta v_expand_first v_squeeze kind_layout columns_from col_value app]. rewrite squeeze_grid by lia.
      rewrite !map_map. change (rows_nd [length xs]) with (@nd2 R (length xs)).
      change (create_of _ (kind_name (KInterp xs))) with (@interp_create R _).
      cbn [cell_at nth nums]. rewrite !(fun p d => interp_create_eq xs p d) with (1 := or_introl eq_refl).
      rewrite !interp_build; try lia.
      + rewrite !map_map, map_length. do 3 f_equal; apply map_ext_in; intros r Hin; [symmetry; apply Hid; auto|].
        destruct (In_nth _ _ [] Hin) as (i & Hlt & Er).
        assert (L0 : length r = length xs) by (apply Hr; auto).
        assert (L1 : length (inorm xs r) = length xs) by (unfold inorm; rewrite map_length; exact L0). apply nth_ext0.
        * unfold icum. rewrite !map_length, !yc_length by auto. reflexivity.
        * intros j Hj. pose proof (icum_len xs rows Hi i Hlt) as L. unfold irow in L. rewrite Er in L. rewrite L in Hj.
          pose proof (total_one xs rows Hi i Hlt) as T. unfold irow in T. rewrite Er in T.
          destruct j as [|j].
          -- pose proof (icum_0 xs rows Hi i Hlt) as C. unfold irow in C. rewrite Er in C. rewrite C.
             unfold icum. rewrite nth0_map_div, yc_last, yc_0 by auto. unfold area. rewrite T. unfold first_step. field.
          -- pose proof (icum_S xs rows Hi i Hlt j Hj) as C. unfold irow in C. rewrite Er in C. rewrite C.
             unfold icum. rewrite nth0_map_div, yc_last, yc_S by auto. unfold area. rewrite T. field.
      + intros r Hin. apply in_map_iff in Hin. destruct Hin as (r0 & <- & Hin). unfold inorm. rewrite map_length. apply Hr; auto.
      + intros r Hin. apply Hr; auto.
  Qed.
  Lemma irr_call n xr yr : irr_input n xr yr -> same_call (IIrr n xr yr).
  Proof.
    intros Hi. pose proof Hi as (Hn & Hne & Hl & Hx & Hy & Hp). unfold same_call. cbn [input_kind input_rows input_dict]. split; [exact Hn|].
    assert (Hid : forall r, (r < length xr)%nat -> let x := nth r xr [] in let y := normalize_interp1d_row x (nth r yr []) in
      length y = n /\ normalize_interp1d_row x y = y /\ nlast (irr_cumul_row x y) = 1).
    { intros r Hr x y. pose proof (rx_facts n xr yr Hi r Hr) as [Lx Ix]. change (length x = n) in Lx.
      pose proof (ry_len n xr yr Hi r Hr) as Ly. change (length y = length x) in Ly.
      pose proof (r_one n xr yr Hi r Hr) as One. change (rsumr x y = 1) in One. pose proof (rc_last n xr yr Hi r Hr) as Last.
      split; [lia|]. split; [|exact Last]. rewrite normalize_row_R. apply div_one. rewrite rect_total; auto; lia. }
    assert (E0 : map (fun x => nums (cell_at 0 x)) (map2 (fun x y => [Nums x; Nums (normalize_interp1d_row x y)]) xr yr) = xr).
    { rewrite map_map2. cbn [cell_at nth nums]. rewrite (map2_fst (fun x => x)) by auto. apply map_id. }
    assert (E1 : map (fun x => nums (cell_at 1 x)) (map2 (fun x y => [Nums x; Nums (normalize_interp1d_row x y)]) xr yr) = map2 normalize_interp1d_row xr yr)
      by (rewrite map_map2; reflexivity).
    assert (Hrow : forall r a b, (r < length xr)%nat -> nth_error xr r = Some a -> nth_error yr r = Some b -> a = nth r xr [] /\ b = nth r yr []).
    { intros r a b _ Ea Eb. split; symmetry; apply nth_error_nth; auto. }
    split.
    - apply Forall_forall. intros d Hd. apply map2_rows_in in Hd. destruct Hd as (r & a & b & H1 & H2 & Ea & Eb & ->).
      destruct (Hrow r a b H1 Ea Eb) as [-> ->]. destruct (Hid r H1) as (L & I & C). pose proof (rx_facts n xr yr Hi r H1) as [Lx _]. unfold rx in Lx. split.
      + constructor; [|constructor; [|constructor]]; cbn [snd cell_ok]; unfold prod; simpl; lia.
      + split; [exact I|exact C].
    - unfold Kinds.kind_create, kind_args, cols, columns.
      cbn [kind_own_meta map fst snd add_meta v_expand_first v_squeeze kind_layout columns_from col_value app].
      rewrite !map_map, E0, E1. change (rows_nd [n]) with (@nd2 R n).
      change (create_of _ (kind_name (KIrr n))) with (@irr_create R _).
      assert (Lxr : forall l, In l xr -> length l = n) by (intros l Hin; apply Hx; auto).
      assert (Lyr : forall l, In l yr -> length l = n) by (intros l Hin; apply Hy; auto).
      assert (Lm : length (map2 normalize_interp1d_row xr yr) = length xr) by (rewrite map2_length; lia).
      assert (Lmr : forall l, In l (map2 normalize_interp1d_row xr yr) -> length l = n).
      { intros l Hin. apply map2_rows_in in Hin. destruct Hin as (r & a & b & H1 & H2 & Ea & Eb & ->).
        destruct (Hrow r a b H1 Ea Eb) as [-> ->]. apply (Hid r H1). }
      rewrite (irr_create_eq n xr yr _ Hn Hne Lxr eq_refl), (irr_create_eq n xr (map2 normalize_interp1d_row xr yr) _ Hn Hne Lxr eq_refl).
      rewrite !irr_build by auto. cbn [bind]. do 3 f_equal.
      change (map2 normalize_interp1d_row xr yr = map2 normalize_interp1d_row xr (map2 normalize_interp1d_row xr yr)).
      apply (nth_ext _ _ [] []). { rewrite !map2_length. lia. }
      intros r Hr. rewrite map2_length in Hr. rewrite (map2_nth normalize_interp1d_row xr (map2 normalize_interp1d_row xr yr) r [] []) by lia.
      rewrite (map2_nth normalize_interp1d_row xr yr r [] []) by lia. symmetry. apply (Hid r). lia.
  Qed.
  Lemma mix_call n means stds weights : mix_input n means stds weights -> same_call (IMix n means stds weights).
  Proof.
    intros Hi. pose proof Hi as (Hk & Hne & Hs & Hw & Lm & Ls & Lw & Ps & Pw & Pt). unfold same_call. cbn [input_kind input_rows input_dict]. split; [exact Hk|].
    set (D := map2 _ weights (combine stds means)).
    assert (Lc : length (combine stds means) = length weights) by (rewrite combine_length; lia).
    assert (E0 : map (fun x => nums (cell_at 0 x)) D = mwnorm weights).
    { unfold D. rewrite map_map2. cbn [cell_at nth nums]. rewrite (map2_fst (fun w => map (fun x => ndiv x (nsum w)) w)) by auto. reflexivity. }
    assert (E1 : map (fun x => nums (cell_at 1 x)) D = stds).
    { unfold D. rewrite map_map2. cbn [cell_at nth nums]. rewrite (map2_snd fst) by auto. apply map_fst_combine. lia. }
    assert (E2 : map (fun x => nums (cell_at 2 x)) D = means).
    { unfold D. rewrite map_map2. cbn [cell_at nth nums]. rewrite (map2_snd snd) by auto. apply map_snd_combine. lia. }
    assert (Hsum : forall r, (r < length weights)%nat -> 0 < nsum (nth r weights [])).
    { intros r Hr. specialize (Pt r). rewrite nsum_rsum. rewrite (Lw (nth r weights [])) by (apply nth_In; auto). apply Pt. lia. }
    assert (Hw1 : forall r, (r < length weights)%nat -> nsum (map (fun x => ndiv x (nsum (nth r weights []))) (nth r weights [])) = 1).
    { intros r Hr. specialize (Hsum r Hr). rewrite nsum_map_div. field. lra. }
    split.
    - apply Forall_forall. intros d Hd. apply map2_rows_in in Hd. destruct Hd as (r & w & sm & H1 & H2 & Ea & Eb & ->).
      assert (Ew : w = nth r weights []) by (symmetry; apply nth_error_nth; auto).
      assert (Esm : sm = (nth r stds [], nth r means [])).
      { rewrite <- combine_nth by lia. symmetry. apply nth_error_nth. exact Eb. }
      subst w sm. cbn [fst snd]. 
      assert (L0 : length (nth r weights []) = n) by (apply Lw, nth_In; lia).
      assert (L1 : length (nth r stds []) = n) by (apply Ls, nth_In; lia).
      assert (L2 : length (nth r means []) = n) by (apply Lm, nth_In; lia).
      split.
      + constructor; [|constructor; [|constructor; [|constructor]]]; cbn [snd cell_ok]; rewrite ?map_length; unfold prod; simpl; lia.
      + unfold num_at. cbn [cell_at nth nums]. split; [|split].
        * intros i Hin. rewrite nth0_map_div. apply Rmult_le_pos; [apply (Pw r i); lia|]. apply Rlt_le, Rinv_0_lt_compat, Hsum. auto.
        * apply Hw1; auto.
        * intros i Hin. apply (Ps r i); lia.
    - unfold Kinds.kind_create, kind_args, cols, columns.
      cbn [kind_own_meta map fst snd add_meta v_expand_first v_squeeze kind_layout columns_from col_value app].
      rewrite !map_map, E0, E1, E2. change (rows_nd [n]) with (@nd2 R n).
      change (create_of _ (kind_name (KMix n))) with (@mixmod_create R _ phi Phi).
      rewrite !(fun w s m d => mix_create_eq phi Phi n w s m d) with (1 := eq_refl).
      rewrite (mix_build n means stds weights Hi).
      assert (Hi' : mix_input n means stds (mwnorm weights)).
      { repeat split; auto.
        - unfold mwnorm. rewrite map_length. auto.
        - intros l Hl. apply in_map_iff in Hl. destruct Hl as (l0 & <- & Hl). rewrite map_length. auto.
        - intros r i Hr Hi0. unfold at2, mwnorm. rewrite (nth_map_in (fun r0 => map (fun w => ndiv w (nsum r0)) r0) weights r [] []) by lia.
          rewrite nth0_map_div. apply Rmult_le_pos; [apply (Pw r i); lia|]. apply Rlt_le, Rinv_0_lt_compat, Hsum. lia.
        - intros r Hr. pose proof (Hw1 r ltac:(lia)) as H. rewrite nsum_rsum in H. rewrite map_length, (Lw (nth r weights [])) in H by (apply nth_In; lia).
          unfold at2, mwnorm. rewrite (nth_map_in (fun r0 => map (fun w => ndiv w (nsum r0)) r0) weights r [] []) by lia.
          eapply Rlt_le_trans; [apply Rlt_0_1|]. apply Req_le. symmetry. exact H. }
      rewrite (mix_build n means stds (mwnorm weights) Hi').
      replace (mwnorm (mwnorm weights)) with (mwnorm weights); [reflexivity|]. unfold mwnorm at 2. symmetry. apply map_fixed.
      intros l Hl. apply in_map_iff in Hl. destruct Hl as (l0 & <- & Hl).
      destruct (In_nth _ _ [] Hl) as (r & Hr & <-). apply div_one. apply Hw1. auto.
  Qed.
  Lemma packed_call xs packed maxs pt lf : input_ok (IPacked xs packed maxs pt lf) -> same_call (IPacked xs packed maxs pt lf).
  Proof.
    intros (Hs & Hn & Hne & Hl & Hr & Hm & Hleg). unfold same_call. cbn [input_kind input_rows input_dict].
    assert (Hp : pt <> OtherPacking) by (destruct Hleg as [->|[-> _]]; discriminate). split; [repeat split; auto|].
    set (D := map2 _ packed maxs).
    assert (E0 : map (fun x => bytes (cell_at 0 x)) D = packed).
    { unfold D. rewrite map_map2. cbn [cell_at nth bytes]. rewrite (map2_fst (fun x => x)) by auto. apply map_id. }
    assert (E1 : map (fun x => nums (cell_at 1 x)) D = map (fun m => [m]) maxs).
    { unfold D. rewrite map_map2. cbn [cell_at nth nums]. apply (map2_snd (fun m => [m])). auto. }
    split.
    - apply Forall_forall. intros d Hd. apply map2_rows_in in Hd. destruct Hd as (r & p & m & H1 & H2 & Ea & Eb & ->). split; [|exact I].
      apply nth_error_In in Ea. destruct (Hr p Ea) as (L & _).
      constructor; [|constructor; [|constructor]]; cbn [snd cell_ok]; unfold prod; simpl; lia.
    - unfold Kinds.kind_create, kind_args, cols, columns.
      cbn [kind_own_meta map fst snd add_meta v_expand_first v_squeeze kind_layout columns_from col_value app]. rewrite squeeze_grid by lia.
      rewrite !map_map, E0, E1. change (rows_nd [length xs] packed) with (nd2 (length xs) packed).
      change (rows_nd [1%nat] (map (fun m => [m]) maxs)) with (column maxs).
      change (create_of _ (kind_name (KPacked xs pt lf))) with (@packed_create R _ pow10R). rewrite !squeeze_single.
      rewrite !(packed_create_eq xs (nd2 (length xs) packed) (column maxs) pt lf _ Hp); [reflexivity| |].
      + do 2 eexists. split; [right; reflexivity|split; [right; reflexivity|]]. left. reflexivity.
      + do 2 eexists. split; [left; reflexivity|split; [left; reflexivity|]]. right. right. reflexivity.
  Qed.
  Lemma spline_call n knots coefs orders : input_ok (ISpline n knots coefs orders) -> same_call (ISpline n knots coefs orders).
  Proof.
    intros (Hn & Hne & Hc & Ho & Lk & Lc & Hk). unfold same_call. cbn [input_kind input_rows input_dict]. split; [exact Hn|]. split.
    - apply Forall_forall. intros d Hd. apply map2_rows_in in Hd. destruct Hd as (r & x & [c k] & H1 & H2 & Ea & Eb & ->). cbn [fst snd].
      apply nth_error_In in Ea, Eb. pose proof (in_combine_l _ _ _ _ Eb) as Ic. pose proof (in_combine_r _ _ _ _ Eb) as Ik. destruct (Hk k Ik) as [K1 K2]. split.
      + constructor; [|constructor; [|constructor; [|constructor]]]; cbn [snd cell_ok prod fold_right]; [rewrite (Lk x Ea)|rewrite (Lc c Ic)|reflexivity]; unfold prod; simpl; lia.
      + exists k. split; [exact K1|]. split; [exact K2|reflexivity].
    - f_equal. unfold kind_args, cols, columns. cbn [kind_own_meta map kind_layout columns_from col_value app].
      rewrite !map_map2. cbn [cell_at nth nums].
      assert (Lcc : length (combine coefs orders) = length knots) by (rewrite combine_length; lia).
      rewrite (map2_fst (fun x : list R => x)) by exact Lcc. rewrite (map2_snd (fun ck : list R * nat => fst ck)) by exact Lcc. rewrite (map2_snd (fun ck : list R * nat => [INR (snd ck)])) by exact Lcc.
      rewrite map_id. rewrite map_fst_combine by congruence. rewrite <- (map_map snd (fun k => [INR k])), map_snd_combine by congruence. unfold column. rewrite map_map. reflexivity.
  Qed.
  Lemma sparse_call xs mu sig dims n codes : input_ok (ISparse xs mu sig dims n codes) -> same_call (ISparse xs mu sig dims n codes).
  Proof.
    intros (Hs & Hx & Hn & H3 & HF & Hne & Hl). unfold same_call. cbn [input_kind input_rows input_dict]. split; [repeat split; auto; lia|]. split.
    - apply Forall_forall. intros d Hd. apply in_map_iff in Hd. destruct Hd as (c & <- & Hc). destruct (Hl c Hc) as [L Ok]. split; [|exact Ok].
      constructor; [|constructor]. cbn [snd cell_ok]. unfold prod. simpl. lia.
    - f_equal. unfold kind_args, cols, columns.
      cbn [kind_own_meta map fst snd add_meta v_expand_first v_squeeze kind_layout columns_from col_value app]. rewrite (squeeze_grid xs), !squeeze_grid by (cbn [length]; lia).
      rewrite !map_map. cbn [cell_at nth bytes]. rewrite map_id. reflexivity.
  Qed.
  Lemma norm_call locs scales : input_ok (INorm locs scales) -> same_call (INorm locs scales).
  Proof.
    intros (Hne & Hl & Hs). unfold same_call. cbn [input_kind input_rows input_dict]. split; [exact I|]. split.
    - apply Forall_forall. intros d Hd. apply map2_rows_in in Hd. destruct Hd as (r & p & m & H1 & H2 & Ea & Eb & ->). split; [|cbn; apply Hs; apply nth_error_In with r; exact Eb].
      constructor; [|constructor; [|constructor]]; reflexivity.
    - f_equal. unfold kind_args, cols, columns. cbn [kind_own_meta map kind_layout columns_from col_value app].
      rewrite !map_map2. cbn [cell_at nth nums]. rewrite (map2_fst (fun l : R => [l])), (map2_snd (fun l : R => [l])) by auto. reflexivity.
  Qed.

  Hypothesis Hquad : ignores_fill quad.
  Notation holds := (Kinds.holds phi Phi quad Phinv).
  Definition input_held (i : input) : Prop :=
    good_kind (input_kind i) /\ List.Forall (good_row (input_kind i)) (input_rows i) /\
    exists g, kind_create (input_kind i) (input_dict i) = Ok g /\ holds (input_kind i) (input_rows i) g /\
      canon phi Phi quad cubic dspline Phinv (input_kind i) (input_rows i) g.
  Lemma rows_ne i : input_ok i -> input_rows i <> [].
  Proof.
    intros H. pose proof (input_rows_length i H) as L. intros E. rewrite E in L. simpl in L. symmetry in L.
    destruct i; cbn [input_ok input_npdf] in *; apply length_zero_iff_nil in L; subst.
    - destruct H as (_ & _ & H & _). congruence.
    - destruct H as (_ & _ & H & _). congruence.
    - destruct H as (_ & H & _). congruence.
    - destruct H as (_ & H & _). congruence.
    - destruct H as ((_ & _ & _ & _ & H & _) & _). congruence.
    - destruct H as (_ & _ & H & _). congruence.
    - destruct H as (_ & H & _). congruence.
    - destruct H as (_ & _ & _ & _ & _ & H & _). congruence.
    - destruct H as (H & _). congruence.
  Qed.
  Lemma call_held i : input_ok i -> same_call i -> input_held i.
  Proof.
    intros Hi (Hk & HD & E). split; [exact Hk|]. split; [exact HD|]. rewrite E.
    destruct (kind_law phi Phi quad cubic dspline Phinv _ Hquad Hk (input_rows i) _ (rows_ne i Hi) HD (or_introl eq_refl)) as (g & Eg & Hg).
    exists g. split; [exact Eg|]. split; [exact Hg|]. exists g. split; [exact Eg|]. intros m x _. reflexivity.
  Qed.
  Lemma quant_held quants rows name : input_ok (IQuant quants rows name) -> input_held (IQuant quants rows name).
  Proof.
    intros Hin. pose proof Hin as (Hi & Hnm & Hz & H3). pose proof Hi as (Hq & Hn & H0 & H1 & Hne & Hr). pose proof (rows_ne _ Hin) as HD. unfold input_held. cbn [input_kind input_rows input_dict] in *.
    assert (Hlo : nth0 0 (pad_quants quants) = 0).
    { destruct Hz as [Hz|Hz].
      - unfold pad_quants. destruct (pad_lo quants) eqn:E; [reflexivity|]. cbn [app]. rewrite nth0_app_l by lia. exact Hz.
      - apply pad_first; auto. apply pad_lo_iff; auto. }
    assert (Hhi : nlast (pad_quants quants) = 1) by (apply pad_last; auto).
    assert (Hlen : (3 <= length (pad_quants quants))%nat).
    { unfold pad_quants. rewrite !app_length. destruct H3 as [H3|[H3|H3]]; [lia| |].
      - apply pad_lo_iff in H3; auto. rewrite H3. simpl. lia.
      - apply pad_hi_iff in H3; auto. rewrite H3. simpl. lia. }
    assert (Hinc : increasing (pad_quants quants)) by (apply pad_inc; auto).
    assert (Hk : good_kind (KQuant (pad_quants quants) name)) by (repeat split; auto).
    split; [exact Hk|]. split.
    - apply Forall_forall. intros d Hd. apply in_map_iff in Hd. destruct Hd as (r & <- & Hr0). split; [|exact I].
      constructor; [|constructor]. cbn [snd cell_ok]. rewrite pad_len by (auto; apply Hr; auto). unfold prod. simpl. lia.
    - unfold Kinds.kind_create. change (create_of _ (kind_name (KQuant (pad_quants quants) name))) with (@quant_create R _ quad cubic dspline).
      assert (Hdat : length (dat (nd2 (length quants) rows)) <> 0%nat).
      { destruct rows as [|r0 rows]; [congruence|]. cbn [nd2 dat concat]. rewrite app_length. destruct (Hr r0 (or_introl eq_refl)) as [-> _]. lia. }
      rewrite (quant_create_eq quad cubic dspline quants name _ _ Hdat (or_intror (or_intror (or_intror eq_refl)))), (quant_build quants rows name Hi Hnm).
      cbn [bind]. eexists. split; [reflexivity|].
      split; [eapply (quant_holds phi Phi quad cubic dspline Phinv); auto; rewrite map_map, map_length; reflexivity|].
      unfold canon, Kinds.kind_create. change (create_of _ (kind_name (KQuant (pad_quants quants) name))) with (@quant_create R _ quad cubic dspline).
      unfold kind_args, cols, columns.
      cbn [kind_own_meta map fst snd add_meta v_expand_first v_squeeze kind_layout columns_from col_value app]. rewrite squeeze_grid, !squeeze_single by lia.
      rewrite !map_map. cbn [cell_at nth nums]. change (rows_nd [length (pad_quants quants)]) with (@nd2 R (length (pad_quants quants))).
      assert (Lr : forall l, In l (map (fun x => pad_locs quants x) rows) -> length l = length (pad_quants quants)).
      { intros l Hl. apply in_map_iff in Hl. destruct Hl as (l0 & <- & Hl). apply pad_len; auto; apply Hr; auto. }
      assert (Hdat' : length (dat (nd2 (length (pad_quants quants)) (map (fun x => pad_locs quants x) rows))) <> 0%nat).
      { destruct rows as [|r0 rows0]; [congruence|]. cbn [nd2 dat concat map]. rewrite app_length, (Lr (pad_locs quants r0)) by (left; auto). lia. }
      rewrite (quant_create_eq quad cubic dspline (pad_quants quants) name _ _ Hdat' (or_introl eq_refl)).
      destruct (quant_build_padded (pad_quants quants) (map (fun x => pad_locs quants x) rows) name Hlen ltac:(destruct rows; [congruence|discriminate]) Hlo Hhi Hnm Lr) as (lo & hi & ->).
      cbn [bind]. eexists. split; [reflexivity|]. intros m x Hm. destruct m; [| |discriminate (Hm eq_refl)]; reflexivity.
  Qed.
  Lemma input_holds i : input_ok i -> input_held i.
  Proof.
    intros H. destruct i.
    - apply call_held; auto. apply hist_call; auto.
    - apply call_held; auto. apply interp_call; auto.
    - apply call_held; auto. apply irr_call; auto.
    - apply call_held; auto. apply mix_call; auto.
    - apply quant_held; auto.
    - apply call_held; auto. apply packed_call; auto.
    - apply call_held; auto. apply spline_call; auto.
    - apply call_held; auto. apply sparse_call; auto.
    - apply call_held; auto. apply norm_call; auto.
  Qed.
End Inputs.
