(** The keyword check_input=False: histograms and tables of densities are normalised all the same, when the ensemble freezes them;
    only quantile tables keep what was given. *)
From Coq Require Import String List Arith ZArith Bool Sorted Lia Reals Lra.
From Verif Require Import Num NumProofs PairwiseProofs Py NdArray NumpyLib Utils ScipyWrap Spec HistPdf InterpPdf QuantPdf Packing PackedPdf
  SortProofs EvalProofs NdProofs InterpProofs IntegralProofs BinProofs HistProofs HistTheorems TableProofs InterpPdfProofs
  GridTheorems IrrTheorems MixmodTheorems QuantTheorems PackingTheorems PackedTheorems.
Import ListNotations.
Local Open Scope R_scope.

(** Area under a row: bins and their values; straight lines through points; right-hand values, as interp_irregular adds them. *)
Definition bins_area (bins row : list R) : R := rsum (pred (length bins)) (fun i => nth0 i row * (nth0 (S i) bins - nth0 i bins)).
Definition lines_area (xs row : list R) : R := rsum (pred (length xs)) (fun i => (nth0 (S i) xs - nth0 i xs) * (nth0 i row + nth0 (S i) row) / 2).
Definition right_area (xs row : list R) : R := rsum (pred (length xs)) (fun i => (nth0 (S i) xs - nth0 i xs) * nth0 (S i) row).

Lemma c137_hist : forall bins rows chk, (2 <= length bins)%nat ->
  (forall row, In row rows -> length row = pred (length bins) /\ bins_area bins row <> 0) ->
  exists h, hist_ctor bins (nd2 (pred (length bins)) rows) chk = Ok h /\ h_bins h = bins /\ length (h_pdfs h) = length rows /\
    forall r i, (r < length rows)%nat -> (i < pred (length bins))%nat -> at2 (h_pdfs h) r i = at2 rows r i / bins_area bins (nth r rows []).
Proof.
  intros bins rows chk Hn Hr. rewrite hist_build by (intros; apply Hr; auto). eexists. split; [reflexivity|]. cbn [h_bins h_pdfs]. split; [reflexivity|]. split; [apply map_length|].
  intros r i Hl Hi. unfold at2. rewrite nth_map_in with (d' := []) by exact Hl. destruct (Hr (nth r rows []) (nth_In _ _ Hl)) as [L _].
  apply norm_row_nth; auto.
Qed.
Lemma c137_interp : forall xs rows chk, (2 <= length xs)%nat ->
  (forall row, In row rows -> length row = length xs /\ lines_area xs row <> 0) ->
  exists t, interp_ctor xs (nd2 (length xs) rows) chk = Ok t /\ i_xvals t = xs /\ length (i_yvals t) = length rows /\
    forall r i, (r < length rows)%nat -> (i < length xs)%nat -> at2 (i_yvals t) r i = at2 rows r i / lines_area xs (nth r rows []).
Proof.
  intros xs rows chk Hn Hr. rewrite interp_build by (auto; intros; apply Hr; auto). eexists. split; [reflexivity|]. cbn [i_xvals i_yvals]. split; [reflexivity|]. split; [apply map_length|].
  intros r i Hl Hi. unfold at2. rewrite nth_map_in with (d' := []) by exact Hl. destruct (Hr (nth r rows []) (nth_In _ _ Hl)) as [L _].
  unfold inorm. rewrite nth0_map_div. rewrite yc_last by auto. reflexivity.
Qed.
Lemma c137_irr : forall n xr yr chk, (2 <= n)%nat -> length yr = length xr ->
  (forall xs, In xs xr -> length xs = n) -> (forall ys, In ys yr -> length ys = n) ->
  (forall r, (r < length xr)%nat -> right_area (nth r xr []) (nth r yr []) <> 0) ->
  exists t, irr_ctor (nd2 n xr) (nd2 n yr) chk = Ok t /\ r_xvals t = xr /\ length (r_yvals t) = length yr /\
    forall r i, (r < length xr)%nat -> (i < n)%nat -> at2 (r_yvals t) r i = at2 yr r i / right_area (nth r xr []) (nth r yr []).
Proof.
  intros n xr yr chk Hn Hl Hx Hy _. rewrite irr_build by auto. eexists. split; [reflexivity|]. cbn [r_xvals r_yvals]. split; [reflexivity|]. split; [rewrite map2_len, Hl; apply Nat.min_id|].
  intros r i Hr Hi. unfold at2. rewrite (map2_nth _ _ _ _ [] [] []) by lia. assert (Lx : length (nth r xr []) = n) by (apply Hx, nth_In; lia). assert (Ly : length (nth r yr []) = n) by (apply Hy, nth_In; lia).
  rewrite normalize_row_R, nth0_map_div, rect_total by lia. reflexivity.
Qed.
Lemma c137_packed : forall xs (pk : list (list Z)) ms pt lf ys chk, (2 <= length xs)%nat ->
  (forall row, In row pk -> length row = length xs) -> length ms = length pk ->
  unpack_array pow10R pt (Some lf) pk ms = Ok ys -> length ys = length pk -> (forall row, In row ys -> lines_area xs row <> 0) ->
  exists k, packed_ctor pow10R xs (nd2 (length xs) pk) (column ms) pt lf chk = Ok k /\ i_xvals (k_table k) = xs /\ length (i_yvals (k_table k)) = length pk /\ forall r i, (r < length pk)%nat -> (i < length xs)%nat -> at2 (i_yvals (k_table k)) r i = at2 ys r i / lines_area xs (nth r ys []).
Proof.
  intros xs pk ms pt lf ys chk Hn Hr Hm U Hy Ha. rewrite (packed_build xs pk ms pt lf chk ys) by auto.
  destruct (c137_interp xs ys chk Hn) as (t & E & A & B & C); [intros row H; split; [apply (unpack_rows _ _ _ _ _ _ Hr U), H|apply Ha, H]|].
  rewrite E. cbn [bind]. eexists. split; [reflexivity|]. cbn [k_table]. rewrite <- Hy. auto.
Qed.
(** Whatever is asked afterwards: the two objects are the same. *)
Lemma c137_same :
  (forall bins rows, (2 <= length bins)%nat -> (forall row, In row rows -> length row = pred (length bins) /\ bins_area bins row <> 0) ->
     hist_ctor bins (nd2 (pred (length bins)) rows) false = hist_ctor bins (nd2 (pred (length bins)) rows) true) /\
  (forall xs rows, (2 <= length xs)%nat -> (forall row, In row rows -> length row = length xs /\ lines_area xs row <> 0) ->
     interp_ctor xs (nd2 (length xs) rows) false = interp_ctor xs (nd2 (length xs) rows) true) /\
  (forall n xr yr, (2 <= n)%nat -> length yr = length xr -> (forall xs, In xs xr -> length xs = n) -> (forall ys, In ys yr -> length ys = n) ->
     (forall r, (r < length xr)%nat -> right_area (nth r xr []) (nth r yr []) <> 0) ->
     irr_ctor (nd2 n xr) (nd2 n yr) false = irr_ctor (nd2 n xr) (nd2 n yr) true) /\
  (forall xs (pk : list (list Z)) ms pt lf ys, (2 <= length xs)%nat -> (forall row, In row pk -> length row = length xs) -> length ms = length pk ->
     unpack_array pow10R pt (Some lf) pk ms = Ok ys -> length ys = length pk -> (forall row, In row ys -> lines_area xs row <> 0) ->
     packed_ctor pow10R xs (nd2 (length xs) pk) (column ms) pt lf false = packed_ctor pow10R xs (nd2 (length xs) pk) (column ms) pt lf true).
Proof.
  split; [|split; [|split]].
  - intros bins rows Hn Hr. rewrite !hist_build by (intros; apply Hr; auto). reflexivity.
  - intros xs rows Hn Hr. rewrite !interp_build by (auto; intros; apply Hr; auto). reflexivity.
  - intros n xr yr Hn Hl Hx Hy _. rewrite !irr_build by auto. reflexivity.
  - intros xs pk ms pt lf ys Hn Hr Hm U Hy Ha. rewrite !(packed_build xs pk ms pt lf _ ys) by auto.
    assert (Hl := unpack_rows _ _ _ _ _ _ Hr U). rewrite !interp_build by auto. reflexivity.
Qed.
(** Quantile tables: unchecked they are kept as they are; checked, the quantiles 0 and 1 are added. *)
Lemma c137_quant : forall quants rows name, (2 <= length quants)%nat -> rows <> [] -> (forall row, In row rows -> length row = length quants) -> In name pdf_constructor_names ->
  / 2 ^ 52 < nth0 0 quants -> nlast quants < 1 ->
  exists q q', quant_ctor quants (nd2 (length quants) rows) false name = Ok q /\ quant_ctor quants (nd2 (length quants) rows) true name = Ok q' /\ q_quants q = quants /\ q_locs q = rows /\ length (q_quants q') = (length quants + 2)%nat /\ forall row, In row (q_locs q') -> length row = (length quants + 2)%nat.
Proof.
  intros quants rows name Hn Hne Hr Hnm H0 H1. rewrite quant_build_gen by auto. unfold quant_ctor. rewrite quant_init_build by auto. cbn [bind]. unfold quant_freeze. cbn [q_quants q_locs q_check q_ctor_name q_shape].
  rewrite quant_init_build by auto. cbn [bind q_quants q_locs q_xmin q_xmax q_check q_ctor_name]. do 2 eexists. split; [reflexivity|]. split; [reflexivity|]. cbn [q_quants q_locs]. split; [reflexivity|]. split; [reflexivity|].
  assert (Plo : pad_lo quants = true). { unfold pad_lo. destruct quants as [|a l]; [simpl in Hn; lia|]. unfold nth0 in H0. cbn [nth] in H0. change (nltb float_eps a = true). destruct (nltb_reflect float_eps a) as [L|L]; [reflexivity|]. exfalso. apply L. unfold float_eps, nfrac. simpl in *. lra. }
  assert (Phi : pad_hi quants = true). { unfold pad_hi. destruct (nltb_reflect (nlast quants) n1) as [L|L]; [reflexivity|]. exfalso. apply L. numR. exact H1. }
  assert (E : length (pad_quants quants) = (length quants + 2)%nat) by (unfold pad_quants; rewrite Plo, Phi, !app_length; simpl; lia).
  split; [exact E|]. intros row H. apply in_map_iff in H. destruct H as (r & <- & H). rewrite pad_locs_length by auto. exact E.
Qed.
Example c137_example : (forall row, In row [[1; 3]; [2; 0]] -> length row = pred (length [0; 1; 3]) /\ bins_area [0; 1; 3] row <> 0) /\
  (forall row, In row [[1; 3; 0]] -> length row = length [0; 1; 3] /\ lines_area [0; 1; 3] row <> 0) /\ right_area [0; 1; 3] [1; 3; 1] <> 0 /\ / 2 ^ 52 < nth0 0 [1 / 4; 1 / 2; 3 / 4] /\ nlast [1 / 4; 1 / 2; 3 / 4] < 1.
Proof.
  split; [|split; [|split; [|split]]].
  - intros row [<-|[<-|[]]]; (split; [reflexivity|]); unfold bins_area, nth0; simpl; lra.
  - intros row [<-|[]]; (split; [reflexivity|]); unfold lines_area, nth0; simpl; lra.
  - unfold right_area, nth0; simpl; lra.
  - unfold nth0. simpl. lra.
  - unfold nlast. simpl. lra.
Qed.
