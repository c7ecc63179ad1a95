(** Evaluating ensembles on grids and matrices of points: C05, C06, C53; bin
    lookup: C07.  The predicates [faithful_on_grids], [sorts_other_grids],
    [faithful_on_matrices], [mixes_other_matrices], [ppf_on_grids] are defined at the
    top of EvalTheorems.v in terms of the public methods only. *)
From Coq Require Import List Arith ZArith QArith Bool Sorted Permutation Lia Reals Lra.
From Verif Require Import Num NumProofs Py NdArray NumpyLib Utils ScipyWrap HistPdf InterpPdf Spec
  InterpProofs BinProofs HistTheorems GridTheorems IrrTheorems EvalTheorems.
Import ListNotations.
Local Open Scope R_scope.

(** C05, class hist: sorted grids, grids with a repeated point, single PDFs. *)
Theorem C05_hist_grid_partial : forall bins rows h, hist_input bins rows ->
  hist_ctor bins (nd2 (pred (length bins)) rows) true = Ok h ->
  exists f F Q,
    evaluates (hist_ens_pdf h) (length rows) f /\ evaluates (hist_ens_cdf h) (length rows) F /\
    evaluates_on 0 1 (hist_ens_ppf h) (length rows) Q /\
    faithful_on_grids (hist_ens_pdf h) (length rows) (fin f) /\
    faithful_on_grids (hist_ens_cdf h) (length rows) (fin F) /\
    ppf_on_grids (hist_ens_ppf h) (length rows) Q.
Proof. intros bins rows h Hi Hc. destruct (hist_eval bins rows h Hi Hc) as (f & F & Q & (A1 & A2 & A3) & (B1 & B2 & B3 & B4) & (D1 & D2 & D3 & D4) & E1 & E2).
  exists f, F, Q. repeat (split; [assumption|]). assumption. Qed.
(** What every other grid gives: the values at the sorted points. *)
Theorem C05_hist_unsorted_grid : forall bins rows h, hist_input bins rows ->
  hist_ctor bins (nd2 (pred (length bins)) rows) true = Ok h ->
  exists f F Q,
    evaluates (hist_ens_pdf h) (length rows) f /\ evaluates (hist_ens_cdf h) (length rows) F /\
    evaluates_on 0 1 (hist_ens_ppf h) (length rows) Q /\
    sorts_other_grids (hist_ens_pdf h) (length rows) (fin f) /\
    sorts_other_grids (hist_ens_cdf h) (length rows) (fin F).
Proof. intros bins rows h Hi Hc. destruct (hist_eval bins rows h Hi Hc) as (f & F & Q & (A1 & A2 & A3) & (B1 & B2 & B3 & B4) & (D1 & D2 & D3 & D4) & E1 & E2).
  exists f, F, Q. repeat (split; [assumption|]). assumption. Qed.
(** C06, class hist *)
Theorem C06_hist_matrix_partial : forall bins rows h, hist_input bins rows ->
  hist_ctor bins (nd2 (pred (length bins)) rows) true = Ok h ->
  exists f F Q,
    evaluates (hist_ens_pdf h) (length rows) f /\ evaluates (hist_ens_cdf h) (length rows) F /\
    evaluates_on 0 1 (hist_ens_ppf h) (length rows) Q /\
    faithful_on_matrices (hist_ens_pdf h) (length rows) (fin f) /\
    faithful_on_matrices (hist_ens_cdf h) (length rows) (fin F).
Proof. intros bins rows h Hi Hc. destruct (hist_eval bins rows h Hi Hc) as (f & F & Q & (A1 & A2 & A3) & (B1 & B2 & B3 & B4) & (D1 & D2 & D3 & D4) & E1 & E2).
  exists f, F, Q. repeat (split; [assumption|]). assumption. Qed.
Theorem C06_hist_matrix_mixed : forall bins rows h, hist_input bins rows ->
  hist_ctor bins (nd2 (pred (length bins)) rows) true = Ok h ->
  exists f F Q,
    evaluates (hist_ens_pdf h) (length rows) f /\ evaluates (hist_ens_cdf h) (length rows) F /\
    evaluates_on 0 1 (hist_ens_ppf h) (length rows) Q /\
    mixes_other_matrices (hist_ens_pdf h) (length rows) (fin f) /\
    mixes_other_matrices (hist_ens_cdf h) (length rows) (fin F).
Proof. intros bins rows h Hi Hc. destruct (hist_eval bins rows h Hi Hc) as (f & F & Q & (A1 & A2 & A3) & (B1 & B2 & B3 & B4) & (D1 & D2 & D3 & D4) & E1 & E2).
  exists f, F, Q. repeat (split; [assumption|]). assumption. Qed.
(** C53, class hist: NaN outside [0,1], the infinite ends of scipy's support at 0 and 1. *)
Theorem C53_hist_ppf_ends : forall bins rows h, hist_input bins rows ->
  hist_ctor bins (nd2 (pred (length bins)) rows) true = Ok h ->
  exists f F Q,
    evaluates (hist_ens_pdf h) (length rows) f /\ evaluates (hist_ens_cdf h) (length rows) F /\
    evaluates_on 0 1 (hist_ens_ppf h) (length rows) Q /\
    forall p, hist_ens_ppf h (PScalar p) = Ok (map (fun r => [with_ends Q r p]) (seq 0 (length rows))).
Proof. intros bins rows h Hi Hc. destruct (hist_eval bins rows h Hi Hc) as (f & F & Q & (A1 & A2 & A3) & (B1 & B2 & B3 & B4) & (D1 & D2 & D3 & D4) & E1 & E2).
  exists f, F, Q. repeat (split; [assumption|]). assumption. Qed.

(** C56, class hist: the exact behaviour on every grid. *)
Theorem C56_hist_grid_values : forall bins rows h, hist_input bins rows ->
  hist_ctor bins (nd2 (pred (length bins)) rows) true = Ok h ->
  exists f F Q,
    evaluates (hist_ens_pdf h) (length rows) f /\ evaluates (hist_ens_cdf h) (length rows) F /\
    evaluates_on 0 1 (hist_ens_ppf h) (length rows) Q /\
    faithful_on_grids (hist_ens_pdf h) (length rows) (fin f) /\ sorts_other_grids (hist_ens_pdf h) (length rows) (fin f) /\
    faithful_on_grids (hist_ens_cdf h) (length rows) (fin F) /\ sorts_other_grids (hist_ens_cdf h) (length rows) (fin F) /\
    ppf_on_grids (hist_ens_ppf h) (length rows) Q.
Proof. intros bins rows h Hi Hc. destruct (hist_eval bins rows h Hi Hc) as (f & F & Q & (A1 & A2 & A3) & (B1 & B2 & B3 & B4) & (D1 & D2 & D3 & D4) & E1 & E2).
  exists f, F, Q. repeat (split; [assumption|]). assumption. Qed.
(** C57, class hist: the exact behaviour on every matrix of points. *)
Theorem C57_hist_matrix_values : forall bins rows h, hist_input bins rows ->
  hist_ctor bins (nd2 (pred (length bins)) rows) true = Ok h ->
  exists f F Q,
    evaluates (hist_ens_pdf h) (length rows) f /\ evaluates (hist_ens_cdf h) (length rows) F /\
    evaluates_on 0 1 (hist_ens_ppf h) (length rows) Q /\
    faithful_on_matrices (hist_ens_pdf h) (length rows) (fin f) /\ mixes_other_matrices (hist_ens_pdf h) (length rows) (fin f) /\
    faithful_on_matrices (hist_ens_cdf h) (length rows) (fin F) /\ mixes_other_matrices (hist_ens_cdf h) (length rows) (fin F).
Proof. intros bins rows h Hi Hc. destruct (hist_eval bins rows h Hi Hc) as (f & F & Q & (A1 & A2 & A3) & (B1 & B2 & B3 & B4) & (D1 & D2 & D3 & D4) & E1 & E2).
  exists f, F, Q. repeat (split; [assumption|]). assumption. Qed.

(** C05, class interp: sorted grids, grids with a repeated point, single PDFs. *)
Theorem C05_interp_grid_partial : forall xs rows i, interp_input xs rows ->
  interp_ctor xs (nd2 (length xs) rows) true = Ok i ->
  exists f F Q,
    evaluates (interp_ens_pdf i) (length rows) f /\ evaluates (interp_ens_cdf i) (length rows) F /\
    evaluates_on 0 1 (interp_ens_ppf i) (length rows) Q /\
    faithful_on_grids (interp_ens_pdf i) (length rows) (fin f) /\
    faithful_on_grids (interp_ens_cdf i) (length rows) (fin F) /\
    ppf_on_grids (interp_ens_ppf i) (length rows) Q.
Proof. intros xs rows i Hi Hc. destruct (interp_eval xs rows i Hi Hc) as (f & F & Q & (A1 & A2 & A3) & (B1 & B2 & B3 & B4) & (D1 & D2 & D3 & D4) & E1 & E2).
  exists f, F, Q. repeat (split; [assumption|]). assumption. Qed.
(** What every other grid gives: the values at the sorted points. *)
Theorem C05_interp_unsorted_grid : forall xs rows i, interp_input xs rows ->
  interp_ctor xs (nd2 (length xs) rows) true = Ok i ->
  exists f F Q,
    evaluates (interp_ens_pdf i) (length rows) f /\ evaluates (interp_ens_cdf i) (length rows) F /\
    evaluates_on 0 1 (interp_ens_ppf i) (length rows) Q /\
    sorts_other_grids (interp_ens_pdf i) (length rows) (fin f) /\
    sorts_other_grids (interp_ens_cdf i) (length rows) (fin F).
Proof. intros xs rows i Hi Hc. destruct (interp_eval xs rows i Hi Hc) as (f & F & Q & (A1 & A2 & A3) & (B1 & B2 & B3 & B4) & (D1 & D2 & D3 & D4) & E1 & E2).
  exists f, F, Q. repeat (split; [assumption|]). assumption. Qed.
(** C06, class interp *)
Theorem C06_interp_matrix_partial : forall xs rows i, interp_input xs rows ->
  interp_ctor xs (nd2 (length xs) rows) true = Ok i ->
  exists f F Q,
    evaluates (interp_ens_pdf i) (length rows) f /\ evaluates (interp_ens_cdf i) (length rows) F /\
    evaluates_on 0 1 (interp_ens_ppf i) (length rows) Q /\
    faithful_on_matrices (interp_ens_pdf i) (length rows) (fin f) /\
    faithful_on_matrices (interp_ens_cdf i) (length rows) (fin F).
Proof. intros xs rows i Hi Hc. destruct (interp_eval xs rows i Hi Hc) as (f & F & Q & (A1 & A2 & A3) & (B1 & B2 & B3 & B4) & (D1 & D2 & D3 & D4) & E1 & E2).
  exists f, F, Q. repeat (split; [assumption|]). assumption. Qed.
Theorem C06_interp_matrix_mixed : forall xs rows i, interp_input xs rows ->
  interp_ctor xs (nd2 (length xs) rows) true = Ok i ->
  exists f F Q,
    evaluates (interp_ens_pdf i) (length rows) f /\ evaluates (interp_ens_cdf i) (length rows) F /\
    evaluates_on 0 1 (interp_ens_ppf i) (length rows) Q /\
    mixes_other_matrices (interp_ens_pdf i) (length rows) (fin f) /\
    mixes_other_matrices (interp_ens_cdf i) (length rows) (fin F).
Proof. intros xs rows i Hi Hc. destruct (interp_eval xs rows i Hi Hc) as (f & F & Q & (A1 & A2 & A3) & (B1 & B2 & B3 & B4) & (D1 & D2 & D3 & D4) & E1 & E2).
  exists f, F, Q. repeat (split; [assumption|]). assumption. Qed.
(** C53, class interp: NaN outside [0,1], the infinite ends of scipy's support at 0 and 1. *)
Theorem C53_interp_ppf_ends : forall xs rows i, interp_input xs rows ->
  interp_ctor xs (nd2 (length xs) rows) true = Ok i ->
  exists f F Q,
    evaluates (interp_ens_pdf i) (length rows) f /\ evaluates (interp_ens_cdf i) (length rows) F /\
    evaluates_on 0 1 (interp_ens_ppf i) (length rows) Q /\
    forall p, interp_ens_ppf i (PScalar p) = Ok (map (fun r => [with_ends Q r p]) (seq 0 (length rows))).
Proof. intros xs rows i Hi Hc. destruct (interp_eval xs rows i Hi Hc) as (f & F & Q & (A1 & A2 & A3) & (B1 & B2 & B3 & B4) & (D1 & D2 & D3 & D4) & E1 & E2).
  exists f, F, Q. repeat (split; [assumption|]). assumption. Qed.

(** C56, class interp: the exact behaviour on every grid. *)
Theorem C56_interp_grid_values : forall xs rows i, interp_input xs rows ->
  interp_ctor xs (nd2 (length xs) rows) true = Ok i ->
  exists f F Q,
    evaluates (interp_ens_pdf i) (length rows) f /\ evaluates (interp_ens_cdf i) (length rows) F /\
    evaluates_on 0 1 (interp_ens_ppf i) (length rows) Q /\
    faithful_on_grids (interp_ens_pdf i) (length rows) (fin f) /\ sorts_other_grids (interp_ens_pdf i) (length rows) (fin f) /\
    faithful_on_grids (interp_ens_cdf i) (length rows) (fin F) /\ sorts_other_grids (interp_ens_cdf i) (length rows) (fin F) /\
    ppf_on_grids (interp_ens_ppf i) (length rows) Q.
Proof. intros xs rows i Hi Hc. destruct (interp_eval xs rows i Hi Hc) as (f & F & Q & (A1 & A2 & A3) & (B1 & B2 & B3 & B4) & (D1 & D2 & D3 & D4) & E1 & E2).
  exists f, F, Q. repeat (split; [assumption|]). assumption. Qed.
(** C57, class interp: the exact behaviour on every matrix of points. *)
Theorem C57_interp_matrix_values : forall xs rows i, interp_input xs rows ->
  interp_ctor xs (nd2 (length xs) rows) true = Ok i ->
  exists f F Q,
    evaluates (interp_ens_pdf i) (length rows) f /\ evaluates (interp_ens_cdf i) (length rows) F /\
    evaluates_on 0 1 (interp_ens_ppf i) (length rows) Q /\
    faithful_on_matrices (interp_ens_pdf i) (length rows) (fin f) /\ mixes_other_matrices (interp_ens_pdf i) (length rows) (fin f) /\
    faithful_on_matrices (interp_ens_cdf i) (length rows) (fin F) /\ mixes_other_matrices (interp_ens_cdf i) (length rows) (fin F).
Proof. intros xs rows i Hi Hc. destruct (interp_eval xs rows i Hi Hc) as (f & F & Q & (A1 & A2 & A3) & (B1 & B2 & B3 & B4) & (D1 & D2 & D3 & D4) & E1 & E2).
  exists f, F, Q. repeat (split; [assumption|]). assumption. Qed.

(** C05, class irr: sorted grids, grids with a repeated point, single PDFs. *)
Theorem C05_irr_grid_partial : forall n xr yr o, irr_input n xr yr ->
  irr_ctor (nd2 n xr) (nd2 n yr) true = Ok o ->
  exists f F Q,
    evaluates (irr_ens_pdf o) (length xr) f /\ evaluates (irr_ens_cdf o) (length xr) F /\
    evaluates_on 0 1 (irr_ens_ppf o) (length xr) Q /\
    faithful_on_grids (irr_ens_pdf o) (length xr) (fin f) /\
    faithful_on_grids (irr_ens_cdf o) (length xr) (fin F) /\
    ppf_on_grids (irr_ens_ppf o) (length xr) Q.
Proof. intros n xr yr o Hi Hc. destruct (irr_eval n xr yr o Hi Hc) as (f & F & Q & (A1 & A2 & A3) & (B1 & B2 & B3 & B4) & (D1 & D2 & D3 & D4) & E1 & E2).
  exists f, F, Q. repeat (split; [assumption|]). assumption. Qed.
(** What every other grid gives: the values at the sorted points. *)
Theorem C05_irr_unsorted_grid : forall n xr yr o, irr_input n xr yr ->
  irr_ctor (nd2 n xr) (nd2 n yr) true = Ok o ->
  exists f F Q,
    evaluates (irr_ens_pdf o) (length xr) f /\ evaluates (irr_ens_cdf o) (length xr) F /\
    evaluates_on 0 1 (irr_ens_ppf o) (length xr) Q /\
    sorts_other_grids (irr_ens_pdf o) (length xr) (fin f) /\
    sorts_other_grids (irr_ens_cdf o) (length xr) (fin F).
Proof. intros n xr yr o Hi Hc. destruct (irr_eval n xr yr o Hi Hc) as (f & F & Q & (A1 & A2 & A3) & (B1 & B2 & B3 & B4) & (D1 & D2 & D3 & D4) & E1 & E2).
  exists f, F, Q. repeat (split; [assumption|]). assumption. Qed.
(** C06, class irr *)
Theorem C06_irr_matrix_partial : forall n xr yr o, irr_input n xr yr ->
  irr_ctor (nd2 n xr) (nd2 n yr) true = Ok o ->
  exists f F Q,
    evaluates (irr_ens_pdf o) (length xr) f /\ evaluates (irr_ens_cdf o) (length xr) F /\
    evaluates_on 0 1 (irr_ens_ppf o) (length xr) Q /\
    faithful_on_matrices (irr_ens_pdf o) (length xr) (fin f) /\
    faithful_on_matrices (irr_ens_cdf o) (length xr) (fin F).
Proof. intros n xr yr o Hi Hc. destruct (irr_eval n xr yr o Hi Hc) as (f & F & Q & (A1 & A2 & A3) & (B1 & B2 & B3 & B4) & (D1 & D2 & D3 & D4) & E1 & E2).
  exists f, F, Q. repeat (split; [assumption|]). assumption. Qed.
Theorem C06_irr_matrix_mixed : forall n xr yr o, irr_input n xr yr ->
  irr_ctor (nd2 n xr) (nd2 n yr) true = Ok o ->
  exists f F Q,
    evaluates (irr_ens_pdf o) (length xr) f /\ evaluates (irr_ens_cdf o) (length xr) F /\
    evaluates_on 0 1 (irr_ens_ppf o) (length xr) Q /\
    mixes_other_matrices (irr_ens_pdf o) (length xr) (fin f) /\
    mixes_other_matrices (irr_ens_cdf o) (length xr) (fin F).
Proof. intros n xr yr o Hi Hc. destruct (irr_eval n xr yr o Hi Hc) as (f & F & Q & (A1 & A2 & A3) & (B1 & B2 & B3 & B4) & (D1 & D2 & D3 & D4) & E1 & E2).
  exists f, F, Q. repeat (split; [assumption|]). assumption. Qed.
(** C53, class irr: NaN outside [0,1], the infinite ends of scipy's support at 0 and 1. *)
Theorem C53_irr_ppf_ends : forall n xr yr o, irr_input n xr yr ->
  irr_ctor (nd2 n xr) (nd2 n yr) true = Ok o ->
  exists f F Q,
    evaluates (irr_ens_pdf o) (length xr) f /\ evaluates (irr_ens_cdf o) (length xr) F /\
    evaluates_on 0 1 (irr_ens_ppf o) (length xr) Q /\
    forall p, irr_ens_ppf o (PScalar p) = Ok (map (fun r => [with_ends Q r p]) (seq 0 (length xr))).
Proof. intros n xr yr o Hi Hc. destruct (irr_eval n xr yr o Hi Hc) as (f & F & Q & (A1 & A2 & A3) & (B1 & B2 & B3 & B4) & (D1 & D2 & D3 & D4) & E1 & E2).
  exists f, F, Q. repeat (split; [assumption|]). assumption. Qed.

(** C56, class irr: the exact behaviour on every grid. *)
Theorem C56_irr_grid_values : forall n xr yr o, irr_input n xr yr ->
  irr_ctor (nd2 n xr) (nd2 n yr) true = Ok o ->
  exists f F Q,
    evaluates (irr_ens_pdf o) (length xr) f /\ evaluates (irr_ens_cdf o) (length xr) F /\
    evaluates_on 0 1 (irr_ens_ppf o) (length xr) Q /\
    faithful_on_grids (irr_ens_pdf o) (length xr) (fin f) /\ sorts_other_grids (irr_ens_pdf o) (length xr) (fin f) /\
    faithful_on_grids (irr_ens_cdf o) (length xr) (fin F) /\ sorts_other_grids (irr_ens_cdf o) (length xr) (fin F) /\
    ppf_on_grids (irr_ens_ppf o) (length xr) Q.
Proof. intros n xr yr o Hi Hc. destruct (irr_eval n xr yr o Hi Hc) as (f & F & Q & (A1 & A2 & A3) & (B1 & B2 & B3 & B4) & (D1 & D2 & D3 & D4) & E1 & E2).
  exists f, F, Q. repeat (split; [assumption|]). assumption. Qed.
(** C57, class irr: the exact behaviour on every matrix of points. *)
Theorem C57_irr_matrix_values : forall n xr yr o, irr_input n xr yr ->
  irr_ctor (nd2 n xr) (nd2 n yr) true = Ok o ->
  exists f F Q,
    evaluates (irr_ens_pdf o) (length xr) f /\ evaluates (irr_ens_cdf o) (length xr) F /\
    evaluates_on 0 1 (irr_ens_ppf o) (length xr) Q /\
    faithful_on_matrices (irr_ens_pdf o) (length xr) (fin f) /\ mixes_other_matrices (irr_ens_pdf o) (length xr) (fin f) /\
    faithful_on_matrices (irr_ens_cdf o) (length xr) (fin F) /\ mixes_other_matrices (irr_ens_cdf o) (length xr) (fin F).
Proof. intros n xr yr o Hi Hc. destruct (irr_eval n xr yr o Hi Hc) as (f & F & Q & (A1 & A2 & A3) & (B1 & B2 & B3 & B4) & (D1 & D2 & D3 & D4) & E1 & E2).
  exists f, F, Q. repeat (split; [assumption|]). assumption. Qed.

(** Counterexamples to the unrestricted statements: two PDFs, grid (1.5, 0.5): the
    first column holds the values at 0.5. *)
Theorem C05_grid_refuted :
  exists (h : hist Q),
    hist_ctor [0; 1; 2]%Q (nd2 2 [[1; 3]; [3; 1]]%Q) true = Ok h /\
    hist_ens_pdf h (PGrid [3 # 2; 1 # 2]%Q) = Ok [[Fin (1 # 4); Fin (3 # 4)]; [Fin (3 # 4); Fin (1 # 4)]]%Q /\
    hist_ens_pdf h (PScalar (3 # 2)%Q) = Ok [[Fin (3 # 4)]; [Fin (1 # 4)]]%Q.
Proof. exact c05_refuted. Qed.
(** PDF 1 is asked for the points (1.5, 0.5) and answers for (0.5, 1.5). *)
Theorem C06_matrix_refuted :
  exists (h : hist Q),
    hist_ctor [0; 1; 2]%Q (nd2 2 [[1; 3]; [3; 1]]%Q) true = Ok h /\
    hist_ens_pdf h (PMat [[1 # 2; 3 # 2]; [3 # 2; 1 # 2]]%Q)
      = Ok [[Fin (1 # 4); Fin (3 # 4)]; [Fin (3 # 4); Fin (1 # 4)]]%Q /\
    hist_ens_pdf h (PScalar (3 # 2)%Q) = Ok [[Fin (3 # 4)]; [Fin (1 # 4)]]%Q.
Proof. exact c06_refuted. Qed.

(** C07 *)
Theorem C07_bin_lookup_partial : forall bins x, increasing bins -> (2 <= length bins)%nat ->
  let '(i, mask) := get_bin_indices bins x in
  (i < pred (length bins))%nat /\
  (sound_bins bins ->
     (mask = true -> nth0 i bins <= x <= nth0 (S i) bins) /\
     (nth0 0 bins < x < nlast bins -> mask = true) /\
     (x < nth0 0 bins \/ nlast bins < x -> mask = false)).
Proof. exact c07. Qed.
(** C62 *)
Theorem C62_bin_lookup_sound_bins : forall bins x, increasing bins -> (2 <= length bins)%nat -> sound_bins bins ->
  let '(i, mask) := get_bin_indices bins x in
  (i < pred (length bins))%nat /\
  (mask = true -> nth0 i bins <= x <= nth0 (S i) bins) /\
  (nth0 0 bins < x < nlast bins -> mask = true) /\
  (x < nth0 0 bins \/ nlast bins < x -> mask = false).
Proof. exact c62. Qed.
(** Bins that are tiny, or equal up to 1e-5, are looked up with the wrong rule. *)
Theorem C07_tiny_bins_refuted :
  let bins := [0; 1 # 1000000000; 1 # 100000000]%Q in
  exists x, (nth 1 bins 0 < x)%Q /\ (x < nth 2 bins 0)%Q /\ snd (get_bin_indices bins x) = false.
Proof. exact c07_refuted_tiny. Qed.
Theorem C07_nearly_equal_bins_refuted :
  let bins := [0; 1; 200001 # 100000; 300001 # 100000]%Q in
  exists x, (nth 1 bins 0 < x)%Q /\ (x < nth 2 bins 0)%Q /\ get_bin_indices bins x = (2%nat, true).
Proof. exact c07_refuted_near. Qed.

(** The hypotheses are met by ordinary inputs: two PDFs on an irregular grid, a sorted
    request, an unsorted one, and a matrix with as many distinct points as columns. *)
Example C05_example :
  hist_input [0; 1; 3] [[1; 2]; [0; 5]] /\ interp_input [0; 1; 3] [[1; 2; 0]; [0; 5; 5]] /\
  irr_input 3 [[0; 1; 3]; [1; 2; 5]] [[1; 2; 0]; [0; 5; 5]] /\
  increasing [1 / 2; 2] /\ NoDup [2; 1 / 2].
Proof.
  split; [apply hist_input_example|]. split; [apply interp_input_example|]. split; [apply irr_input_example|].
  split; [repeat constructor; lra|]. repeat constructor; simpl; intuition lra.
Qed.
Example C06_example : distinct (concat [[1; 2]; [2; 1]]) = 2%nat /\ distinct (concat [[1; 2]; [3; 1]]) <> 2%nat.
Proof.
  unfold distinct. simpl.
  repeat match goal with |- context [if ?c then _ else _] => destruct c end; simpl; try lra; try (split; [reflexivity|discriminate]);
  split; try reflexivity; try discriminate; exfalso; lra.
Qed.

Print Assumptions C56_hist_grid_values.
Print Assumptions C57_hist_matrix_values.
Print Assumptions C05_hist_grid_partial.
Print Assumptions C05_hist_unsorted_grid.
Print Assumptions C06_hist_matrix_partial.
Print Assumptions C06_hist_matrix_mixed.
Print Assumptions C53_hist_ppf_ends.
Print Assumptions C56_interp_grid_values.
Print Assumptions C57_interp_matrix_values.
Print Assumptions C05_interp_grid_partial.
Print Assumptions C05_interp_unsorted_grid.
Print Assumptions C06_interp_matrix_partial.
Print Assumptions C06_interp_matrix_mixed.
Print Assumptions C53_interp_ppf_ends.
Print Assumptions C56_irr_grid_values.
Print Assumptions C57_irr_matrix_values.
Print Assumptions C05_irr_grid_partial.
Print Assumptions C05_irr_unsorted_grid.
Print Assumptions C06_irr_matrix_partial.
Print Assumptions C06_irr_matrix_mixed.
Print Assumptions C53_irr_ppf_ends.
Print Assumptions C05_grid_refuted.
Print Assumptions C06_matrix_refuted.
Print Assumptions C07_bin_lookup_partial.
Print Assumptions C62_bin_lookup_sound_bins.
Print Assumptions C07_tiny_bins_refuted.
Print Assumptions C07_nearly_equal_bins_refuted.
