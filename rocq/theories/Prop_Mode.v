(** C159: modes.  [is_mode f grid v] (the first grid point with the largest density): ModeTheorems.v; [history] (calls made on an ensemble): EnsembleTheorems.v; [has_density]: MetricsProofs.v;
    [both], [unit_of]: UnitMetricTheorems.v, UnitTheorems.v; [chosen]: MetricSelectTheorems.v. *)
From Coq Require Import String List Arith ZArith Bool Lia Reals Lra.
From Verif Require Import Num NumProofs Py NdArray NumpyLib Utils ScipyWrap Spec Values Ensemble Classes SortProofs InterpProofs
  Kinds KindProofs EnsembleProofs KindInputs ReachProofs EnsembleTheorems ConvertTheorems MetricsProofs UnitTheorems UnitMetricTheorems MetricSelectTheorems ModeTheorems.
Import ListNotations.
Local Open Scope string_scope.
Local Open Scope list_scope.
Local Open Scope R_scope.

(** C159: after any calls, mode(grid) is for each PDF the first point of the grid where its density is largest. *)
Theorem C159_mode : forall X fn d anc e cs e' n f grid, ens_new fn d anc = Ok e -> history e cs e' -> has_density X e' n f -> increasing grid -> grid <> [] ->
  exists v, fst (mode e' grid) = Ok v /\ length v = n /\ forall r, (r < n)%nat -> is_mode (f r) grid (nth0 r v).
Proof. exact c159_mode. Qed.

(** C159: it moves with the units, *)
Theorem C159_units : forall X a b i e e' grid, fill_outside X -> 0 < a -> both X a b i e e' -> increasing grid -> grid <> [] ->
  exists v, fst (mode e grid) = Ok v /\ fst (mode e' (map (unit_of a b) grid)) = Ok (map (unit_of a b) v).
Proof. exact c159_units. Qed.

(** C159: and the modes of selected PDFs are the selected modes. *)
Theorem C159_select : forall X fn d anc e0 cs e m f key ps e' grid, fill_outside X -> ens_new fn d anc = Ok e0 -> history e0 cs e -> has_density X e m f -> chosen X e m key ps e' -> increasing grid -> grid <> [] ->
  exists v, fst (mode e grid) = Ok v /\ fst (mode e' grid) = Ok (select 0 v ps).
Proof. exact c159_select. Qed.

Example C159_example : exists X fn d anc e cs e' n f (grid : list R), fill_outside X /\ ens_new fn d anc = Ok e /\ history e cs e' /\ has_density X e' n f /\ increasing grid /\ grid <> [] /\ n = 2%nat /\ length grid = 3%nat /\ cs <> [].
Proof. exact c159_example. Qed.

Example C159_units_example : exists X a b i e e' (grid : list R), fill_outside X /\ 0 < a /\ both X a b i e e' /\ increasing grid /\ grid <> [] /\ a <> 1 /\ b <> 0 /\ input_npdf i = 2%nat.
Proof. exact c159_units_example. Qed.

Example C159_select_example : exists X fn d anc e0 cs e m f key ps e', fill_outside X /\ ens_new fn d anc = Ok e0 /\ history e0 cs e /\ has_density X e m f /\ chosen X e m key ps e' /\ m = 2%nat /\ ps = [0%nat].
Proof. exact c159_select_example. Qed.

Print Assumptions C159_mode.
Print Assumptions C159_units.
Print Assumptions C159_select.
