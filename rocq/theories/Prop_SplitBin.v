(** C158: histograms with a bin cut in two.  [cut k row] (the value of the bin in front of edge [k] given to both parts): SplitBinTheorems.v; [ins], [between]: KnotTheorems.v;
    [hist_input]: HistTheorems.v; [sound_bins], [equal_width]: BinProofs.v; [on_points]: EnsembleTheorems.v. *)
From Coq Require Import String List Arith ZArith Bool Lia Reals Lra.
From Verif Require Import Num NumProofs Py NdArray NumpyLib Utils ScipyWrap Spec Values Ensemble Classes BinProofs HistTheorems
  Kinds KindProofs EnsembleProofs KindInputs ReachProofs EnsembleTheorems ConvertTheorems KnotTheorems SplitBinTheorems.
Import ListNotations.
Local Open Scope string_scope.
Local Open Scope list_scope.
Local Open Scope R_scope.

(** C158: cutting a bin changes no cdf, no density away from the edges, and no quantile when no bin is empty. *)
Theorem C158_split : forall X bins rows k z, fill_outside X -> hist_input bins rows -> between bins k z ->
  exists e e', ens_new (create_of (qp X) "hist") (input_dict (IHist bins rows)) None = Ok e /\ ens_new (create_of (qp X) "hist") (input_dict (IHist (ins k z bins) (map (cut k) rows))) None = Ok e' /\
    (forall p, on_points p -> ens_cdf e' p = ens_cdf e p) /\
    (sound_bins bins -> sound_bins (ins k z bins) -> forall x, ~ In x (ins k z bins) -> ens_pdf e' (PScalar x) = ens_pdf e (PScalar x)) /\
    ((forall row v, In row rows -> In v row -> 0 < v) -> forall p, on_points p -> ens_ppf e' p = ens_ppf e p).
Proof. exact c158_split. Qed.

(** C158: at an edge the density may change. *)
Theorem C158_edge : exists X bins rows k z x e e' y y', fill_outside X /\ hist_input bins rows /\ between bins k z /\ sound_bins bins /\ sound_bins (ins k z bins) /\ In x bins /\
  ens_new (create_of (qp X) "hist") (input_dict (IHist bins rows)) None = Ok e /\ ens_new (create_of (qp X) "hist") (input_dict (IHist (ins k z bins) (map (cut k) rows))) None = Ok e' /\
  ens_pdf e (PScalar x) = Ok [[Fin y]] /\ ens_pdf e' (PScalar x) = Ok [[Fin y']] /\ y <> y'.
Proof. exact c158_edge. Qed.

Example C158_example : exists bins rows k z, hist_input bins rows /\ between bins k z /\ sound_bins bins /\ sound_bins (ins k z bins) /\ (forall row v, In row rows -> In v row -> 0 < v) /\ length rows = 2%nat /\ equal_width bins.
Proof. exact c158_example. Qed.

Print Assumptions C158_split.
Print Assumptions C158_edge.
