(** The registry of metrics: C47, C103. *)
From Coq Require Import String List Arith Bool Lia Sorted.
From Verif Require Import Num Py RegistryTheorems MetricRegistry MetricRegistryTheorems.
Import ListNotations.
Local Open Scope string_scope.
Local Open Scope list_scope.
Local Open Scope nat_scope.

(** C47, partial: after any history a metric that is alone with its registered name is created by that name: with force_update, on the
    first use, and after update_metrics.  Missing: names shared with another class (C47_hidden_refuted) and names that contain
    "Metric" (C47_name_refuted). *)
Theorem C47_found_partial : forall w name c, reached w -> metric (mw_classes w) name c -> (forall c', metric (mw_classes w) name c' -> c' = c) ->
  fst (create_metric name true w) = Ok c /\ (mw_dict w = [] -> forall force, fst (create_metric name force w) = Ok c) /\ fst (create_metric name false (update_metrics w)) = Ok c.
Proof. exact c47_found. Qed.

(** C47: list_metrics after an update gives exactly the registered names of the classes derived from BaseMetric. *)
Theorem C47_names : forall w name, reached w -> (In name (fst (list_metrics true w)) <-> exists c, metric (mw_classes w) name c).
Proof. exact c47_names. Qed.

(** C47: whatever classes are defined, an update loses no name that was listed before. *)
Theorem C47_kept : forall w ds name, reached w -> reached (defines w ds) -> In name (fst (list_metrics false w)) -> In name (fst (list_metrics true (defines w ds))).
Proof. exact c47_kept. Qed.

(** C47: creation raises KeyError exactly for the names no metric is registered under. *)
Theorem C47_unknown : forall w name, reached w -> (fst (create_metric name true w) = Err KeyError <-> forall c, ~ metric (mw_classes w) name c).
Proof. exact c103_unknown. Qed.

(** C47 is false: a subclass that inherits metric_name hides its parent. *)
Theorem C47_hidden_refuted : exists w name c, reached w /\ derived (mw_classes w) 0 c /\ named (mw_classes w) c name /\ name <> "" /\ without name name /\ fst (create_metric name true w) <> Ok c.
Proof. exact c47_refuted_hidden. Qed.

(** C47 is false: a class with metric_name "MyMetric" cannot be created by that name. *)
Theorem C47_name_refuted : exists w name c, reached w /\ derived (mw_classes w) 0 c /\ named (mw_classes w) c name /\ name <> "" /\ (forall c', named (mw_classes w) c' name -> c' = c) /\ fst (create_metric name true w) = Err KeyError.
Proof. exact c47_refuted_name. Qed.

(** (five classes) *)
Example C47_example : reached kld_world /\ metric (mw_classes kld_world) "moment" 4 /\ (forall c', metric (mw_classes kld_world) "moment" c' -> c' = 4) /\ fst (create_metric "moment" true kld_world) = Ok 4.
Proof. exact c47_example. Qed.

(** C103: creation with force_update gives, among all classes registered under the name, the last one of the depth-first traversal of the
    class tree in the order of definition. *)
Theorem C103_create : forall w name c, reached w -> (fst (create_metric name true w) = Ok c <-> last_metric (mw_classes w) name c).
Proof. exact c103_create. Qed.

(** C103: never a class from which another class with the same registered name is derived. *)
Theorem C103_hidden : forall w name p c, reached w -> metric (mw_classes w) name c -> derived (mw_classes w) p c -> fst (create_metric name true w) <> Ok p.
Proof. exact c103_hidden. Qed.

(** C103: after any history the dictionary is that of the classes that existed at one moment. *)
Theorem C103_snapshot : forall w, reached w -> exists k, shows w k.
Proof. exact c103_snapshot. Qed.

(** C103: creation without force_update, once the dictionary is filled, answers for the classes that existed when it was filled; it
    changes nothing. *)
Theorem C103_stale : forall w, reached w -> mw_dict w <> [] -> exists k, k <= length (mw_classes w) /\
  forall name, (forall c, fst (create_metric name false w) = Ok c <-> last_metric (firstn k (mw_classes w)) name c) /\
    (fst (create_metric name false w) = Err KeyError <-> forall c, ~ metric (firstn k (mw_classes w)) name c) /\
    snd (create_metric name false w) = w.
Proof. exact c103_stale. Qed.

(** C103: a name that can be created still can after an update; if the class behind it changes, both are registered under the name. *)
Theorem C103_keep : forall w name c, reached w -> mw_dict w <> [] -> fst (create_metric name false w) = Ok c ->
  exists c', fst (create_metric name true w) = Ok c' /\ metric (mw_classes w) name c /\ metric (mw_classes w) name c'.
Proof. exact c103_keep. Qed.

(** (a metric and a subclass with its name) *)
Example C103_example : reached kld_world /\ last_metric (mw_classes kld_world) "kld" 3 /\ metric (mw_classes kld_world) "kld" 2 /\ derived (mw_classes kld_world) 2 3 /\ (forall c, ~ metric (mw_classes kld_world) "ks" c).
Proof. exact c103_example. Qed.

(** (a class defined after the dictionary was filled) *)
Example C103_stale_example : let w := define [1] "brier" (update_metrics kld_world) in
  reached w /\ mw_dict w <> [] /\ fst (create_metric "brier" false w) = Err KeyError /\ fst (create_metric "brier" true w) = Ok 5 /\ fst (create_metric "kld" false w) = Ok 3.
Proof. exact c103_stale_example. Qed.

Print Assumptions C47_found_partial.
Print Assumptions C47_names.
Print Assumptions C47_kept.
Print Assumptions C47_unknown.
Print Assumptions C47_hidden_refuted.
Print Assumptions C47_name_refuted.
Print Assumptions C103_create.
Print Assumptions C103_hidden.
Print Assumptions C103_snapshot.
Print Assumptions C103_stale.
Print Assumptions C103_keep.
