(** Model of qp/metrics/factory.py. *)
From Coq Require Import String List Arith Bool.
From Verif Require Import Num Py.
Import ListNotations.
Local Open Scope string_scope.
Local Open Scope list_scope.
Local Open Scope nat_scope.

(** A metric class: its bases and the value of its attribute [metric_name], own or inherited through the method resolution order
    of Python, which is not modelled: the value is given with the class.  None is written "" (both are falsy, factory.py 26). *)
Record mclass := mkmclass { mc_bases : list nat; mc_name : string }.
(** All classes in the order in which they were defined, number 0 is BaseMetric; and [MetricFactory.metric_dict].
    SIMPLIFICATION: no class is ever garbage collected. *)
Record mworld := mkmworld { mw_classes : list mclass; mw_dict : dict string nat }.

(** [cls.__subclasses__()]: in the order of definition *)
Definition subclasses (cs : list mclass) (c : nat) : list nat :=
  filter (fun i => existsb (Nat.eqb c) (mc_bases (nth i cs (mkmclass [] "")))) (seq 0 (length cs)).
(** factory.py 4-12 [get_all_subclasses]; the recursion ends because a class is defined after its bases *)
Fixpoint all_subclasses (fuel : nat) (cs : list mclass) (c : nat) : list nat :=
  match fuel with
  | O => []
  | S fuel => flat_map (fun s => s :: all_subclasses fuel cs s) (subclasses cs c)
  end.
Definition get_all_subclasses (cs : list mclass) (c : nat) : list nat := all_subclasses (length cs) cs c.

(** [s.replace("Metric", "")]; [k] characters are still to be skipped *)
Fixpoint strip_from (k : nat) (s : string) : string :=
  match s with
  | EmptyString => EmptyString
  | String a r =>
      match k with
      | S k => strip_from k r
      | O => if prefix "Metric" s then strip_from 5 r else String a (strip_from 0 r)
      end
  end.
Definition strip (s : string) : string := strip_from 0 s.

Definition name_of (cs : list mclass) (c : nat) : string := mc_name (nth c cs (mkmclass [] "")).
(** factory.py 22-27: the dictionary comprehension, later entries overwrite earlier ones *)
Definition metrics_of (cs : list mclass) : dict string nat :=
  fold_left (fun d c => if String.eqb (name_of cs c) "" then d else dset String.eqb d (strip (name_of cs c)) c)
    (get_all_subclasses cs 0) [].
(** factory.py 18-27 *)
Definition update_metrics (w : mworld) : mworld := mkmworld (mw_classes w) (metrics_of (mw_classes w)).
(** factory.py 32-33, 41-42, 48-49 *)
Definition refresh (force : bool) (w : mworld) : mworld :=
  match mw_dict w with [] => update_metrics w | _ => if force then update_metrics w else w end.
(** factory.py 38-43 *)
Definition list_metrics (force : bool) (w : mworld) : list string * mworld :=
  let w := refresh force w in (map fst (mw_dict w), w).
(** factory.py 45-56: the class that is instantiated.  The message of the KeyError calls [list_metrics()] once more. *)
Definition create_metric (name : string) (force : bool) (w : mworld) : res nat * mworld :=
  let w := refresh force w in
  match dget String.eqb (mw_dict w) name with
  | Some c => (Ok c, w)
  | None => (Err KeyError, snd (list_metrics false w))
  end.
(** A class statement; the bases exist already *)
Definition define (bases : list nat) (name : string) (w : mworld) : mworld :=
  mkmworld (mw_classes w ++ [mkmclass bases name]) (mw_dict w).

(** What a program may do *)
Inductive mcall := CDefine (bases : list nat) (name : string) | CUpdate | CList (force : bool) | CCreate (name : string) (force : bool).
Definition mstep (w : mworld) (c : mcall) : mworld :=
  match c with
  | CDefine bases name => define bases name w
  | CUpdate => update_metrics w
  | CList force => snd (list_metrics force w)
  | CCreate name force => snd (create_metric name force w)
  end.
(** qp as imported: BaseMetric alone and an empty dictionary (class attribute, factory.py 16) *)
Definition mstart : mworld := mkmworld [mkmclass [] ""] [].
