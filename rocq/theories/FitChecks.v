(** Model of the checks in qp/metrics/metrics.py (465-531) and of the functions that run them and log what they raise. *)
From Coq Require Import String List Arith ZArith Bool.
From Verif Require Import Num Py NdArray NumpyLib ScipyWrap Values Ensemble Metrics Fit.
Import ListNotations.
Local Open Scope string_scope.
Local Open Scope list_scope.

Section Checks.
  Context {T : Type} {N : Num T}.
  Variable nlog : T -> T.
  Variable class_create : string -> option (vdict T -> res (gobj T)).

  (** 465-476 [_check_ensembles_are_same_size] *)
  Definition same_size (p q : ens T) : res unit := if (e_npdf p =? e_npdf q)%nat then Ok tt else Err ValueError.
  (** 479-492 [_check_ensemble_is_not_nested]: the loop over the ensemble (see [iterate_from]) stops at the first one of several PDFs *)
  Fixpoint not_nested_from (e : ens T) (i fuel : nat) : option (res unit) :=
    match fuel with
    | O => None
    | S f =>
        match getitem class_create e (KInt (Z.of_nat i)) with
        | Ok p => if (e_npdf p =? 1)%nat then not_nested_from e (S i) f else Some (Err ValueError)
        | Err IndexError => Some (Ok tt)
        | Err x => Some (Err x)
        end
    end.
  (** 495-531 *)
  Definition correct_number (estimate reference : ens T) : res unit :=
    if (e_npdf estimate =? e_npdf reference)%nat then Ok tt else if (e_npdf reference =? 1)%nat then Ok tt else Err ValueError.

  Inductive warning := WNumber | WEstimate | WReference | WNested.
  (** [try: check() except ValueError: logging.warning(...)]: None when the check has not ended, otherwise the warnings or the exception
      that escapes *)
  Definition logged (check : option (res unit)) (w : warning) : option (res (list warning)) :=
    match check with
    | None => None
    | Some (Ok _) => Some (Ok [])
    | Some (Err ValueError) => Some (Ok [w])
    | Some (Err x) => Some (Err x)
    end.
  Definition after {A} (a : option (res (list warning))) (k : option (list warning * res A)) : option (list warning * res A) :=
    match a with
    | None => None
    | Some (Err x) => Some ([], Err x)
    | Some (Ok w) => match k with Some (v, r) => Some (w ++ v, r) | None => None end
    end.
  (** 382-462 [calculate_goodness_of_fit]: the warnings and the result.  [samples] is what [estimate.rvs(size=num_samples, ...)] returns.
      The warnings before an exception that a check does not catch are dropped. *)
  Definition goodness_of_fit (estimate reference : ens T) (fit_metric : string) (samples : res (list (list T))) (fuel : nat)
    : option (list warning * res (list (xnum T))) :=
    after (logged (Some (correct_number estimate reference)) WNumber)                                      (* 427-435 *)
   (after (logged (not_nested_from estimate 0 fuel) WEstimate)                                             (* 437-444 *)
   (after (logged (not_nested_from reference 0 fuel) WReference)                                           (* 446-453 *)
   (Some ([], match fit_metrics nlog fit_metric with
              | None => Err KeyError                                                                       (* 455-457 *)
              | Some _ => let* s := samples in calculate_goodness_of_fit nlog s reference fit_metric       (* 459-462 *)
              end)))).
  (** 354-379 [calculate_outlier_rate] with its check *)
  Definition outlier_rate_logged (p : ens T) (lo hi : T) (fuel : nat) : option (list warning * res (list (xnum T))) :=
    after (logged (not_nested_from p 0 fuel) WNested)
      (match calculate_outlier_rate class_create p lo hi fuel with Some r => Some ([], r) | None => None end).
End Checks.
