(** Model of the summary statistics of the probability integral transform: metrics/array_metrics.py 11-28 and
    metrics/pit.py 83-129, 157-173. *)
From Coq Require Import String List Arith ZArith Bool.
From Verif Require Import Num Py NdArray NumpyLib ScipyWrap Values Ensemble QuantPdf Fit PointMetrics Metrics Pit.
Import ListNotations.
Local Open Scope string_scope.
Local Open Scope list_scope.

Section PitMeta.
  Context {T : Type} {N : Num T}.
  Local Open Scope num_scope.
  (** [math.sqrt] *)
  Variable nsqrt : T -> T.

  (** TRUSTED: scipy's [_anderson_ksamp_midrank].  The weight of one value: 1 if no two observations agree, else how many
      there are. *)
  Definition ksamp_lj (Z Zstar : list T) (z : T) : T :=
    if (length Z =? length Zstar)%nat then n1 else of_nat (searchsorted_right Z z - searchsorted_left Z z).
  (** the summand [inner] of one value and one (sorted) sample *)
  Definition ksamp_inner (Z Zstar s : list T) (z : T) : T :=
    let lj := ksamp_lj Z Zstar z in
    let total := of_nat (length Z) in
    let Bj := of_nat (searchsorted_left Z z) + lj / of_nat 2 in
    let right := searchsorted_right s z in
    let Mij := of_nat right - of_nat (right - searchsorted_left s z) / of_nat 2 in
    let d := total * Mij - Bj * of_nat (length s) in
    lj / total * (d * d) / (Bj * (total - Bj) - total * lj / of_nat 4).
  (** the sum over values and samples *)
  Definition ksamp_midrank (samples : list (list T)) (Z Zstar : list T) : T :=
    let A2 := fold_left (fun acc s => acc + nsum (map (ksamp_inner Z Zstar (np_sort s)) Zstar) / of_nat (length s)) samples n0 in
    A2 * ((of_nat (length Z) - n1) / of_nat (length Z)).
  (** [1. / arange(N - 1, 1, -1)] *)
  Definition ksamp_inverses (total : nat) : list T := map (fun i => n1 / of_nat (total - 1 - i)) (seq 0 (total - 2)).
  (** TRUSTED: the variance [sigmasq] scipy computes from [N], [k] and the sample sizes; [hs_cs[-1]] is an IndexError for two
      observations *)
  Definition ksamp_sigmasq (sizes : list nat) (total : nat) : res T :=
    let k := of_nat (length sizes) in
    let H := nsum (map (fun n => n1 / of_nat n) sizes) in
    let hs := ncumsum (ksamp_inverses total) in
    match rev hs with
    | [] => Err IndexError
    | last :: _ =>
        let h := last + n1 in
        let g := nsum (map2 (fun i x => x / of_nat (i + 2)) (seq 0 (length hs)) hs) in
        let M := of_nat total in
        let c_ z := nofZ z in
        let a := (c_ 4%Z * g - c_ 6%Z) * (k - n1) + (c_ 10%Z - c_ 6%Z * g) * H in
        let b := (c_ 2%Z * g - c_ 4%Z) * (k * k) + c_ 8%Z * h * k + (c_ 2%Z * g - c_ 14%Z * h - c_ 4%Z) * H - c_ 8%Z * h + c_ 4%Z * g - c_ 6%Z in
        let c := (c_ 6%Z * h + c_ 2%Z * g - c_ 2%Z) * (k * k) + (c_ 4%Z * h - c_ 4%Z * g + c_ 6%Z) * k + (c_ 2%Z * h - c_ 6%Z) * H + c_ 4%Z * h in
        let d := (c_ 2%Z * h + c_ 6%Z) * (k * k) - c_ 4%Z * h * k in
        if (total =? 3)%nat then Err NotModelled
        else Ok ((a * (M * M * M) + b * (M * M) + c * M + d) / ((M - n1) * (M - c_ 2%Z) * (M - c_ 3%Z)))
    end.
  (** TRUSTED: [scipy.stats.anderson_ksamp(samples)] with mid-ranks, the attribute [statistic].  A variance of 0 is a division
      of numpy numbers by 0; the square root of a negative one is a ValueError. *)
  Definition anderson_ksamp (samples : list (list T)) : res T :=
    if (length samples <? 2)%nat then Err ValueError
    else
      let Z := np_sort (concat samples) in
      let Zstar := np_unique Z in
      if (length Zstar <? 2)%nat then Err ValueError
      else if existsb (fun s => (length s =? 0)%nat) samples then Err ValueError
      else
        let A2kN := ksamp_midrank samples Z Zstar in
        let* sigmasq := ksamp_sigmasq (map (@length T) samples) (length Z) in
        if sigmasq <? n0 then Err ValueError
        else if sigmasq =? n0 then Err NotModelled
        else Ok ((A2kN - (of_nat (length samples) - n1)) / nsqrt sigmasq).

  (** array_metrics.py 11-28; without keywords *)
  Definition quick_anderson_ksamp (p q : list T) : res T := anderson_ksamp [p; q].

  (** pit.py 101-129 [evaluate_PIT_anderson_ksamp] *)
  Definition pit_ad (samples : list T) (pit_min pit_max : T) : res T :=
    let trimmed := trim_pit_values samples pit_min pit_max in
    quick_anderson_ksamp trimmed (np_linspace pit_min pit_max (length trimmed)).

  Variable class_create : string -> option (vdict T -> res (gobj T)).
  Variable fuel : nat.
  (** pit.py 157-173 [evaluate_PIT_outlier_rate]: the first entry of the answer *)
  Definition pit_outlier_rate (pit : ens T) (pit_min pit_max : T) : option (res (xnum T)) :=
    match calculate_outlier_rate class_create pit pit_min pit_max fuel with
    | Some r => Some (let* l := r in match l with x :: _ => Ok x | [] => Err IndexError end)
    | None => None
    end.
  (** pit.py 83-99 [calculate_pit_meta_metrics], with the default limits 0, 1 and 0.0001, 0.9999; of the first three the attribute
      [statistic] *)
  Definition calculate_pit_meta_metrics (samples : list T) (pit : ens T) : option (res (list (string * xnum T))) :=
    match pit_ad samples n0 n1 with
    | Err x => Some (Err x)
    | Ok ad =>
        match pit_cvm samples with
        | Err x => Some (Err x)
        | Ok cvm =>
            match pit_ks samples with
            | Err x => Some (Err x)
            | Ok ks =>
                match pit_outlier_rate pit (nfrac 1 10000) (nfrac 9999 10000) with
                | Some r => Some (let* rate := r in Ok [("ad", Fin ad); ("cvm", cvm); ("ks", ks); ("outlier_rate", rate)])
                | None => None
                end
            end
        end
    end.
End PitMeta.
