(** Model of qp/metrics/pit.py. *)
From Coq Require Import String List Arith ZArith Bool.
From Verif Require Import Num Py NdArray NumpyLib ScipyWrap Values Ensemble QuantPdf Fit PointMetrics.
Import ListNotations.
Local Open Scope string_scope.
Local Open Scope list_scope.

Section Pit.
  Context {T : Type} {N : Num T}.
  Local Open Scope num_scope.

  (** [np.squeeze] of the answer to a column of points; one entry alone becomes a 0-d array, whose [len] (pit.py 48) is a
      TypeError. *)
  Definition squeeze_column (t : list (list (xnum T))) : res (list (xnum T)) :=
    match t with
    | [[_]] => Err TypeError
    | [row] => Ok row
    | _ => if forallb (fun row => (length row =? 1)%nat) t then Ok (concat t) else Err NotModelled
    end.
  (** pit.py 175-189 [_gather_pit_samples]; [np.vstack] of nothing is a ValueError.  What is not finite becomes 0. *)
  Definition gather_pit_samples (e : ens T) (true_vals : list T) : res (list T) :=
    match true_vals with
    | [] => Err ValueError
    | _ => let* t := ens_cdf e (PMat (map (fun x => [x]) true_vals)) in
           let* s := squeeze_column t in
           Ok (map (fun v => match v with Fin x => x | _ => n0 end) s)
    end.

  (** The index [np.unique(l, return_index=True)] reports: the first one *)
  Fixpoint first_index (v : T) (l : list T) : nat :=
    match l with [] => O | x :: r => if x =? v then O else S (first_index v r) end.
  (** pit.py 48-54: the grid actually used *)
  Definition pit_grid (samples grid : list T) : list T :=
    if (length samples <? length grid)%nat then np_linspace n0 n1 (length samples) else grid.
  (** pit.py 56, 193-197, 207-224: the quantiles that are kept and where they lie *)
  Definition pit_table (samples grid : list T) : res (list T * list T) :=
    let g := pit_grid samples grid in
    let* data := mapM (np_quantile samples) g in
    let kept := filter (fun v => (n0 <? v) && (v <? n1)) (np_unique data) in
    Ok (map (fun v => nth0 (first_index v data) g) kept, kept).
  (** pit.py 199-205; [create] is [qp.quant.create] *)
  Definition pit_ensemble (create : vdict T -> res (gobj T)) (samples grid : list T) : res (ens T) :=
    let* ql := pit_table samples grid in
    ens_new create [("quants", VArr (nd1 (fst ql))); ("locs", VArr (nd2 (length (snd ql)) [snd ql]))] None.
  (** pit.py 32-58 [__init__]: the attributes [_pit_samps] and [_pit] *)
  Definition pit_new (create : vdict T -> res (gobj T)) (e : ens T) (true_vals grid : list T) : res (list T * ens T) :=
    let* s := gather_pit_samples e true_vals in
    let* p := pit_ensemble create s grid in
    Ok (s, p).

  (** pit.py 226-252 [_trim_pit_values] *)
  Definition trim_pit_values (samples : list T) (lo hi : T) : list T := filter (fun v => (lo <=? v) && (v <=? hi)) samples.
  (** [stats.uniform.cdf] *)
  Definition uniform_cdf (x : T) : T := nclip n0 n1 x.
  (** pit.py 145-155 [evaluate_PIT_KS]: the statistic of [stats.kstest].  TRUSTED: scipy computes the larger of the two one-sided
      distances of the sorted sample. *)
  Definition pit_ks (samples : list T) : res (xnum T) := ks_line (map uniform_cdf (np_sort samples)).
  (** pit.py 131-143 [evaluate_PIT_CvM]; scipy raises ValueError for fewer than two values *)
  Definition pit_cvm (samples : list T) : res (xnum T) :=
    if (length samples <? 2)%nat then Err ValueError else cvm_line (map uniform_cdf (np_sort samples)).
  (** pit.py 157-173 [evaluate_PIT_outlier_rate]: see [calculate_outlier_rate]; the first entry of its answer *)
End Pit.
