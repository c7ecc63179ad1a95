(** Conversions by way of random samples: C123 and C124.  [rvs]: the samples drawn; [gauss_fit]: the fit of sklearn. *)
From Coq Require Import String List Arith ZArith Bool Lia Reals Lra.
From Coquelicot Require Import Coquelicot.
From Verif Require Import Num NumProofs Py NdArray NumpyLib Utils ScipyWrap Spec Values Ensemble Classes Registry Convert SampleConvert
  InterpProofs MixmodTheorems Kinds KindInputs EnsembleTheorems IntegrateTheorems ConvertTheorems SampleConvertTheorems SampleConvertExamples.
Import ListNotations.
Local Open Scope string_scope.
Local Open Scope list_scope.
Local Open Scope R_scope.

(** C123: the probability of a bin in the histogram made from samples is its count times its width, divided by the sum of these over the bins. *)
Theorem C123_formula : forall X rvs mf xy,
  forall e bins L n size, fill_outside X -> increasing bins -> (2 <= length bins)%nat -> L <> [] -> (forall l, In l L -> length l = n) ->
    rvs e size VNone = Ok L -> (forall l, In l L -> 0 < caught l bins) -> (length L <> pred (length bins) \/ n = pred (length bins)) ->
    exists e' G, factory_convert (QH X (extract_hist_samples rvs) mf xy) (QW X (extract_hist_samples rvs) mf xy) e "hist" (by_samples [("bins", VArr (nd1 bins)); ("size", size)]) = Ok e' /\
      made X [MPdf; MCdf; MPpf] e' /\ g_name (e_obj e') = "hist" /\ source e' (length L) G /\
      forall r i, (r < length L)%nat -> (i < pred (length bins))%nat ->
        prob G bins r i * rsum (pred (length bins)) (fun j => hits (nth r L []) bins j * width bins j) = hits (nth r L []) bins i * width bins i.
Proof. exact c123_formula. Qed.

(** C123: for bins of equal width it is the fraction of the samples in range that fall into the bin. *)
Theorem C123_uniform : forall X rvs mf xy,
  forall e bins L n size w, fill_outside X -> increasing bins -> (2 <= length bins)%nat -> L <> [] -> (forall l, In l L -> length l = n) ->
    rvs e size VNone = Ok L -> (forall l, In l L -> 0 < caught l bins) -> (length L <> pred (length bins) \/ n = pred (length bins)) ->
    (forall i, (i < pred (length bins))%nat -> width bins i = w) ->
    exists e' G, factory_convert (QH X (extract_hist_samples rvs) mf xy) (QW X (extract_hist_samples rvs) mf xy) e "hist" (by_samples [("bins", VArr (nd1 bins)); ("size", size)]) = Ok e' /\ source e' (length L) G /\
      forall r i, (r < length L)%nat -> (i < pred (length bins))%nat -> prob G bins r i = hits (nth r L []) bins i / caught (nth r L []) bins.
Proof. exact c123_uniform. Qed.

(** C123: as many PDFs as bins, and another number of samples per PDF: ValueError. *)
Theorem C123_same_number : forall X rvs mf xy,
  forall e bins L n size, rvs e size VNone = Ok L -> (forall l, In l L -> length l = n) ->
    length L = pred (length bins) -> n <> length L ->
    factory_convert (QH X (extract_hist_samples rvs) mf xy) (QW X (extract_hist_samples rvs) mf xy) e "hist" (by_samples [("bins", VArr (nd1 bins)); ("size", size)]) = Err ValueError.
Proof. exact c123_same_number. Qed.

(** C123: no edges, or edges that decrease somewhere: ValueError. *)
Theorem C123_edges : forall X rvs mf xy,
  forall e bins size,
    factory_convert (QH X (extract_hist_samples rvs) mf xy) (QW X (extract_hist_samples rvs) mf xy) e "hist" (by_samples [("size", size)]) = Err ValueError /\
    (forall L i, rvs e size VNone = Ok L -> (S i < length bins)%nat -> nth0 (S i) bins < nth0 i bins ->
       factory_convert (QH X (extract_hist_samples rvs) mf xy) (QW X (extract_hist_samples rvs) mf xy) e "hist" (by_samples [("bins", VArr (nd1 bins)); ("size", size)]) = Err ValueError).
Proof. exact c123_edges. Qed.

(** C123: without [size], 1000 samples are drawn per PDF. *)
Theorem C123_default_size : forall X rvs mf xy e bins,
  factory_convert (QH X (extract_hist_samples rvs) mf xy) (QW X (extract_hist_samples rvs) mf xy) e "hist" (by_samples [("bins", VArr (nd1 bins))]) =
  factory_convert (QH X (extract_hist_samples rvs) mf xy) (QW X (extract_hist_samples rvs) mf xy) e "hist" (by_samples [("bins", VArr (nd1 bins)); ("size", VNum 1000)]).
Proof. exact c123_default_size. Qed.

(** (two PDFs with four samples each, three bins of different widths: the probability of the last bin is 2/3, its relative frequency 1/3) *)
Example C123_example : exists e, made scipy0 (input_methods hist0) e /\
  (forall l, In l drawn -> 0 < caught l [0; 3/5; 1; 3]) /\ length drawn <> 3%nat /\ (forall l, In l drawn -> length l = 4%nat) /\
  hits (nth 0 drawn []) [0; 3/5; 1; 3] 0 = 1 /\ hits (nth 0 drawn []) [0; 3/5; 1; 3] 2 = 1 /\ caught (nth 0 drawn []) [0; 3/5; 1; 3] = 3 /\
  exists e' G, factory_convert (QH scipy0 (extract_hist_samples rvs0) (extract_fit (T := R)) (extract_fit (T := R))) (QW scipy0 (extract_hist_samples rvs0) (extract_fit (T := R)) (extract_fit (T := R)))
      e "hist" (by_samples [("bins", VArr (nd1 [0; 3/5; 1; 3])); ("size", VNum 4)]) = Ok e' /\ source e' 2 G /\
    prob G [0; 3/5; 1; 3] 0 2 = 2/3.
Proof. exact c123_example. Qed.

Example C123_same_number_example : exists e, made scipy0 (input_methods hist0) e /\ (forall l, In l drawn -> length l = 4%nat) /\ length drawn = pred (length [0; 1; 3]) /\
  factory_convert (QH scipy0 (extract_hist_samples rvs0) (extract_fit (T := R)) (extract_fit (T := R))) (QW scipy0 (extract_hist_samples rvs0) (extract_fit (T := R)) (extract_fit (T := R)))
      e "hist" (by_samples [("bins", VArr (nd1 [0; 1; 3])); ("size", VNum 4)]) = Err ValueError.
Proof. exact c123_same_number_example. Qed.

(** C124: the converted ensemble evaluates, for every PDF, the mixture fitted to the samples of that PDF, with standard deviations the square roots of the variances. *)
Theorem C124_mixture : forall X rvs gauss_fit hs xy,
  forall e k L fits nc ns rs, fill_outside X -> normal_laws (s_phi X) (s_Phi X) -> (0 < k)%nat ->
    rvs e ns rs = Ok L -> L <> [] -> length fits = length L ->
    (forall r, (r < length L)%nat -> gauss_fit nc (nth r L []) = Ok (nth r fits ([], [], [])) /\ fitted k (nth r fits ([], [], []))) ->
    exists e' f F, factory_convert (QH X hs (extract_mixmod_fit_samples rvs gauss_fit sqrt) xy) (QW X hs (extract_mixmod_fit_samples rvs gauss_fit sqrt) xy) e "mixmod" (asked nc ns rs) = Ok e' /\ made X [MPdf; MCdf] e' /\ g_name (e_obj e') = "mixmod" /\
      g_shape (e_obj e') = [length L] /\ evaluates (ens_pdf e') (length L) f /\ evaluates (ens_cdf e') (length L) F /\
      forall r w m v, (r < length L)%nat -> gauss_fit nc (nth r L []) = Ok (w, m, v) -> forall x,
        f r x = rsum k (fun i => nth0 i w * (s_phi X ((x - nth0 i m) / sqrt (nth0 i v)) / sqrt (nth0 i v))) /\
        F r x = rsum k (fun i => nth0 i w * s_Phi X ((x - nth0 i m) / sqrt (nth0 i v))).
Proof. exact c124_mixture. Qed.

(** C124: a fit that raises makes the conversion raise the same exception. *)
Theorem C124_fit_error : forall X rvs gauss_fit hs xy,
  forall e L nc ns rs r x, rvs e ns rs = Ok L -> (r < length L)%nat -> gauss_fit nc (nth r L []) = Err x ->
    (forall q, (q < r)%nat -> exists f, gauss_fit nc (nth q L []) = Ok f) ->
    factory_convert (QH X hs (extract_mixmod_fit_samples rvs gauss_fit sqrt) xy) (QW X hs (extract_mixmod_fit_samples rvs gauss_fit sqrt) xy) e "mixmod" (asked nc ns rs) = Err x.
Proof. exact c124_fit_error. Qed.

(** C124: without keywords, three components and 1000 samples per PDF. *)
Theorem C124_defaults : forall X rvs fit hs xy e,
  factory_convert (QH X hs (extract_mixmod_fit_samples rvs fit sqrt) xy) (QW X hs (extract_mixmod_fit_samples rvs fit sqrt) xy) e "mixmod" [] =
  factory_convert (QH X hs (extract_mixmod_fit_samples rvs fit sqrt) xy) (QW X hs (extract_mixmod_fit_samples rvs fit sqrt) xy) e "mixmod" (asked (VNum 3) (VNum 1000) VNone).
Proof. exact c124_defaults. Qed.

(** (two components, two PDFs; the logistic law in the place of the normal one) *)
Example C124_example : exists e fits, made scipy1 (input_methods hist0) e /\ fill_outside scipy1 /\ normal_laws (s_phi scipy1) (s_Phi scipy1) /\
  rvs0 e (VNum 4) VNone = Ok drawn /\ length fits = length drawn /\
  forall r, (r < length drawn)%nat -> fit0 (VNum 2) (nth r drawn []) = Ok (nth r fits ([], [], [])) /\ fitted 2 (nth r fits ([], [], [])).
Proof. exact c124_example. Qed.

Print Assumptions C123_formula.
Print Assumptions C123_uniform.
Print Assumptions C123_same_number.
Print Assumptions C123_edges.
Print Assumptions C123_default_size.
Print Assumptions C124_mixture.
Print Assumptions C124_fit_error.
Print Assumptions C124_defaults.
