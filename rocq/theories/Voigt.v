(** The Voigt profile: what [scipy.special.voigt_profile(x, sigma, gamma)] (used in qp/sparse_rep.py 24 and 70) is meant to
    compute, the convolution of a normal density of width [sigma] with a Cauchy density of width [gamma].
    SIMPLIFICATION: the value at 0 of the profile with two widths 0 (infinity in scipy) is 0. *)
From Coq Require Import Reals.
From Coquelicot Require Import Coquelicot.
Local Open Scope R_scope.

Definition normal_density (sigma x : R) : R := exp (- (x / sigma) ^ 2 / 2) / (sigma * R_sqrt.sqrt (2 * PI)).
Definition cauchy_density (gamma x : R) : R := gamma / (PI * (x ^ 2 + gamma ^ 2)).
Definition voigtR (x sigma gamma : R) : R :=
  if Req_EM_T sigma 0 then (if Req_EM_T gamma 0 then 0 else cauchy_density gamma x)
  else if Req_EM_T gamma 0 then normal_density sigma x
  else RInt_gen (fun t => normal_density sigma t * cauchy_density gamma (x - t)) (Rbar_locally m_infty) (Rbar_locally p_infty).
