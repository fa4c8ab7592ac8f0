(** * Specification of the magnitude distributions *)
From Coq Require Import Reals.
Open Scope R_scope.

(** distribution function of the exponential distribution with rate [beta] starting at [mc] *)
Definition exp_cdf (beta mc m : R) : R := 1 - exp (- beta * (m - mc)).
(** the same truncated at [M]: conditional on not exceeding [M] *)
Definition trunc_cdf (beta mc M m : R) : R := exp_cdf beta mc m / exp_cdf beta mc M.
