(** * Points on the unit sphere (specification for haversine) *)
From Coq Require Import Reals.
Open Scope R_scope.
Definition rad (deg : R) : R := PI / 180 * deg.
(** the unit vector of a longitude and latitude in degrees *)
Definition sphere (lon lat : R) : R * R * R := (cos (rad lat) * cos (rad lon), cos (rad lat) * sin (rad lon), sin (rad lat)).
Definition dot3 (u v : R * R * R) : R := let '(x, y, z) := u in let '(x', y', z') := v in x * x' + y * y' + z * z'.
(** the angle between two unit vectors *)
Definition is_angle (t : R) (u v : R * R * R) : Prop := 0 <= t <= PI /\ cos t = dot3 u v.
