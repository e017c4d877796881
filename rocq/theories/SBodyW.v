(** What a body in water carries along. *)
From Coq Require Import Reals.
From Verif Require Import MVec MMat MLine MBody.
Open Scope R_scope.

(** the mass of water that moves with a body, by the coefficients of added mass, in the axes of the world *)
Definition water_mass (b : body) (e : envc) : m3 := rotateMass (b_Or b) (mscale (b_V b * rho_w e) (mdiag (v6hd (b_Ca b)))).
