(** * Integrals over the faces of a prism: specification vocabulary *)
From Coq Require Import Reals.
From Verif Require Import Arith RealArith Spec SpecFlux.
Local Open Scope R_scope.

(** [is_face_integrals F w e s n b t E W N S T B]: the integrals over the six faces of the numbers
    returned by [F], a call for a source at the point of the face. *)
Definition is_face_integrals (F : R -> R -> R -> res xr) (w e s n b t : R) (E W N S T B : R) : Prop :=
  is_surface_integral (fun v u => F e v u) s n b t E /\ is_surface_integral (fun v u => F w v u) s n b t W /\
  is_surface_integral (fun v u => F v n u) w e b t N /\ is_surface_integral (fun v u => F v s u) w e b t S /\
  is_surface_integral (fun v u => F v u t) w e s n T /\ is_surface_integral (fun v u => F v u b) w e s n B.

(** [V], a call for a prism with the given boundaries, has derivatives with respect to the six
    boundaries, and they are the integrals of [F] over the face that moves, with the sign of
    the change of volume. *)
Definition has_boundary_derivatives (V : R -> R -> R -> R -> R -> R -> res xr) (F : R -> R -> R -> res xr) (w e s n b t : R) : Prop :=
  exists E W N S T B, is_face_integrals F w e s n b t E W N S T B /\
  has_derivative (fun e => V w e s n b t) e E /\ has_derivative (fun w => V w e s n b t) w (- W) /\
  has_derivative (fun n => V w e s n b t) n N /\ has_derivative (fun s => V w e s n b t) s (- S) /\
  has_derivative (fun t => V w e s n b t) t T /\ has_derivative (fun b => V w e s n b t) b (- B).
