(** * Bodies that move: specification vocabulary *)
From Coq Require Import Reals List.
From Verif Require Import Arith RealArith Spec SpecAPI SpecMesh.
Import ListNotations.
Local Open Scope R_scope.

(** The prism, or the body, displaced by (a, c, d). *)
Definition displaced (a c d : R) (p : prism) : prism :=
  Prism (west p + a) (east p + a) (south p + c) (north p + c) (bottom p + d) (top p + d).
Definition body_displaced (a c d : R) (l : body) : body := map (fun q => (displaced a c d (fst q), snd q)) l.
