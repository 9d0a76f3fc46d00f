(** * Equivalent sources: specification vocabulary for C101 *)
From Coq Require Import Reals List.
From Verif Require Import Arith RealArith Spec SpecAPI SpecMesh SpecHarmonic.
Import ListNotations.
Local Open Scope R_scope.

(** A survey is a list of data points (easting, northing), all at one height [z].  Its equivalent
    sources are point masses, one below each data point, all at the depth [z - h]. *)
Definition equivalent_sources (survey : list (R * R)) (z h : R) (m : R * R -> R) : list ((R * R * R) * R) :=
  map (fun q => ((fst q, snd q, z - h), m q)) survey.

(** [d] are the values of the function [f] for those sources at the data points. *)
Definition data_of (f : xr -> xr -> xr -> xr -> xr -> xr -> xr -> res xr) (survey : list (R * R)) (z h : R) (m d : R * R -> R) : Prop :=
  forall p, In p survey -> total (for_mass f (fst p) (snd p) z) (equivalent_sources survey z h m) (d p).

(** The sum over the survey of a quantity of its points. *)
Definition sum_over (survey : list (R * R)) (g : R * R -> R) : R := fold_right (fun p s => g p + s) 0 survey.
