(** * Arrays in memory: specification vocabulary for C96 *)
From Coq Require Import List.
From Verif Require Import Arith GuideSemantics.

(** [v] is a float64 array of length [n] in the heap [h], with the elements [f 0], [f 1], ... *)
Definition is_array1 {A : arith} (h : heap A) (v : gvalue A) (n : nat) (f : nat -> A) : Prop :=
  exists loc off, v = GVArray loc off (n :: nil) /\ forall i, i < n -> read h loc (off + i) = GOk (f i).
(** [v] is a float64 array of shape (n, m) in C order, with the elements [f i j]. *)
Definition is_array2 {A : arith} (h : heap A) (v : gvalue A) (n m : nat) (f : nat -> nat -> A) : Prop :=
  exists loc off, v = GVArray loc off (n :: m :: nil) /\ forall i j, i < n -> j < m -> read h loc (off + i * m + j) = GOk (f i j).
