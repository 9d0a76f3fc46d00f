(** * The functions of the user guide, as syntax trees

    GENERATED from /repo/doc/user_guide by /verif/tools/guide2coq.py: do not edit.  sha256 of the sources:
    e8dc54a0ba144a588ac7092011a7beb57d4a0dd9c6694750fc02b4c9000cc476  how-to-use.rst
    c95d1f6db96041c27a3e0dfb94cc6b247a757b466b89738b8f4cfb174919a971  jacobian.rst
*)
From Coq Require Import ZArith List String.
From Verif Require Import PySyntax GuideSyntax.
Import ListNotations.
Local Open Scope string_scope.

(** how-to-use.rst *)
Definition how_to_use : gdoc := GDoc
  [("choclo.prism", "gravity_u")]
  [(* how-to-use.rst:70 *)
   GDef "gravity_upward_slow" Interpreted ["coordinates"; "prisms"; "densities"] [
    GAssign ["easting"; "northing"; "upward"] (GSubscript (GName "coordinates") GSlice);
    GAssign ["result"] (GCall (GAttribute (GName "np") "zeros_like") [(GName "easting")] [("dtype", (GAttribute (GName "np") "float64"))]);
    GFor "i" (GCall (GName "range") [(GCall (GName "len") [(GName "easting")] [])] []) [
      GFor "j" (GCall (GName "range") [(GSubscript (GAttribute (GName "prisms") "shape") (GInt 0))] []) [
        GAugItem "result" (GName "i") Add (GCall (GName "gravity_u") [(GSubscript (GName "easting") (GName "i")); (GSubscript (GName "northing") (GName "i")); (GSubscript (GName "upward") (GName "i")); (GStarred (GSubscript (GName "prisms") (GTuple [(GName "j"); GSlice]))); (GSubscript (GName "densities") (GName "j"))] [])]];
    GReturn (GName "result")];
   (* how-to-use.rst:124 *)
   GDef "gravity_upward_jit" Jit ["coordinates"; "prisms"; "densities"] [
    GAssign ["easting"; "northing"; "upward"] (GSubscript (GName "coordinates") GSlice);
    GAssign ["result"] (GCall (GAttribute (GName "np") "zeros_like") [(GName "easting")] [("dtype", (GAttribute (GName "np") "float64"))]);
    GFor "i" (GCall (GName "range") [(GCall (GName "len") [(GName "easting")] [])] []) [
      GFor "j" (GCall (GName "range") [(GSubscript (GAttribute (GName "prisms") "shape") (GInt 0))] []) [
        GAugItem "result" (GName "i") Add (GCall (GName "gravity_u") [(GSubscript (GName "easting") (GName "i")); (GSubscript (GName "northing") (GName "i")); (GSubscript (GName "upward") (GName "i")); (GSubscript (GName "prisms") (GTuple [(GName "j"); (GInt 0)])); (GSubscript (GName "prisms") (GTuple [(GName "j"); (GInt 1)])); (GSubscript (GName "prisms") (GTuple [(GName "j"); (GInt 2)])); (GSubscript (GName "prisms") (GTuple [(GName "j"); (GInt 3)])); (GSubscript (GName "prisms") (GTuple [(GName "j"); (GInt 4)])); (GSubscript (GName "prisms") (GTuple [(GName "j"); (GInt 5)])); (GSubscript (GName "densities") (GName "j"))] [])]];
    GReturn (GName "result")];
   (* how-to-use.rst:196 *)
   GDef "gravity_upward_parallel" JitParallel ["coordinates"; "prisms"; "densities"] [
    GAssign ["easting"; "northing"; "upward"] (GSubscript (GName "coordinates") GSlice);
    GAssign ["result"] (GCall (GAttribute (GName "np") "zeros_like") [(GName "easting")] [("dtype", (GAttribute (GName "np") "float64"))]);
    GFor "i" (GCall (GAttribute (GName "numba") "prange") [(GCall (GName "len") [(GName "easting")] [])] []) [
      GFor "j" (GCall (GName "range") [(GSubscript (GAttribute (GName "prisms") "shape") (GInt 0))] []) [
        GAugItem "result" (GName "i") Add (GCall (GName "gravity_u") [(GSubscript (GName "easting") (GName "i")); (GSubscript (GName "northing") (GName "i")); (GSubscript (GName "upward") (GName "i")); (GSubscript (GName "prisms") (GTuple [(GName "j"); (GInt 0)])); (GSubscript (GName "prisms") (GTuple [(GName "j"); (GInt 1)])); (GSubscript (GName "prisms") (GTuple [(GName "j"); (GInt 2)])); (GSubscript (GName "prisms") (GTuple [(GName "j"); (GInt 3)])); (GSubscript (GName "prisms") (GTuple [(GName "j"); (GInt 4)])); (GSubscript (GName "prisms") (GTuple [(GName "j"); (GInt 5)])); (GSubscript (GName "densities") (GName "j"))] [])]];
    GReturn (GName "result")]].

(** jacobian.rst *)
Definition jacobian : gdoc := GDoc
  [("choclo.prism", "gravity_u")]
  [(* jacobian.rst:69 *)
   GDef "build_jacobian" JitParallel ["coordinates"; "prisms"] [
    GAssign ["easting"; "northing"; "upward"] (GSubscript (GName "coordinates") GSlice);
    GAssign ["n_coords"] (GAttribute (GName "easting") "size");
    GAssign ["n_prisms"] (GSubscript (GAttribute (GName "prisms") "shape") (GInt 0));
    GAssign ["jacobian"] (GCall (GAttribute (GName "np") "empty") [(GTuple [(GName "n_coords"); (GName "n_prisms")])] [("dtype", (GAttribute (GName "np") "float64"))]);
    GFor "i" (GCall (GAttribute (GName "numba") "prange") [(GCall (GName "len") [(GName "easting")] [])] []) [
      GFor "j" (GCall (GName "range") [(GSubscript (GAttribute (GName "prisms") "shape") (GInt 0))] []) [
        GSetItem "jacobian" (GTuple [(GName "i"); (GName "j")]) (GCall (GName "gravity_u") [(GSubscript (GName "easting") (GName "i")); (GSubscript (GName "northing") (GName "i")); (GSubscript (GName "upward") (GName "i")); (GSubscript (GName "prisms") (GTuple [(GName "j"); (GInt 0)])); (GSubscript (GName "prisms") (GTuple [(GName "j"); (GInt 1)])); (GSubscript (GName "prisms") (GTuple [(GName "j"); (GInt 2)])); (GSubscript (GName "prisms") (GTuple [(GName "j"); (GInt 3)])); (GSubscript (GName "prisms") (GTuple [(GName "j"); (GInt 4)])); (GSubscript (GName "prisms") (GTuple [(GName "j"); (GInt 5)])); (GFloat 10 10)] [])]];
    GReturn (GName "jacobian")];
   (* jacobian.rst:193 *)
   GDef "gravity_upward_parallel" JitParallel ["coordinates"; "prisms"; "densities"] [
    GAssign ["easting"; "northing"; "upward"] (GSubscript (GName "coordinates") GSlice);
    GAssign ["result"] (GCall (GAttribute (GName "np") "zeros_like") [(GName "easting")] [("dtype", (GAttribute (GName "np") "float64"))]);
    GFor "i" (GCall (GAttribute (GName "numba") "prange") [(GCall (GName "len") [(GName "easting")] [])] []) [
      GFor "j" (GCall (GName "range") [(GSubscript (GAttribute (GName "prisms") "shape") (GInt 0))] []) [
        GAugItem "result" (GName "i") Add (GCall (GName "gravity_u") [(GSubscript (GName "easting") (GName "i")); (GSubscript (GName "northing") (GName "i")); (GSubscript (GName "upward") (GName "i")); (GSubscript (GName "prisms") (GTuple [(GName "j"); (GInt 0)])); (GSubscript (GName "prisms") (GTuple [(GName "j"); (GInt 1)])); (GSubscript (GName "prisms") (GTuple [(GName "j"); (GInt 2)])); (GSubscript (GName "prisms") (GTuple [(GName "j"); (GInt 3)])); (GSubscript (GName "prisms") (GTuple [(GName "j"); (GInt 4)])); (GSubscript (GName "prisms") (GTuple [(GName "j"); (GInt 5)])); (GSubscript (GName "densities") (GName "j"))] [])]];
    GReturn (GName "result")]].

