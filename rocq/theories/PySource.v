(** * The source of choclo, as syntax trees

    GENERATED from /repo/src by /verif/tools/py2coq.py: do not edit.  sha256 of the sources:
    81eda92d7a631ad9544ba318319561be115906e32dc6de23bcd48ca1ea458494  choclo/constants.py
    a4d501fa96543fabfd81963ceeab07156020c0d350a0be32cb5941af9cc47b47  choclo/utils.py
    9a4621e996db61b9a54bf8862cf8858c55367d9d9ae09e48fce9de2fef2cc538  choclo/point/__init__.py
    345181ac5409374dabcc696b04873a0eada0c9b68a2b45b627867407265f3604  choclo/point/_kernels.py
    9d7cc0361ee42f1a8f52e86b4f4d8e291a0dc5ff66cfcd155e2d066cf6ffd559  choclo/point/_forward.py
    e82268cdce71fd23257958b9e516e065ac3b5ef6feacd4b30b53d5fec8e0ce5f  choclo/dipole/__init__.py
    873cd1266f00e75f30c9c487be7310f75b01cffddd1ef52c8c9e4ad8d97da4d5  choclo/dipole/_forward.py
    416f8dd36a945cdfc85a0bce7dfbd945d7a7efe0d145fc5b0b7fdb646588de7d  choclo/prism/__init__.py
    2312bf8694dffcdf22a3d62c959c8a830d608d4e496c96095cab931dca27f58b  choclo/prism/_utils.py
    27c14a03c0d5d39bcbd46304687f6b7c559d7ac498039e2cd0874fd2e8afb2c2  choclo/prism/_kernels.py
    b50aa392db4b18124f439f8ec4b9d3214bd74dba7fb43f559ac19e3e33e8b94a  choclo/prism/_gravity.py
    4e41feee63a5d7a5997dd35d99fe17d62016db003568fe7f7f6108724163254b  choclo/prism/_magnetic.py
*)
From Coq Require Import ZArith List String.
From Verif Require Import PySyntax.
Import ListNotations.
Local Open Scope string_scope.
Local Open Scope Z_scope.

(** choclo/constants.py *)
Definition m_choclo_constants : pymodule := Module "choclo.constants"
  []
  [("GRAVITATIONAL_CONST", (Float 66743 1000000000000000)); ("VACUUM_MAGNETIC_PERMEABILITY", (Float 125663706212 100000000000000000))]
  [].

(** choclo/utils.py *)
Definition m_choclo_utils : pymodule := Module "choclo.utils"
  []
  []
  [(* utils.py:16 *)
   Def "distance_cartesian" ["easting_p"; "northing_p"; "upward_p"; "easting_q"; "northing_q"; "upward_q"] [
    Assign ["distance"] (Call (Attribute "np" "sqrt") [(BinOp (BinOp (BinOp (BinOp (Name "easting_p") Sub (Name "easting_q")) Pow (Int 2)) Add (BinOp (BinOp (Name "northing_p") Sub (Name "northing_q")) Pow (Int 2))) Add (BinOp (BinOp (Name "upward_p") Sub (Name "upward_q")) Pow (Int 2)))]);
    Return (Name "distance")];
   (* utils.py:59 *)
   Def "distance_spherical" ["longitude_p"; "latitude_p"; "radius_p"; "longitude_q"; "latitude_q"; "radius_q"] [
    Assign ["longitude_p"; "latitude_p"] (Tuple [(Call (Attribute "np" "radians") [(Name "longitude_p")]); (Call (Attribute "np" "radians") [(Name "latitude_p")])]);
    Assign ["longitude_q"; "latitude_q"] (Tuple [(Call (Attribute "np" "radians") [(Name "longitude_q")]); (Call (Attribute "np" "radians") [(Name "latitude_q")])]);
    Assign ["cosphi_p"] (Call (Attribute "np" "cos") [(Name "latitude_p")]);
    Assign ["sinphi_p"] (Call (Attribute "np" "sin") [(Name "latitude_p")]);
    Assign ["cosphi_q"] (Call (Attribute "np" "cos") [(Name "latitude_q")]);
    Assign ["sinphi_q"] (Call (Attribute "np" "sin") [(Name "latitude_q")]);
    Assign ["distance"; "_"; "_"] (Call (Name "distance_spherical_core") [(Name "longitude_p"); (Name "cosphi_p"); (Name "sinphi_p"); (Name "radius_p"); (Name "longitude_q"); (Name "cosphi_q"); (Name "sinphi_q"); (Name "radius_q")]);
    Return (Name "distance")];
   (* utils.py:130 *)
   Def "distance_spherical_core" ["longitude_p"; "cosphi_p"; "sinphi_p"; "radius_p"; "longitude_q"; "cosphi_q"; "sinphi_q"; "radius_q"] [
    Assign ["coslambda"] (Call (Attribute "np" "cos") [(BinOp (Name "longitude_q") Sub (Name "longitude_p"))]);
    Assign ["cospsi"] (BinOp (BinOp (Name "sinphi_q") Mult (Name "sinphi_p")) Add (BinOp (BinOp (Name "cosphi_q") Mult (Name "cosphi_p")) Mult (Name "coslambda")));
    Assign ["distance"] (Call (Attribute "np" "sqrt") [(BinOp (BinOp (BinOp (Name "radius_p") Sub (Name "radius_q")) Pow (Int 2)) Add (BinOp (BinOp (BinOp (Int 2) Mult (Name "radius_p")) Mult (Name "radius_q")) Mult (BinOp (Int 1) Sub (Name "cospsi"))))]);
    Return (Tuple [(Name "distance"); (Name "cospsi"); (Name "coslambda")])]].

(** choclo/point/__init__.py *)
Definition m_choclo_point : pymodule := Module "choclo.point"
  [("choclo.point._forward", "gravity_e"); ("choclo.point._forward", "gravity_ee"); ("choclo.point._forward", "gravity_en"); ("choclo.point._forward", "gravity_eu"); ("choclo.point._forward", "gravity_n"); ("choclo.point._forward", "gravity_nn"); ("choclo.point._forward", "gravity_nu"); ("choclo.point._forward", "gravity_pot"); ("choclo.point._forward", "gravity_u"); ("choclo.point._forward", "gravity_uu"); ("choclo.point._kernels", "kernel_e"); ("choclo.point._kernels", "kernel_ee"); ("choclo.point._kernels", "kernel_eee"); ("choclo.point._kernels", "kernel_een"); ("choclo.point._kernels", "kernel_eeu"); ("choclo.point._kernels", "kernel_en"); ("choclo.point._kernels", "kernel_enu"); ("choclo.point._kernels", "kernel_eu"); ("choclo.point._kernels", "kernel_n"); ("choclo.point._kernels", "kernel_nn"); ("choclo.point._kernels", "kernel_nne"); ("choclo.point._kernels", "kernel_nnn"); ("choclo.point._kernels", "kernel_nnu"); ("choclo.point._kernels", "kernel_nu"); ("choclo.point._kernels", "kernel_pot"); ("choclo.point._kernels", "kernel_u"); ("choclo.point._kernels", "kernel_uu"); ("choclo.point._kernels", "kernel_uue"); ("choclo.point._kernels", "kernel_uun"); ("choclo.point._kernels", "kernel_uuu")]
  []
  [].

(** choclo/point/_kernels.py *)
Definition m_choclo_point__kernels : pymodule := Module "choclo.point._kernels"
  []
  []
  [(* _kernels.py:15 *)
   Def "kernel_pot" ["easting_p"; "northing_p"; "upward_p"; "easting_q"; "northing_q"; "upward_q"; "distance"] [
    Return (BinOp (Int 1) Div (Name "distance"))];
   (* _kernels.py:63 *)
   Def "kernel_e" ["easting_p"; "northing_p"; "upward_p"; "easting_q"; "northing_q"; "upward_q"; "distance"] [
    Return (BinOp (USub (BinOp (Name "easting_p") Sub (Name "easting_q"))) Div (BinOp (Name "distance") Pow (Int 3)))];
   (* _kernels.py:116 *)
   Def "kernel_n" ["easting_p"; "northing_p"; "upward_p"; "easting_q"; "northing_q"; "upward_q"; "distance"] [
    Return (BinOp (USub (BinOp (Name "northing_p") Sub (Name "northing_q"))) Div (BinOp (Name "distance") Pow (Int 3)))];
   (* _kernels.py:169 *)
   Def "kernel_u" ["easting_p"; "northing_p"; "upward_p"; "easting_q"; "northing_q"; "upward_q"; "distance"] [
    Return (BinOp (USub (BinOp (Name "upward_p") Sub (Name "upward_q"))) Div (BinOp (Name "distance") Pow (Int 3)))];
   (* _kernels.py:222 *)
   Def "kernel_ee" ["easting_p"; "northing_p"; "upward_p"; "easting_q"; "northing_q"; "upward_q"; "distance"] [
    Return (BinOp (BinOp (BinOp (Int 3) Mult (BinOp (BinOp (Name "easting_p") Sub (Name "easting_q")) Pow (Int 2))) Div (BinOp (Name "distance") Pow (Int 5))) Sub (BinOp (Int 1) Div (BinOp (Name "distance") Pow (Int 3))))];
   (* _kernels.py:280 *)
   Def "kernel_nn" ["easting_p"; "northing_p"; "upward_p"; "easting_q"; "northing_q"; "upward_q"; "distance"] [
    Return (BinOp (BinOp (BinOp (Int 3) Mult (BinOp (BinOp (Name "northing_p") Sub (Name "northing_q")) Pow (Int 2))) Div (BinOp (Name "distance") Pow (Int 5))) Sub (BinOp (Int 1) Div (BinOp (Name "distance") Pow (Int 3))))];
   (* _kernels.py:338 *)
   Def "kernel_uu" ["easting_p"; "northing_p"; "upward_p"; "easting_q"; "northing_q"; "upward_q"; "distance"] [
    Return (BinOp (BinOp (BinOp (Int 3) Mult (BinOp (BinOp (Name "upward_p") Sub (Name "upward_q")) Pow (Int 2))) Div (BinOp (Name "distance") Pow (Int 5))) Sub (BinOp (Int 1) Div (BinOp (Name "distance") Pow (Int 3))))];
   (* _kernels.py:396 *)
   Def "kernel_en" ["easting_p"; "northing_p"; "upward_p"; "easting_q"; "northing_q"; "upward_q"; "distance"] [
    Return (BinOp (BinOp (BinOp (Int 3) Mult (BinOp (Name "easting_p") Sub (Name "easting_q"))) Mult (BinOp (Name "northing_p") Sub (Name "northing_q"))) Div (BinOp (Name "distance") Pow (Int 5)))];
   (* _kernels.py:451 *)
   Def "kernel_eu" ["easting_p"; "northing_p"; "upward_p"; "easting_q"; "northing_q"; "upward_q"; "distance"] [
    Return (BinOp (BinOp (BinOp (Int 3) Mult (BinOp (Name "easting_p") Sub (Name "easting_q"))) Mult (BinOp (Name "upward_p") Sub (Name "upward_q"))) Div (BinOp (Name "distance") Pow (Int 5)))];
   (* _kernels.py:507 *)
   Def "kernel_nu" ["easting_p"; "northing_p"; "upward_p"; "easting_q"; "northing_q"; "upward_q"; "distance"] [
    Return (BinOp (BinOp (BinOp (Int 3) Mult (BinOp (Name "northing_p") Sub (Name "northing_q"))) Mult (BinOp (Name "upward_p") Sub (Name "upward_q"))) Div (BinOp (Name "distance") Pow (Int 5)))];
   (* _kernels.py:562 *)
   Def "kernel_eee" ["easting_p"; "northing_p"; "upward_p"; "easting_q"; "northing_q"; "upward_q"; "distance"] [
    Assign ["easting"] (BinOp (Name "easting_p") Sub (Name "easting_q"));
    Return (BinOp (BinOp (BinOp (Int 9) Mult (Name "easting")) Div (BinOp (Name "distance") Pow (Int 5))) Sub (BinOp (BinOp (Int 15) Mult (BinOp (Name "easting") Pow (Int 3))) Div (BinOp (Name "distance") Pow (Int 7))))];
   (* _kernels.py:621 *)
   Def "kernel_nnn" ["easting_p"; "northing_p"; "upward_p"; "easting_q"; "northing_q"; "upward_q"; "distance"] [
    Assign ["northing"] (BinOp (Name "northing_p") Sub (Name "northing_q"));
    Return (BinOp (BinOp (BinOp (Int 9) Mult (Name "northing")) Div (BinOp (Name "distance") Pow (Int 5))) Sub (BinOp (BinOp (Int 15) Mult (BinOp (Name "northing") Pow (Int 3))) Div (BinOp (Name "distance") Pow (Int 7))))];
   (* _kernels.py:680 *)
   Def "kernel_uuu" ["easting_p"; "northing_p"; "upward_p"; "easting_q"; "northing_q"; "upward_q"; "distance"] [
    Assign ["upward"] (BinOp (Name "upward_p") Sub (Name "upward_q"));
    Return (BinOp (BinOp (BinOp (Int 9) Mult (Name "upward")) Div (BinOp (Name "distance") Pow (Int 5))) Sub (BinOp (BinOp (Int 15) Mult (BinOp (Name "upward") Pow (Int 3))) Div (BinOp (Name "distance") Pow (Int 7))))];
   (* _kernels.py:739 *)
   Def "kernel_een" ["easting_p"; "northing_p"; "upward_p"; "easting_q"; "northing_q"; "upward_q"; "distance"] [
    Assign ["easting"] (BinOp (Name "easting_p") Sub (Name "easting_q"));
    Assign ["northing"] (BinOp (Name "northing_p") Sub (Name "northing_q"));
    Return (BinOp (BinOp (BinOp (Int 3) Mult (Name "northing")) Div (BinOp (Name "distance") Pow (Int 5))) Sub (BinOp (BinOp (BinOp (Int 15) Mult (BinOp (Name "easting") Pow (Int 2))) Mult (Name "northing")) Div (BinOp (Name "distance") Pow (Int 7))))];
   (* _kernels.py:805 *)
   Def "kernel_eeu" ["easting_p"; "northing_p"; "upward_p"; "easting_q"; "northing_q"; "upward_q"; "distance"] [
    Assign ["easting"] (BinOp (Name "easting_p") Sub (Name "easting_q"));
    Assign ["upward"] (BinOp (Name "upward_p") Sub (Name "upward_q"));
    Return (BinOp (BinOp (BinOp (Int 3) Mult (Name "upward")) Div (BinOp (Name "distance") Pow (Int 5))) Sub (BinOp (BinOp (BinOp (Int 15) Mult (BinOp (Name "easting") Pow (Int 2))) Mult (Name "upward")) Div (BinOp (Name "distance") Pow (Int 7))))];
   (* _kernels.py:870 *)
   Def "kernel_nne" ["easting_p"; "northing_p"; "upward_p"; "easting_q"; "northing_q"; "upward_q"; "distance"] [
    Assign ["northing"] (BinOp (Name "northing_p") Sub (Name "northing_q"));
    Assign ["easting"] (BinOp (Name "easting_p") Sub (Name "easting_q"));
    Return (BinOp (BinOp (BinOp (Int 3) Mult (Name "easting")) Div (BinOp (Name "distance") Pow (Int 5))) Sub (BinOp (BinOp (BinOp (Int 15) Mult (BinOp (Name "northing") Pow (Int 2))) Mult (Name "easting")) Div (BinOp (Name "distance") Pow (Int 7))))];
   (* _kernels.py:936 *)
   Def "kernel_nnu" ["easting_p"; "northing_p"; "upward_p"; "easting_q"; "northing_q"; "upward_q"; "distance"] [
    Assign ["northing"] (BinOp (Name "northing_p") Sub (Name "northing_q"));
    Assign ["upward"] (BinOp (Name "upward_p") Sub (Name "upward_q"));
    Return (BinOp (BinOp (BinOp (Int 3) Mult (Name "upward")) Div (BinOp (Name "distance") Pow (Int 5))) Sub (BinOp (BinOp (BinOp (Int 15) Mult (BinOp (Name "northing") Pow (Int 2))) Mult (Name "upward")) Div (BinOp (Name "distance") Pow (Int 7))))];
   (* _kernels.py:1002 *)
   Def "kernel_uue" ["easting_p"; "northing_p"; "upward_p"; "easting_q"; "northing_q"; "upward_q"; "distance"] [
    Assign ["upward"] (BinOp (Name "upward_p") Sub (Name "upward_q"));
    Assign ["easting"] (BinOp (Name "easting_p") Sub (Name "easting_q"));
    Return (BinOp (BinOp (BinOp (Int 3) Mult (Name "easting")) Div (BinOp (Name "distance") Pow (Int 5))) Sub (BinOp (BinOp (BinOp (Int 15) Mult (BinOp (Name "upward") Pow (Int 2))) Mult (Name "easting")) Div (BinOp (Name "distance") Pow (Int 7))))];
   (* _kernels.py:1067 *)
   Def "kernel_uun" ["easting_p"; "northing_p"; "upward_p"; "easting_q"; "northing_q"; "upward_q"; "distance"] [
    Assign ["upward"] (BinOp (Name "upward_p") Sub (Name "upward_q"));
    Assign ["northing"] (BinOp (Name "northing_p") Sub (Name "northing_q"));
    Return (BinOp (BinOp (BinOp (Int 3) Mult (Name "northing")) Div (BinOp (Name "distance") Pow (Int 5))) Sub (BinOp (BinOp (BinOp (Int 15) Mult (BinOp (Name "upward") Pow (Int 2))) Mult (Name "northing")) Div (BinOp (Name "distance") Pow (Int 7))))];
   (* _kernels.py:1132 *)
   Def "kernel_enu" ["easting_p"; "northing_p"; "upward_p"; "easting_q"; "northing_q"; "upward_q"; "distance"] [
    Assign ["easting"] (BinOp (Name "easting_p") Sub (Name "easting_q"));
    Assign ["northing"] (BinOp (Name "northing_p") Sub (Name "northing_q"));
    Assign ["upward"] (BinOp (Name "upward_p") Sub (Name "upward_q"));
    Return (BinOp (BinOp (BinOp (BinOp (USub (Int 15)) Mult (Name "easting")) Mult (Name "northing")) Mult (Name "upward")) Div (BinOp (Name "distance") Pow (Int 7)))]].

(** choclo/point/_forward.py *)
Definition m_choclo_point__forward : pymodule := Module "choclo.point._forward"
  [("choclo.constants", "GRAVITATIONAL_CONST"); ("choclo.utils", "distance_cartesian"); ("choclo.point._kernels", "kernel_e"); ("choclo.point._kernels", "kernel_ee"); ("choclo.point._kernels", "kernel_en"); ("choclo.point._kernels", "kernel_eu"); ("choclo.point._kernels", "kernel_n"); ("choclo.point._kernels", "kernel_nn"); ("choclo.point._kernels", "kernel_nu"); ("choclo.point._kernels", "kernel_pot"); ("choclo.point._kernels", "kernel_u"); ("choclo.point._kernels", "kernel_uu")]
  []
  [(* _forward.py:30 *)
   Def "gravity_pot" ["easting_p"; "northing_p"; "upward_p"; "easting_q"; "northing_q"; "upward_q"; "mass"] [
    Assign ["distance"] (Call (Name "distance_cartesian") [(Name "easting_p"); (Name "northing_p"); (Name "upward_p"); (Name "easting_q"); (Name "northing_q"); (Name "upward_q")]);
    Assign ["kernel"] (Call (Name "kernel_pot") [(Name "easting_p"); (Name "northing_p"); (Name "upward_p"); (Name "easting_q"); (Name "northing_q"); (Name "upward_q"); (Name "distance")]);
    Return (BinOp (BinOp (Name "GRAVITATIONAL_CONST") Mult (Name "mass")) Mult (Name "kernel"))];
   (* _forward.py:78 *)
   Def "gravity_e" ["easting_p"; "northing_p"; "upward_p"; "easting_q"; "northing_q"; "upward_q"; "mass"] [
    Assign ["distance"] (Call (Name "distance_cartesian") [(Name "easting_p"); (Name "northing_p"); (Name "upward_p"); (Name "easting_q"); (Name "northing_q"); (Name "upward_q")]);
    Assign ["kernel"] (Call (Name "kernel_e") [(Name "easting_p"); (Name "northing_p"); (Name "upward_p"); (Name "easting_q"); (Name "northing_q"); (Name "upward_q"); (Name "distance")]);
    Return (BinOp (BinOp (Name "GRAVITATIONAL_CONST") Mult (Name "mass")) Mult (Name "kernel"))];
   (* _forward.py:131 *)
   Def "gravity_n" ["easting_p"; "northing_p"; "upward_p"; "easting_q"; "northing_q"; "upward_q"; "mass"] [
    Assign ["distance"] (Call (Name "distance_cartesian") [(Name "easting_p"); (Name "northing_p"); (Name "upward_p"); (Name "easting_q"); (Name "northing_q"); (Name "upward_q")]);
    Assign ["kernel"] (Call (Name "kernel_n") [(Name "easting_p"); (Name "northing_p"); (Name "upward_p"); (Name "easting_q"); (Name "northing_q"); (Name "upward_q"); (Name "distance")]);
    Return (BinOp (BinOp (Name "GRAVITATIONAL_CONST") Mult (Name "mass")) Mult (Name "kernel"))];
   (* _forward.py:184 *)
   Def "gravity_u" ["easting_p"; "northing_p"; "upward_p"; "easting_q"; "northing_q"; "upward_q"; "mass"] [
    Assign ["distance"] (Call (Name "distance_cartesian") [(Name "easting_p"); (Name "northing_p"); (Name "upward_p"); (Name "easting_q"); (Name "northing_q"); (Name "upward_q")]);
    Assign ["kernel"] (Call (Name "kernel_u") [(Name "easting_p"); (Name "northing_p"); (Name "upward_p"); (Name "easting_q"); (Name "northing_q"); (Name "upward_q"); (Name "distance")]);
    Return (BinOp (BinOp (Name "GRAVITATIONAL_CONST") Mult (Name "mass")) Mult (Name "kernel"))];
   (* _forward.py:237 *)
   Def "gravity_ee" ["easting_p"; "northing_p"; "upward_p"; "easting_q"; "northing_q"; "upward_q"; "mass"] [
    Assign ["distance"] (Call (Name "distance_cartesian") [(Name "easting_p"); (Name "northing_p"); (Name "upward_p"); (Name "easting_q"); (Name "northing_q"); (Name "upward_q")]);
    Assign ["kernel"] (Call (Name "kernel_ee") [(Name "easting_p"); (Name "northing_p"); (Name "upward_p"); (Name "easting_q"); (Name "northing_q"); (Name "upward_q"); (Name "distance")]);
    Return (BinOp (BinOp (Name "GRAVITATIONAL_CONST") Mult (Name "mass")) Mult (Name "kernel"))];
   (* _forward.py:297 *)
   Def "gravity_nn" ["easting_p"; "northing_p"; "upward_p"; "easting_q"; "northing_q"; "upward_q"; "mass"] [
    Assign ["distance"] (Call (Name "distance_cartesian") [(Name "easting_p"); (Name "northing_p"); (Name "upward_p"); (Name "easting_q"); (Name "northing_q"); (Name "upward_q")]);
    Assign ["kernel"] (Call (Name "kernel_nn") [(Name "easting_p"); (Name "northing_p"); (Name "upward_p"); (Name "easting_q"); (Name "northing_q"); (Name "upward_q"); (Name "distance")]);
    Return (BinOp (BinOp (Name "GRAVITATIONAL_CONST") Mult (Name "mass")) Mult (Name "kernel"))];
   (* _forward.py:357 *)
   Def "gravity_uu" ["easting_p"; "northing_p"; "upward_p"; "easting_q"; "northing_q"; "upward_q"; "mass"] [
    Assign ["distance"] (Call (Name "distance_cartesian") [(Name "easting_p"); (Name "northing_p"); (Name "upward_p"); (Name "easting_q"); (Name "northing_q"); (Name "upward_q")]);
    Assign ["kernel"] (Call (Name "kernel_uu") [(Name "easting_p"); (Name "northing_p"); (Name "upward_p"); (Name "easting_q"); (Name "northing_q"); (Name "upward_q"); (Name "distance")]);
    Return (BinOp (BinOp (Name "GRAVITATIONAL_CONST") Mult (Name "mass")) Mult (Name "kernel"))];
   (* _forward.py:417 *)
   Def "gravity_en" ["easting_p"; "northing_p"; "upward_p"; "easting_q"; "northing_q"; "upward_q"; "mass"] [
    Assign ["distance"] (Call (Name "distance_cartesian") [(Name "easting_p"); (Name "northing_p"); (Name "upward_p"); (Name "easting_q"); (Name "northing_q"); (Name "upward_q")]);
    Assign ["kernel"] (Call (Name "kernel_en") [(Name "easting_p"); (Name "northing_p"); (Name "upward_p"); (Name "easting_q"); (Name "northing_q"); (Name "upward_q"); (Name "distance")]);
    Return (BinOp (BinOp (Name "GRAVITATIONAL_CONST") Mult (Name "mass")) Mult (Name "kernel"))];
   (* _forward.py:472 *)
   Def "gravity_eu" ["easting_p"; "northing_p"; "upward_p"; "easting_q"; "northing_q"; "upward_q"; "mass"] [
    Assign ["distance"] (Call (Name "distance_cartesian") [(Name "easting_p"); (Name "northing_p"); (Name "upward_p"); (Name "easting_q"); (Name "northing_q"); (Name "upward_q")]);
    Assign ["kernel"] (Call (Name "kernel_eu") [(Name "easting_p"); (Name "northing_p"); (Name "upward_p"); (Name "easting_q"); (Name "northing_q"); (Name "upward_q"); (Name "distance")]);
    Return (BinOp (BinOp (Name "GRAVITATIONAL_CONST") Mult (Name "mass")) Mult (Name "kernel"))];
   (* _forward.py:527 *)
   Def "gravity_nu" ["easting_p"; "northing_p"; "upward_p"; "easting_q"; "northing_q"; "upward_q"; "mass"] [
    Assign ["distance"] (Call (Name "distance_cartesian") [(Name "easting_p"); (Name "northing_p"); (Name "upward_p"); (Name "easting_q"); (Name "northing_q"); (Name "upward_q")]);
    Assign ["kernel"] (Call (Name "kernel_nu") [(Name "easting_p"); (Name "northing_p"); (Name "upward_p"); (Name "easting_q"); (Name "northing_q"); (Name "upward_q"); (Name "distance")]);
    Return (BinOp (BinOp (Name "GRAVITATIONAL_CONST") Mult (Name "mass")) Mult (Name "kernel"))]].

(** choclo/dipole/__init__.py *)
Definition m_choclo_dipole : pymodule := Module "choclo.dipole"
  [("choclo.dipole._forward", "magnetic_e"); ("choclo.dipole._forward", "magnetic_field"); ("choclo.dipole._forward", "magnetic_n"); ("choclo.dipole._forward", "magnetic_u")]
  []
  [].

(** choclo/dipole/_forward.py *)
Definition m_choclo_dipole__forward : pymodule := Module "choclo.dipole._forward"
  [("choclo.constants", "VACUUM_MAGNETIC_PERMEABILITY")]
  []
  [(* _forward.py:14 *)
   Def "magnetic_field" ["easting_p"; "northing_p"; "upward_p"; "easting_q"; "northing_q"; "upward_q"; "magnetic_moment_east"; "magnetic_moment_north"; "magnetic_moment_up"] [
    Assign ["r_e"] (BinOp (Name "easting_p") Sub (Name "easting_q"));
    Assign ["r_n"] (BinOp (Name "northing_p") Sub (Name "northing_q"));
    Assign ["r_u"] (BinOp (Name "upward_p") Sub (Name "upward_q"));
    Assign ["distance"] (Call (Attribute "np" "sqrt") [(BinOp (BinOp (BinOp (Name "r_e") Pow (Int 2)) Add (BinOp (Name "r_n") Pow (Int 2))) Add (BinOp (Name "r_u") Pow (Int 2)))]);
    Assign ["dotproduct"] (BinOp (BinOp (BinOp (Name "magnetic_moment_east") Mult (Name "r_e")) Add (BinOp (Name "magnetic_moment_north") Mult (Name "r_n"))) Add (BinOp (Name "magnetic_moment_up") Mult (Name "r_u")));
    Assign ["c_m"] (BinOp (BinOp (Name "VACUUM_MAGNETIC_PERMEABILITY") Div (Int 4)) Div (Attribute "np" "pi"));
    Assign ["b_e"] (BinOp (Name "c_m") Mult (BinOp (BinOp (BinOp (BinOp (Int 3) Mult (Name "dotproduct")) Mult (Name "r_e")) Div (BinOp (Name "distance") Pow (Int 5))) Sub (BinOp (Name "magnetic_moment_east") Div (BinOp (Name "distance") Pow (Int 3)))));
    Assign ["b_n"] (BinOp (Name "c_m") Mult (BinOp (BinOp (BinOp (BinOp (Int 3) Mult (Name "dotproduct")) Mult (Name "r_n")) Div (BinOp (Name "distance") Pow (Int 5))) Sub (BinOp (Name "magnetic_moment_north") Div (BinOp (Name "distance") Pow (Int 3)))));
    Assign ["b_u"] (BinOp (Name "c_m") Mult (BinOp (BinOp (BinOp (BinOp (Int 3) Mult (Name "dotproduct")) Mult (Name "r_u")) Div (BinOp (Name "distance") Pow (Int 5))) Sub (BinOp (Name "magnetic_moment_up") Div (BinOp (Name "distance") Pow (Int 3)))));
    Return (Tuple [(Name "b_e"); (Name "b_n"); (Name "b_u")])];
   (* _forward.py:109 *)
   Def "magnetic_e" ["easting_p"; "northing_p"; "upward_p"; "easting_q"; "northing_q"; "upward_q"; "magnetic_moment_east"; "magnetic_moment_north"; "magnetic_moment_up"] [
    Assign ["r_e"] (BinOp (Name "easting_p") Sub (Name "easting_q"));
    Assign ["r_n"] (BinOp (Name "northing_p") Sub (Name "northing_q"));
    Assign ["r_u"] (BinOp (Name "upward_p") Sub (Name "upward_q"));
    Assign ["distance"] (Call (Attribute "np" "sqrt") [(BinOp (BinOp (BinOp (Name "r_e") Pow (Int 2)) Add (BinOp (Name "r_n") Pow (Int 2))) Add (BinOp (Name "r_u") Pow (Int 2)))]);
    Assign ["dotproduct"] (BinOp (BinOp (BinOp (Name "magnetic_moment_east") Mult (Name "r_e")) Add (BinOp (Name "magnetic_moment_north") Mult (Name "r_n"))) Add (BinOp (Name "magnetic_moment_up") Mult (Name "r_u")));
    Assign ["result"] (BinOp (BinOp (BinOp (BinOp (Int 3) Mult (Name "dotproduct")) Mult (Name "r_e")) Div (BinOp (Name "distance") Pow (Int 5))) Sub (BinOp (Name "magnetic_moment_east") Div (BinOp (Name "distance") Pow (Int 3))));
    Return (BinOp (BinOp (BinOp (Name "VACUUM_MAGNETIC_PERMEABILITY") Div (Int 4)) Div (Attribute "np" "pi")) Mult (Name "result"))];
   (* _forward.py:190 *)
   Def "magnetic_n" ["easting_p"; "northing_p"; "upward_p"; "easting_q"; "northing_q"; "upward_q"; "magnetic_moment_east"; "magnetic_moment_north"; "magnetic_moment_up"] [
    Assign ["r_e"] (BinOp (Name "easting_p") Sub (Name "easting_q"));
    Assign ["r_n"] (BinOp (Name "northing_p") Sub (Name "northing_q"));
    Assign ["r_u"] (BinOp (Name "upward_p") Sub (Name "upward_q"));
    Assign ["distance"] (Call (Attribute "np" "sqrt") [(BinOp (BinOp (BinOp (Name "r_e") Pow (Int 2)) Add (BinOp (Name "r_n") Pow (Int 2))) Add (BinOp (Name "r_u") Pow (Int 2)))]);
    Assign ["dotproduct"] (BinOp (BinOp (BinOp (Name "magnetic_moment_east") Mult (Name "r_e")) Add (BinOp (Name "magnetic_moment_north") Mult (Name "r_n"))) Add (BinOp (Name "magnetic_moment_up") Mult (Name "r_u")));
    Assign ["result"] (BinOp (BinOp (BinOp (BinOp (Int 3) Mult (Name "dotproduct")) Mult (Name "r_n")) Div (BinOp (Name "distance") Pow (Int 5))) Sub (BinOp (Name "magnetic_moment_north") Div (BinOp (Name "distance") Pow (Int 3))));
    Return (BinOp (BinOp (BinOp (Name "VACUUM_MAGNETIC_PERMEABILITY") Div (Int 4)) Div (Attribute "np" "pi")) Mult (Name "result"))];
   (* _forward.py:271 *)
   Def "magnetic_u" ["easting_p"; "northing_p"; "upward_p"; "easting_q"; "northing_q"; "upward_q"; "magnetic_moment_east"; "magnetic_moment_north"; "magnetic_moment_up"] [
    Assign ["r_e"] (BinOp (Name "easting_p") Sub (Name "easting_q"));
    Assign ["r_n"] (BinOp (Name "northing_p") Sub (Name "northing_q"));
    Assign ["r_u"] (BinOp (Name "upward_p") Sub (Name "upward_q"));
    Assign ["distance"] (Call (Attribute "np" "sqrt") [(BinOp (BinOp (BinOp (Name "r_e") Pow (Int 2)) Add (BinOp (Name "r_n") Pow (Int 2))) Add (BinOp (Name "r_u") Pow (Int 2)))]);
    Assign ["dotproduct"] (BinOp (BinOp (BinOp (Name "magnetic_moment_east") Mult (Name "r_e")) Add (BinOp (Name "magnetic_moment_north") Mult (Name "r_n"))) Add (BinOp (Name "magnetic_moment_up") Mult (Name "r_u")));
    Assign ["result"] (BinOp (BinOp (BinOp (BinOp (Int 3) Mult (Name "dotproduct")) Mult (Name "r_u")) Div (BinOp (Name "distance") Pow (Int 5))) Sub (BinOp (Name "magnetic_moment_up") Div (BinOp (Name "distance") Pow (Int 3))));
    Return (BinOp (BinOp (BinOp (Name "VACUUM_MAGNETIC_PERMEABILITY") Div (Int 4)) Div (Attribute "np" "pi")) Mult (Name "result"))]].

(** choclo/prism/__init__.py *)
Definition m_choclo_prism : pymodule := Module "choclo.prism"
  [("choclo.prism._gravity", "gravity_e"); ("choclo.prism._gravity", "gravity_ee"); ("choclo.prism._gravity", "gravity_en"); ("choclo.prism._gravity", "gravity_eu"); ("choclo.prism._gravity", "gravity_n"); ("choclo.prism._gravity", "gravity_nn"); ("choclo.prism._gravity", "gravity_nu"); ("choclo.prism._gravity", "gravity_pot"); ("choclo.prism._gravity", "gravity_u"); ("choclo.prism._gravity", "gravity_uu"); ("choclo.prism._kernels", "kernel_e"); ("choclo.prism._kernels", "kernel_ee"); ("choclo.prism._kernels", "kernel_eee"); ("choclo.prism._kernels", "kernel_een"); ("choclo.prism._kernels", "kernel_eeu"); ("choclo.prism._kernels", "kernel_en"); ("choclo.prism._kernels", "kernel_enn"); ("choclo.prism._kernels", "kernel_enu"); ("choclo.prism._kernels", "kernel_eu"); ("choclo.prism._kernels", "kernel_euu"); ("choclo.prism._kernels", "kernel_n"); ("choclo.prism._kernels", "kernel_nn"); ("choclo.prism._kernels", "kernel_nnn"); ("choclo.prism._kernels", "kernel_nnu"); ("choclo.prism._kernels", "kernel_nu"); ("choclo.prism._kernels", "kernel_nuu"); ("choclo.prism._kernels", "kernel_pot"); ("choclo.prism._kernels", "kernel_u"); ("choclo.prism._kernels", "kernel_uu"); ("choclo.prism._kernels", "kernel_uuu"); ("choclo.prism._magnetic", "magnetic_e"); ("choclo.prism._magnetic", "magnetic_ee"); ("choclo.prism._magnetic", "magnetic_en"); ("choclo.prism._magnetic", "magnetic_eu"); ("choclo.prism._magnetic", "magnetic_field"); ("choclo.prism._magnetic", "magnetic_n"); ("choclo.prism._magnetic", "magnetic_nn"); ("choclo.prism._magnetic", "magnetic_nu"); ("choclo.prism._magnetic", "magnetic_u"); ("choclo.prism._magnetic", "magnetic_uu")]
  []
  [].

(** choclo/prism/_utils.py *)
Definition m_choclo_prism__utils : pymodule := Module "choclo.prism._utils"
  []
  []
  [(* _utils.py:15 *)
   Def "is_interior_point" ["easting"; "northing"; "upward"; "prism_west"; "prism_east"; "prism_south"; "prism_north"; "prism_bottom"; "prism_top"] [
    Assign ["in_easting"] (Compare (Name "prism_west") [(Lt, (Name "easting")); (Lt, (Name "prism_east"))]);
    Assign ["in_northing"] (Compare (Name "prism_south") [(Lt, (Name "northing")); (Lt, (Name "prism_north"))]);
    Assign ["in_upward"] (Compare (Name "prism_bottom") [(Lt, (Name "upward")); (Lt, (Name "prism_top"))]);
    Return (BoolOp And [(Name "in_easting"); (Name "in_northing"); (Name "in_upward")])];
   (* _utils.py:54 *)
   Def "is_point_on_edge" ["easting"; "northing"; "upward"; "prism_west"; "prism_east"; "prism_south"; "prism_north"; "prism_bottom"; "prism_top"] [
    Assign ["result"] (BoolOp Or [(Call (Name "is_point_on_easting_edge") [(Name "easting"); (Name "northing"); (Name "upward"); (Name "prism_west"); (Name "prism_east"); (Name "prism_south"); (Name "prism_north"); (Name "prism_bottom"); (Name "prism_top")]); (Call (Name "is_point_on_northing_edge") [(Name "easting"); (Name "northing"); (Name "upward"); (Name "prism_west"); (Name "prism_east"); (Name "prism_south"); (Name "prism_north"); (Name "prism_bottom"); (Name "prism_top")]); (Call (Name "is_point_on_upward_edge") [(Name "easting"); (Name "northing"); (Name "upward"); (Name "prism_west"); (Name "prism_east"); (Name "prism_south"); (Name "prism_north"); (Name "prism_bottom"); (Name "prism_top")])]);
    Return (Name "result")];
   (* _utils.py:125 *)
   Def "is_point_on_easting_edge" ["easting"; "northing"; "upward"; "prism_west"; "prism_east"; "prism_south"; "prism_north"; "prism_bottom"; "prism_top"] [
    Assign ["in_easting"] (Compare (Name "prism_west") [(LtE, (Name "easting")); (LtE, (Name "prism_east"))]);
    Assign ["in_northing"] (Compare (Name "northing") [(In, (Tuple [(Name "prism_south"); (Name "prism_north")]))]);
    Assign ["in_upward"] (Compare (Name "upward") [(In, (Tuple [(Name "prism_bottom"); (Name "prism_top")]))]);
    Return (Call (Name "bool") [(BoolOp And [(Name "in_easting"); (Name "in_northing"); (Name "in_upward")])])];
   (* _utils.py:165 *)
   Def "is_point_on_northing_edge" ["easting"; "northing"; "upward"; "prism_west"; "prism_east"; "prism_south"; "prism_north"; "prism_bottom"; "prism_top"] [
    Assign ["in_easting"] (Compare (Name "easting") [(In, (Tuple [(Name "prism_west"); (Name "prism_east")]))]);
    Assign ["in_northing"] (Compare (Name "prism_south") [(LtE, (Name "northing")); (LtE, (Name "prism_north"))]);
    Assign ["in_upward"] (Compare (Name "upward") [(In, (Tuple [(Name "prism_bottom"); (Name "prism_top")]))]);
    Return (Call (Name "bool") [(BoolOp And [(Name "in_easting"); (Name "in_northing"); (Name "in_upward")])])];
   (* _utils.py:205 *)
   Def "is_point_on_upward_edge" ["easting"; "northing"; "upward"; "prism_west"; "prism_east"; "prism_south"; "prism_north"; "prism_bottom"; "prism_top"] [
    Assign ["in_easting"] (Compare (Name "easting") [(In, (Tuple [(Name "prism_west"); (Name "prism_east")]))]);
    Assign ["in_northing"] (Compare (Name "northing") [(In, (Tuple [(Name "prism_south"); (Name "prism_north")]))]);
    Assign ["in_upward"] (Compare (Name "prism_bottom") [(LtE, (Name "upward")); (LtE, (Name "prism_top"))]);
    Return (Call (Name "bool") [(BoolOp And [(Name "in_easting"); (Name "in_northing"); (Name "in_upward")])])];
   (* _utils.py:245 *)
   Def "is_point_on_east_face" ["easting"; "northing"; "upward"; "prism_west"; "prism_east"; "prism_south"; "prism_north"; "prism_bottom"; "prism_top"] [
    Assign ["on_east_face"] (BoolOp And [(Compare (Name "easting") [(Eq, (Name "prism_east"))]); (Compare (Name "prism_south") [(Lt, (Name "northing")); (Lt, (Name "prism_north"))]); (Compare (Name "prism_bottom") [(Lt, (Name "upward")); (Lt, (Name "prism_top"))])]);
    Return (Call (Name "bool") [(Name "on_east_face")])];
   (* _utils.py:286 *)
   Def "is_point_on_north_face" ["easting"; "northing"; "upward"; "prism_west"; "prism_east"; "prism_south"; "prism_north"; "prism_bottom"; "prism_top"] [
    Assign ["on_north_face"] (BoolOp And [(Compare (Name "prism_west") [(Lt, (Name "easting")); (Lt, (Name "prism_east"))]); (Compare (Name "northing") [(Eq, (Name "prism_north"))]); (Compare (Name "prism_bottom") [(Lt, (Name "upward")); (Lt, (Name "prism_top"))])]);
    Return (Call (Name "bool") [(Name "on_north_face")])];
   (* _utils.py:327 *)
   Def "is_point_on_top_face" ["easting"; "northing"; "upward"; "prism_west"; "prism_east"; "prism_south"; "prism_north"; "prism_bottom"; "prism_top"] [
    Assign ["on_top_face"] (BoolOp And [(Compare (Name "prism_west") [(Lt, (Name "easting")); (Lt, (Name "prism_east"))]); (Compare (Name "prism_south") [(Lt, (Name "northing")); (Lt, (Name "prism_north"))]); (Compare (Name "upward") [(Eq, (Name "prism_top"))])]);
    Return (Call (Name "bool") [(Name "on_top_face")])]].

(** choclo/prism/_kernels.py *)
Definition m_choclo_prism__kernels : pymodule := Module "choclo.prism._kernels"
  []
  []
  [(* _kernels.py:16 *)
   Def "kernel_pot" ["easting"; "northing"; "upward"; "radius"] [
    Assign ["kernel"] (BinOp (BinOp (BinOp (BinOp (BinOp (BinOp (BinOp (Name "easting") Mult (Name "northing")) Mult (Call (Name "_safe_log") [(Name "upward"); (Name "easting"); (Name "northing"); (Name "radius")])) Add (BinOp (BinOp (Name "northing") Mult (Name "upward")) Mult (Call (Name "_safe_log") [(Name "easting"); (Name "northing"); (Name "upward"); (Name "radius")]))) Add (BinOp (BinOp (Name "easting") Mult (Name "upward")) Mult (Call (Name "_safe_log") [(Name "northing"); (Name "upward"); (Name "easting"); (Name "radius")]))) Sub (BinOp (BinOp (Float 5 10) Mult (BinOp (Name "easting") Pow (Int 2))) Mult (Call (Name "_safe_atan2") [(BinOp (Name "upward") Mult (Name "northing")); (BinOp (Name "easting") Mult (Name "radius"))]))) Sub (BinOp (BinOp (Float 5 10) Mult (BinOp (Name "northing") Pow (Int 2))) Mult (Call (Name "_safe_atan2") [(BinOp (Name "upward") Mult (Name "easting")); (BinOp (Name "northing") Mult (Name "radius"))]))) Sub (BinOp (BinOp (Float 5 10) Mult (BinOp (Name "upward") Pow (Int 2))) Mult (Call (Name "_safe_atan2") [(BinOp (Name "easting") Mult (Name "northing")); (BinOp (Name "upward") Mult (Name "radius"))])));
    Return (Name "kernel")];
   (* _kernels.py:102 *)
   Def "kernel_e" ["easting"; "northing"; "upward"; "radius"] [
    Assign ["kernel"] (USub (BinOp (BinOp (BinOp (Name "northing") Mult (Call (Name "_safe_log") [(Name "upward"); (Name "easting"); (Name "northing"); (Name "radius")])) Add (BinOp (Name "upward") Mult (Call (Name "_safe_log") [(Name "northing"); (Name "upward"); (Name "easting"); (Name "radius")]))) Sub (BinOp (Name "easting") Mult (Call (Name "_safe_atan2") [(BinOp (Name "northing") Mult (Name "upward")); (BinOp (Name "easting") Mult (Name "radius"))]))));
    Return (Name "kernel")];
   (* _kernels.py:191 *)
   Def "kernel_n" ["easting"; "northing"; "upward"; "radius"] [
    Assign ["kernel"] (USub (BinOp (BinOp (BinOp (Name "upward") Mult (Call (Name "_safe_log") [(Name "easting"); (Name "northing"); (Name "upward"); (Name "radius")])) Add (BinOp (Name "easting") Mult (Call (Name "_safe_log") [(Name "upward"); (Name "easting"); (Name "northing"); (Name "radius")]))) Sub (BinOp (Name "northing") Mult (Call (Name "_safe_atan2") [(BinOp (Name "easting") Mult (Name "upward")); (BinOp (Name "northing") Mult (Name "radius"))]))));
    Return (Name "kernel")];
   (* _kernels.py:280 *)
   Def "kernel_u" ["easting"; "northing"; "upward"; "radius"] [
    Assign ["kernel"] (USub (BinOp (BinOp (BinOp (Name "easting") Mult (Call (Name "_safe_log") [(Name "northing"); (Name "upward"); (Name "easting"); (Name "radius")])) Add (BinOp (Name "northing") Mult (Call (Name "_safe_log") [(Name "easting"); (Name "northing"); (Name "upward"); (Name "radius")]))) Sub (BinOp (Name "upward") Mult (Call (Name "_safe_atan2") [(BinOp (Name "easting") Mult (Name "northing")); (BinOp (Name "upward") Mult (Name "radius"))]))));
    Return (Name "kernel")];
   (* _kernels.py:371 *)
   Def "kernel_ee" ["easting"; "northing"; "upward"; "radius"] [
    If (Compare (Name "radius") [(Eq, (Float 0 10))]) [
      Return (Attribute "np" "nan")] [];
    Return (USub (Call (Name "_safe_atan2") [(BinOp (Name "northing") Mult (Name "upward")); (BinOp (Name "easting") Mult (Name "radius"))]))];
   (* _kernels.py:433 *)
   Def "kernel_nn" ["easting"; "northing"; "upward"; "radius"] [
    If (Compare (Name "radius") [(Eq, (Float 0 10))]) [
      Return (Attribute "np" "nan")] [];
    Return (USub (Call (Name "_safe_atan2") [(BinOp (Name "easting") Mult (Name "upward")); (BinOp (Name "northing") Mult (Name "radius"))]))];
   (* _kernels.py:495 *)
   Def "kernel_uu" ["easting"; "northing"; "upward"; "radius"] [
    If (Compare (Name "radius") [(Eq, (Float 0 10))]) [
      Return (Attribute "np" "nan")] [];
    Return (USub (Call (Name "_safe_atan2") [(BinOp (Name "easting") Mult (Name "northing")); (BinOp (Name "upward") Mult (Name "radius"))]))];
   (* _kernels.py:557 *)
   Def "kernel_en" ["easting"; "northing"; "upward"; "radius"] [
    If (Compare (Name "radius") [(Eq, (Float 0 10))]) [
      Return (Attribute "np" "nan")] [];
    Return (Call (Name "_safe_log") [(Name "upward"); (Name "easting"); (Name "northing"); (Name "radius")])];
   (* _kernels.py:619 *)
   Def "kernel_eu" ["easting"; "northing"; "upward"; "radius"] [
    If (Compare (Name "radius") [(Eq, (Float 0 10))]) [
      Return (Attribute "np" "nan")] [];
    Return (Call (Name "_safe_log") [(Name "northing"); (Name "easting"); (Name "upward"); (Name "radius")])];
   (* _kernels.py:681 *)
   Def "kernel_nu" ["easting"; "northing"; "upward"; "radius"] [
    If (Compare (Name "radius") [(Eq, (Float 0 10))]) [
      Return (Attribute "np" "nan")] [];
    Return (Call (Name "_safe_log") [(Name "easting"); (Name "northing"); (Name "upward"); (Name "radius")])];
   (* _kernels.py:743 *)
   Def "_safe_atan2" ["y"; "x"] [
    If (Compare (Name "x") [(Eq, (Int 0))]) [
      If (Compare (Name "y") [(Gt, (Int 0))]) [
        Assign ["result"] (BinOp (Attribute "np" "pi") Div (Int 2))] [
        If (Compare (Name "y") [(Lt, (Int 0))]) [
          Assign ["result"] (BinOp (USub (Attribute "np" "pi")) Div (Int 2))] [
          Assign ["result"] (Int 0)]];
      Return (Name "result")] [];
    Return (Call (Attribute "np" "arctan") [(BinOp (Name "y") Div (Name "x"))])];
   (* _kernels.py:782 *)
   Def "_safe_log" ["x"; "y"; "z"; "r"] [
    If (Compare (Name "r") [(Eq, (Int 0))]) [
      Return (Int 0)] [];
    If (Compare (Name "x") [(Lt, (Int 0))]) [
      If (BoolOp And [(Compare (Name "y") [(Eq, (Float 0 10))]); (Compare (Name "z") [(Eq, (Float 0 10))])]) [
        Assign ["result"] (USub (Call (Attribute "np" "log") [(BinOp (USub (Int 2)) Mult (Name "x"))]))] [
        Assign ["result"] (Call (Attribute "np" "log") [(BinOp (BinOp (BinOp (Name "y") Pow (Int 2)) Add (BinOp (Name "z") Pow (Int 2))) Div (BinOp (Name "r") Sub (Name "x")))])];
      Return (Name "result")] [];
    Return (Call (Attribute "np" "log") [(BinOp (Name "x") Add (Name "r"))])];
   (* _kernels.py:864 *)
   Def "kernel_eee" ["easting"; "northing"; "upward"; "radius"] [
    Return (Call (Name "_kernel_iii") [(Name "easting"); (Name "northing"); (Name "upward"); (Name "radius")])];
   (* _kernels.py:917 *)
   Def "kernel_nnn" ["easting"; "northing"; "upward"; "radius"] [
    Return (Call (Name "_kernel_iii") [(Name "northing"); (Name "upward"); (Name "easting"); (Name "radius")])];
   (* _kernels.py:970 *)
   Def "kernel_uuu" ["easting"; "northing"; "upward"; "radius"] [
    Return (Call (Name "_kernel_iii") [(Name "upward"); (Name "northing"); (Name "easting"); (Name "radius")])];
   (* _kernels.py:1023 *)
   Def "kernel_een" ["easting"; "northing"; "upward"; "radius"] [
    Return (Call (Name "_kernel_iij") [(Name "easting"); (Name "northing"); (Name "upward"); (Name "radius")])];
   (* _kernels.py:1076 *)
   Def "kernel_eeu" ["easting"; "northing"; "upward"; "radius"] [
    Return (Call (Name "_kernel_iij") [(Name "easting"); (Name "upward"); (Name "northing"); (Name "radius")])];
   (* _kernels.py:1129 *)
   Def "kernel_enn" ["easting"; "northing"; "upward"; "radius"] [
    Return (Call (Name "_kernel_iij") [(Name "northing"); (Name "easting"); (Name "upward"); (Name "radius")])];
   (* _kernels.py:1182 *)
   Def "kernel_nnu" ["easting"; "northing"; "upward"; "radius"] [
    Return (Call (Name "_kernel_iij") [(Name "northing"); (Name "upward"); (Name "easting"); (Name "radius")])];
   (* _kernels.py:1235 *)
   Def "kernel_euu" ["easting"; "northing"; "upward"; "radius"] [
    Return (Call (Name "_kernel_iij") [(Name "upward"); (Name "easting"); (Name "northing"); (Name "radius")])];
   (* _kernels.py:1288 *)
   Def "kernel_nuu" ["easting"; "northing"; "upward"; "radius"] [
    Return (Call (Name "_kernel_iij") [(Name "upward"); (Name "northing"); (Name "easting"); (Name "radius")])];
   (* _kernels.py:1341 *)
   Def "kernel_enu" ["easting"; "northing"; "upward"; "radius"] [
    If (Compare (Name "radius") [(Eq, (Float 0 10))]) [
      Return (Attribute "np" "nan")] [];
    Return (BinOp (USub (Int 1)) Div (Name "radius"))];
   (* _kernels.py:1390 *)
   Def "_kernel_iii" ["x_i"; "x_j"; "x_k"; "radius"] [
    If (Compare (Name "radius") [(Eq, (Float 0 10))]) [
      Return (Attribute "np" "nan")] [];
    If (BoolOp Or [(BoolOp And [(Compare (Name "x_i") [(Eq, (Int 0))]); (Compare (Name "x_j") [(Eq, (Int 0))])]); (BoolOp And [(Compare (Name "x_i") [(Eq, (Int 0))]); (Compare (Name "x_k") [(Eq, (Int 0))])])]) [
      Return (Float 0 10)] [];
    Assign ["x_i_sq"; "x_j_sq"; "x_k_sq"] (Tuple [(BinOp (Name "x_i") Pow (Int 2)); (BinOp (Name "x_j") Pow (Int 2)); (BinOp (Name "x_k") Pow (Int 2))]);
    Assign ["numerator"] (BinOp (BinOp (USub (Name "x_j")) Mult (Name "x_k")) Mult (BinOp (BinOp (BinOp (Int 2) Mult (Name "x_i_sq")) Add (Name "x_j_sq")) Add (Name "x_k_sq")));
    Assign ["denominator"] (BinOp (BinOp (BinOp (Name "x_i_sq") Add (Name "x_j_sq")) Mult (BinOp (Name "x_i_sq") Add (Name "x_k_sq"))) Mult (Name "radius"));
    Return (BinOp (Name "numerator") Div (Name "denominator"))];
   (* _kernels.py:1448 *)
   Def "_kernel_iij" ["x_i"; "x_j"; "x_k"; "radius"] [
    If (Compare (Name "radius") [(Eq, (Float 0 10))]) [
      Return (Attribute "np" "nan")] [];
    If (BoolOp And [(Compare (Name "x_i") [(Eq, (Int 0))]); (Compare (Name "x_j") [(Eq, (Int 0))])]) [
      Return (Float 0 10)] [];
    Return (BinOp (BinOp (Name "x_i") Mult (Name "x_k")) Div (BinOp (BinOp (BinOp (Name "x_i") Pow (Int 2)) Add (BinOp (Name "x_j") Pow (Int 2))) Mult (Name "radius")))]].

(** choclo/prism/_gravity.py *)
Definition m_choclo_prism__gravity : pymodule := Module "choclo.prism._gravity"
  [("choclo.constants", "GRAVITATIONAL_CONST"); ("choclo.prism._kernels", "kernel_e"); ("choclo.prism._kernels", "kernel_ee"); ("choclo.prism._kernels", "kernel_en"); ("choclo.prism._kernels", "kernel_eu"); ("choclo.prism._kernels", "kernel_n"); ("choclo.prism._kernels", "kernel_nn"); ("choclo.prism._kernels", "kernel_nu"); ("choclo.prism._kernels", "kernel_pot"); ("choclo.prism._kernels", "kernel_u"); ("choclo.prism._kernels", "kernel_uu"); ("choclo.prism._utils", "is_point_on_east_face"); ("choclo.prism._utils", "is_point_on_easting_edge"); ("choclo.prism._utils", "is_point_on_north_face"); ("choclo.prism._utils", "is_point_on_northing_edge"); ("choclo.prism._utils", "is_point_on_top_face"); ("choclo.prism._utils", "is_point_on_upward_edge")]
  []
  [(* _gravity.py:38 *)
   Def "gravity_pot" ["easting"; "northing"; "upward"; "prism_west"; "prism_east"; "prism_south"; "prism_north"; "prism_bottom"; "prism_top"; "density"] [
    Return (BinOp (BinOp (Name "GRAVITATIONAL_CONST") Mult (Name "density")) Mult (Call (Name "_evaluate_kernel") [(Name "easting"); (Name "northing"); (Name "upward"); (Name "prism_west"); (Name "prism_east"); (Name "prism_south"); (Name "prism_north"); (Name "prism_bottom"); (Name "prism_top"); (Name "kernel_pot")]))];
   (* _gravity.py:171 *)
   Def "gravity_e" ["easting"; "northing"; "upward"; "prism_west"; "prism_east"; "prism_south"; "prism_north"; "prism_bottom"; "prism_top"; "density"] [
    Return (BinOp (BinOp (Name "GRAVITATIONAL_CONST") Mult (Name "density")) Mult (Call (Name "_evaluate_kernel") [(Name "easting"); (Name "northing"); (Name "upward"); (Name "prism_west"); (Name "prism_east"); (Name "prism_south"); (Name "prism_north"); (Name "prism_bottom"); (Name "prism_top"); (Name "kernel_e")]))];
   (* _gravity.py:305 *)
   Def "gravity_n" ["easting"; "northing"; "upward"; "prism_west"; "prism_east"; "prism_south"; "prism_north"; "prism_bottom"; "prism_top"; "density"] [
    Return (BinOp (BinOp (Name "GRAVITATIONAL_CONST") Mult (Name "density")) Mult (Call (Name "_evaluate_kernel") [(Name "easting"); (Name "northing"); (Name "upward"); (Name "prism_west"); (Name "prism_east"); (Name "prism_south"); (Name "prism_north"); (Name "prism_bottom"); (Name "prism_top"); (Name "kernel_n")]))];
   (* _gravity.py:439 *)
   Def "gravity_u" ["easting"; "northing"; "upward"; "prism_west"; "prism_east"; "prism_south"; "prism_north"; "prism_bottom"; "prism_top"; "density"] [
    Return (BinOp (BinOp (Name "GRAVITATIONAL_CONST") Mult (Name "density")) Mult (Call (Name "_evaluate_kernel") [(Name "easting"); (Name "northing"); (Name "upward"); (Name "prism_west"); (Name "prism_east"); (Name "prism_south"); (Name "prism_north"); (Name "prism_bottom"); (Name "prism_top"); (Name "kernel_u")]))];
   (* _gravity.py:579 *)
   Def "gravity_ee" ["easting"; "northing"; "upward"; "prism_west"; "prism_east"; "prism_south"; "prism_north"; "prism_bottom"; "prism_top"; "density"] [
    If (BoolOp Or [(Call (Name "is_point_on_northing_edge") [(Name "easting"); (Name "northing"); (Name "upward"); (Name "prism_west"); (Name "prism_east"); (Name "prism_south"); (Name "prism_north"); (Name "prism_bottom"); (Name "prism_top")]); (Call (Name "is_point_on_upward_edge") [(Name "easting"); (Name "northing"); (Name "upward"); (Name "prism_west"); (Name "prism_east"); (Name "prism_south"); (Name "prism_north"); (Name "prism_bottom"); (Name "prism_top")])]) [
      Return (Attribute "np" "nan")] [];
    Assign ["result"] (Call (Name "_evaluate_kernel") [(Name "easting"); (Name "northing"); (Name "upward"); (Name "prism_west"); (Name "prism_east"); (Name "prism_south"); (Name "prism_north"); (Name "prism_bottom"); (Name "prism_top"); (Name "kernel_ee")]);
    If (Call (Name "is_point_on_east_face") [(Name "easting"); (Name "northing"); (Name "upward"); (Name "prism_west"); (Name "prism_east"); (Name "prism_south"); (Name "prism_north"); (Name "prism_bottom"); (Name "prism_top")]) [
      AugAssign "result" Add (BinOp (Int 4) Mult (Attribute "np" "pi"))] [];
    Return (BinOp (BinOp (Name "GRAVITATIONAL_CONST") Mult (Name "density")) Mult (Name "result"))];
   (* _gravity.py:737 *)
   Def "gravity_nn" ["easting"; "northing"; "upward"; "prism_west"; "prism_east"; "prism_south"; "prism_north"; "prism_bottom"; "prism_top"; "density"] [
    If (BoolOp Or [(Call (Name "is_point_on_easting_edge") [(Name "easting"); (Name "northing"); (Name "upward"); (Name "prism_west"); (Name "prism_east"); (Name "prism_south"); (Name "prism_north"); (Name "prism_bottom"); (Name "prism_top")]); (Call (Name "is_point_on_upward_edge") [(Name "easting"); (Name "northing"); (Name "upward"); (Name "prism_west"); (Name "prism_east"); (Name "prism_south"); (Name "prism_north"); (Name "prism_bottom"); (Name "prism_top")])]) [
      Return (Attribute "np" "nan")] [];
    Assign ["result"] (Call (Name "_evaluate_kernel") [(Name "easting"); (Name "northing"); (Name "upward"); (Name "prism_west"); (Name "prism_east"); (Name "prism_south"); (Name "prism_north"); (Name "prism_bottom"); (Name "prism_top"); (Name "kernel_nn")]);
    If (Call (Name "is_point_on_north_face") [(Name "easting"); (Name "northing"); (Name "upward"); (Name "prism_west"); (Name "prism_east"); (Name "prism_south"); (Name "prism_north"); (Name "prism_bottom"); (Name "prism_top")]) [
      AugAssign "result" Add (BinOp (Int 4) Mult (Attribute "np" "pi"))] [];
    Return (BinOp (BinOp (Name "GRAVITATIONAL_CONST") Mult (Name "density")) Mult (Name "result"))];
   (* _gravity.py:895 *)
   Def "gravity_uu" ["easting"; "northing"; "upward"; "prism_west"; "prism_east"; "prism_south"; "prism_north"; "prism_bottom"; "prism_top"; "density"] [
    If (BoolOp Or [(Call (Name "is_point_on_easting_edge") [(Name "easting"); (Name "northing"); (Name "upward"); (Name "prism_west"); (Name "prism_east"); (Name "prism_south"); (Name "prism_north"); (Name "prism_bottom"); (Name "prism_top")]); (Call (Name "is_point_on_northing_edge") [(Name "easting"); (Name "northing"); (Name "upward"); (Name "prism_west"); (Name "prism_east"); (Name "prism_south"); (Name "prism_north"); (Name "prism_bottom"); (Name "prism_top")])]) [
      Return (Attribute "np" "nan")] [];
    Assign ["result"] (Call (Name "_evaluate_kernel") [(Name "easting"); (Name "northing"); (Name "upward"); (Name "prism_west"); (Name "prism_east"); (Name "prism_south"); (Name "prism_north"); (Name "prism_bottom"); (Name "prism_top"); (Name "kernel_uu")]);
    If (Call (Name "is_point_on_top_face") [(Name "easting"); (Name "northing"); (Name "upward"); (Name "prism_west"); (Name "prism_east"); (Name "prism_south"); (Name "prism_north"); (Name "prism_bottom"); (Name "prism_top")]) [
      AugAssign "result" Add (BinOp (Int 4) Mult (Attribute "np" "pi"))] [];
    Return (BinOp (BinOp (Name "GRAVITATIONAL_CONST") Mult (Name "density")) Mult (Name "result"))];
   (* _gravity.py:1053 *)
   Def "gravity_en" ["easting"; "northing"; "upward"; "prism_west"; "prism_east"; "prism_south"; "prism_north"; "prism_bottom"; "prism_top"; "density"] [
    If (Call (Name "is_point_on_upward_edge") [(Name "easting"); (Name "northing"); (Name "upward"); (Name "prism_west"); (Name "prism_east"); (Name "prism_south"); (Name "prism_north"); (Name "prism_bottom"); (Name "prism_top")]) [
      Return (Attribute "np" "nan")] [];
    Return (BinOp (BinOp (Name "GRAVITATIONAL_CONST") Mult (Name "density")) Mult (Call (Name "_evaluate_kernel") [(Name "easting"); (Name "northing"); (Name "upward"); (Name "prism_west"); (Name "prism_east"); (Name "prism_south"); (Name "prism_north"); (Name "prism_bottom"); (Name "prism_top"); (Name "kernel_en")]))];
   (* _gravity.py:1187 *)
   Def "gravity_eu" ["easting"; "northing"; "upward"; "prism_west"; "prism_east"; "prism_south"; "prism_north"; "prism_bottom"; "prism_top"; "density"] [
    If (Call (Name "is_point_on_northing_edge") [(Name "easting"); (Name "northing"); (Name "upward"); (Name "prism_west"); (Name "prism_east"); (Name "prism_south"); (Name "prism_north"); (Name "prism_bottom"); (Name "prism_top")]) [
      Return (Attribute "np" "nan")] [];
    Return (BinOp (BinOp (Name "GRAVITATIONAL_CONST") Mult (Name "density")) Mult (Call (Name "_evaluate_kernel") [(Name "easting"); (Name "northing"); (Name "upward"); (Name "prism_west"); (Name "prism_east"); (Name "prism_south"); (Name "prism_north"); (Name "prism_bottom"); (Name "prism_top"); (Name "kernel_eu")]))];
   (* _gravity.py:1322 *)
   Def "gravity_nu" ["easting"; "northing"; "upward"; "prism_west"; "prism_east"; "prism_south"; "prism_north"; "prism_bottom"; "prism_top"; "density"] [
    If (Call (Name "is_point_on_easting_edge") [(Name "easting"); (Name "northing"); (Name "upward"); (Name "prism_west"); (Name "prism_east"); (Name "prism_south"); (Name "prism_north"); (Name "prism_bottom"); (Name "prism_top")]) [
      Return (Attribute "np" "nan")] [];
    Return (BinOp (BinOp (Name "GRAVITATIONAL_CONST") Mult (Name "density")) Mult (Call (Name "_evaluate_kernel") [(Name "easting"); (Name "northing"); (Name "upward"); (Name "prism_west"); (Name "prism_east"); (Name "prism_south"); (Name "prism_north"); (Name "prism_bottom"); (Name "prism_top"); (Name "kernel_nu")]))];
   (* _gravity.py:1457 *)
   Def "_evaluate_kernel" ["easting"; "northing"; "upward"; "prism_west"; "prism_east"; "prism_south"; "prism_north"; "prism_bottom"; "prism_top"; "kernel"] [
    Assign ["result"] (Int 0);
    For "i" (Call (Name "range") [(Int 2)]) [
      Assign ["shift_east"] (IfExp (Compare (Name "i") [(Eq, (Int 0))]) (BinOp (Name "prism_east") Sub (Name "easting")) (BinOp (Name "prism_west") Sub (Name "easting")));
      Assign ["shift_east_sq"] (BinOp (Name "shift_east") Pow (Int 2));
      For "j" (Call (Name "range") [(Int 2)]) [
        Assign ["shift_north"] (IfExp (Compare (Name "j") [(Eq, (Int 0))]) (BinOp (Name "prism_north") Sub (Name "northing")) (BinOp (Name "prism_south") Sub (Name "northing")));
        Assign ["shift_north_sq"] (BinOp (Name "shift_north") Pow (Int 2));
        For "k" (Call (Name "range") [(Int 2)]) [
          Assign ["shift_upward"] (IfExp (Compare (Name "k") [(Eq, (Int 0))]) (BinOp (Name "prism_top") Sub (Name "upward")) (BinOp (Name "prism_bottom") Sub (Name "upward")));
          Assign ["shift_upward_sq"] (BinOp (Name "shift_upward") Pow (Int 2));
          Assign ["radius"] (Call (Attribute "np" "sqrt") [(BinOp (BinOp (Name "shift_east_sq") Add (Name "shift_north_sq")) Add (Name "shift_upward_sq"))]);
          AugAssign "result" Add (BinOp (BinOp (USub (Int 1)) Pow (BinOp (BinOp (Name "i") Add (Name "j")) Add (Name "k"))) Mult (Call (Name "kernel") [(Name "shift_east"); (Name "shift_north"); (Name "shift_upward"); (Name "radius")]))]]];
    Return (Name "result")]].

(** choclo/prism/_magnetic.py *)
Definition m_choclo_prism__magnetic : pymodule := Module "choclo.prism._magnetic"
  [("choclo.constants", "VACUUM_MAGNETIC_PERMEABILITY"); ("choclo.prism._kernels", "kernel_ee"); ("choclo.prism._kernels", "kernel_eee"); ("choclo.prism._kernels", "kernel_een"); ("choclo.prism._kernels", "kernel_eeu"); ("choclo.prism._kernels", "kernel_en"); ("choclo.prism._kernels", "kernel_enn"); ("choclo.prism._kernels", "kernel_enu"); ("choclo.prism._kernels", "kernel_eu"); ("choclo.prism._kernels", "kernel_euu"); ("choclo.prism._kernels", "kernel_nn"); ("choclo.prism._kernels", "kernel_nnn"); ("choclo.prism._kernels", "kernel_nnu"); ("choclo.prism._kernels", "kernel_nu"); ("choclo.prism._kernels", "kernel_nuu"); ("choclo.prism._kernels", "kernel_uu"); ("choclo.prism._kernels", "kernel_uuu"); ("choclo.prism._utils", "is_interior_point"); ("choclo.prism._utils", "is_point_on_east_face"); ("choclo.prism._utils", "is_point_on_edge"); ("choclo.prism._utils", "is_point_on_north_face"); ("choclo.prism._utils", "is_point_on_top_face")]
  []
  [(* _magnetic.py:43 *)
   Def "magnetic_field" ["easting"; "northing"; "upward"; "prism_west"; "prism_east"; "prism_south"; "prism_north"; "prism_bottom"; "prism_top"; "magnetization_east"; "magnetization_north"; "magnetization_up"] [
    If (BoolOp Or [(Call (Name "is_point_on_edge") [(Name "easting"); (Name "northing"); (Name "upward"); (Name "prism_west"); (Name "prism_east"); (Name "prism_south"); (Name "prism_north"); (Name "prism_bottom"); (Name "prism_top")]); (Call (Name "is_interior_point") [(Name "easting"); (Name "northing"); (Name "upward"); (Name "prism_west"); (Name "prism_east"); (Name "prism_south"); (Name "prism_north"); (Name "prism_bottom"); (Name "prism_top")])]) [
      Return (Tuple [(Attribute "np" "nan"); (Attribute "np" "nan"); (Attribute "np" "nan")])] [];
    Assign ["b_e"; "b_n"; "b_u"] (Tuple [(Float 0 10); (Float 0 10); (Float 0 10)]);
    For "i" (Call (Name "range") [(Int 2)]) [
      Assign ["shift_east"] (IfExp (Compare (Name "i") [(Eq, (Int 0))]) (BinOp (Name "prism_east") Sub (Name "easting")) (BinOp (Name "prism_west") Sub (Name "easting")));
      Assign ["shift_east_sq"] (BinOp (Name "shift_east") Pow (Int 2));
      For "j" (Call (Name "range") [(Int 2)]) [
        Assign ["shift_north"] (IfExp (Compare (Name "j") [(Eq, (Int 0))]) (BinOp (Name "prism_north") Sub (Name "northing")) (BinOp (Name "prism_south") Sub (Name "northing")));
        Assign ["shift_north_sq"] (BinOp (Name "shift_north") Pow (Int 2));
        For "k" (Call (Name "range") [(Int 2)]) [
          Assign ["shift_upward"] (IfExp (Compare (Name "k") [(Eq, (Int 0))]) (BinOp (Name "prism_top") Sub (Name "upward")) (BinOp (Name "prism_bottom") Sub (Name "upward")));
          Assign ["shift_upward_sq"] (BinOp (Name "shift_upward") Pow (Int 2));
          Assign ["radius"] (Call (Attribute "np" "sqrt") [(BinOp (BinOp (Name "shift_east_sq") Add (Name "shift_north_sq")) Add (Name "shift_upward_sq"))]);
          Assign ["k_ee"] (Call (Name "kernel_ee") [(Name "shift_east"); (Name "shift_north"); (Name "shift_upward"); (Name "radius")]);
          Assign ["k_nn"] (Call (Name "kernel_nn") [(Name "shift_east"); (Name "shift_north"); (Name "shift_upward"); (Name "radius")]);
          Assign ["k_uu"] (Call (Name "kernel_uu") [(Name "shift_east"); (Name "shift_north"); (Name "shift_upward"); (Name "radius")]);
          Assign ["k_en"] (Call (Name "kernel_en") [(Name "shift_east"); (Name "shift_north"); (Name "shift_upward"); (Name "radius")]);
          Assign ["k_eu"] (Call (Name "kernel_eu") [(Name "shift_east"); (Name "shift_north"); (Name "shift_upward"); (Name "radius")]);
          Assign ["k_nu"] (Call (Name "kernel_nu") [(Name "shift_east"); (Name "shift_north"); (Name "shift_upward"); (Name "radius")]);
          Assign ["sign"] (BinOp (USub (Int 1)) Pow (BinOp (BinOp (Name "i") Add (Name "j")) Add (Name "k")));
          AugAssign "b_e" Add (BinOp (Name "sign") Mult (BinOp (BinOp (BinOp (Name "magnetization_east") Mult (Name "k_ee")) Add (BinOp (Name "magnetization_north") Mult (Name "k_en"))) Add (BinOp (Name "magnetization_up") Mult (Name "k_eu"))));
          AugAssign "b_n" Add (BinOp (Name "sign") Mult (BinOp (BinOp (BinOp (Name "magnetization_east") Mult (Name "k_en")) Add (BinOp (Name "magnetization_north") Mult (Name "k_nn"))) Add (BinOp (Name "magnetization_up") Mult (Name "k_nu"))));
          AugAssign "b_u" Add (BinOp (Name "sign") Mult (BinOp (BinOp (BinOp (Name "magnetization_east") Mult (Name "k_eu")) Add (BinOp (Name "magnetization_north") Mult (Name "k_nu"))) Add (BinOp (Name "magnetization_up") Mult (Name "k_uu"))))]]];
    If (Call (Name "is_point_on_east_face") [(Name "easting"); (Name "northing"); (Name "upward"); (Name "prism_west"); (Name "prism_east"); (Name "prism_south"); (Name "prism_north"); (Name "prism_bottom"); (Name "prism_top")]) [
      AugAssign "b_e" Add (BinOp (BinOp (Int 4) Mult (Attribute "np" "pi")) Mult (Name "magnetization_east"))] [];
    If (Call (Name "is_point_on_north_face") [(Name "easting"); (Name "northing"); (Name "upward"); (Name "prism_west"); (Name "prism_east"); (Name "prism_south"); (Name "prism_north"); (Name "prism_bottom"); (Name "prism_top")]) [
      AugAssign "b_n" Add (BinOp (BinOp (Int 4) Mult (Attribute "np" "pi")) Mult (Name "magnetization_north"))] [];
    If (Call (Name "is_point_on_top_face") [(Name "easting"); (Name "northing"); (Name "upward"); (Name "prism_west"); (Name "prism_east"); (Name "prism_south"); (Name "prism_north"); (Name "prism_bottom"); (Name "prism_top")]) [
      AugAssign "b_u" Add (BinOp (BinOp (Int 4) Mult (Attribute "np" "pi")) Mult (Name "magnetization_up"))] [];
    Assign ["c_m"] (BinOp (BinOp (Name "VACUUM_MAGNETIC_PERMEABILITY") Div (Int 4)) Div (Attribute "np" "pi"));
    AugAssign "b_e" Mult (Name "c_m");
    AugAssign "b_n" Mult (Name "c_m");
    AugAssign "b_u" Mult (Name "c_m");
    Return (Tuple [(Name "b_e"); (Name "b_n"); (Name "b_u")])];
   (* _magnetic.py:346 *)
   Def "magnetic_e" ["easting"; "northing"; "upward"; "prism_west"; "prism_east"; "prism_south"; "prism_north"; "prism_bottom"; "prism_top"; "magnetization_east"; "magnetization_north"; "magnetization_up"] [
    If (BoolOp Or [(Call (Name "is_point_on_edge") [(Name "easting"); (Name "northing"); (Name "upward"); (Name "prism_west"); (Name "prism_east"); (Name "prism_south"); (Name "prism_north"); (Name "prism_bottom"); (Name "prism_top")]); (Call (Name "is_interior_point") [(Name "easting"); (Name "northing"); (Name "upward"); (Name "prism_west"); (Name "prism_east"); (Name "prism_south"); (Name "prism_north"); (Name "prism_bottom"); (Name "prism_top")])]) [
      Return (Attribute "np" "nan")] [];
    Assign ["b_e"] (Call (Name "_calculate_component") [(Name "easting"); (Name "northing"); (Name "upward"); (Name "prism_west"); (Name "prism_east"); (Name "prism_south"); (Name "prism_north"); (Name "prism_bottom"); (Name "prism_top"); (Name "magnetization_east"); (Name "magnetization_north"); (Name "magnetization_up"); (Name "kernel_ee"); (Name "kernel_en"); (Name "kernel_eu")]);
    If (Call (Name "is_point_on_east_face") [(Name "easting"); (Name "northing"); (Name "upward"); (Name "prism_west"); (Name "prism_east"); (Name "prism_south"); (Name "prism_north"); (Name "prism_bottom"); (Name "prism_top")]) [
      AugAssign "b_e" Add (BinOp (BinOp (Int 4) Mult (Attribute "np" "pi")) Mult (Name "magnetization_east"))] [];
    Return (BinOp (BinOp (BinOp (Name "VACUUM_MAGNETIC_PERMEABILITY") Div (Int 4)) Div (Attribute "np" "pi")) Mult (Name "b_e"))];
   (* _magnetic.py:520 *)
   Def "magnetic_n" ["easting"; "northing"; "upward"; "prism_west"; "prism_east"; "prism_south"; "prism_north"; "prism_bottom"; "prism_top"; "magnetization_east"; "magnetization_north"; "magnetization_up"] [
    If (BoolOp Or [(Call (Name "is_point_on_edge") [(Name "easting"); (Name "northing"); (Name "upward"); (Name "prism_west"); (Name "prism_east"); (Name "prism_south"); (Name "prism_north"); (Name "prism_bottom"); (Name "prism_top")]); (Call (Name "is_interior_point") [(Name "easting"); (Name "northing"); (Name "upward"); (Name "prism_west"); (Name "prism_east"); (Name "prism_south"); (Name "prism_north"); (Name "prism_bottom"); (Name "prism_top")])]) [
      Return (Attribute "np" "nan")] [];
    Assign ["b_n"] (Call (Name "_calculate_component") [(Name "easting"); (Name "northing"); (Name "upward"); (Name "prism_west"); (Name "prism_east"); (Name "prism_south"); (Name "prism_north"); (Name "prism_bottom"); (Name "prism_top"); (Name "magnetization_east"); (Name "magnetization_north"); (Name "magnetization_up"); (Name "kernel_en"); (Name "kernel_nn"); (Name "kernel_nu")]);
    If (Call (Name "is_point_on_north_face") [(Name "easting"); (Name "northing"); (Name "upward"); (Name "prism_west"); (Name "prism_east"); (Name "prism_south"); (Name "prism_north"); (Name "prism_bottom"); (Name "prism_top")]) [
      AugAssign "b_n" Add (BinOp (BinOp (Int 4) Mult (Attribute "np" "pi")) Mult (Name "magnetization_north"))] [];
    Return (BinOp (BinOp (BinOp (Name "VACUUM_MAGNETIC_PERMEABILITY") Div (Int 4)) Div (Attribute "np" "pi")) Mult (Name "b_n"))];
   (* _magnetic.py:694 *)
   Def "magnetic_u" ["easting"; "northing"; "upward"; "prism_west"; "prism_east"; "prism_south"; "prism_north"; "prism_bottom"; "prism_top"; "magnetization_east"; "magnetization_north"; "magnetization_up"] [
    If (BoolOp Or [(Call (Name "is_point_on_edge") [(Name "easting"); (Name "northing"); (Name "upward"); (Name "prism_west"); (Name "prism_east"); (Name "prism_south"); (Name "prism_north"); (Name "prism_bottom"); (Name "prism_top")]); (Call (Name "is_interior_point") [(Name "easting"); (Name "northing"); (Name "upward"); (Name "prism_west"); (Name "prism_east"); (Name "prism_south"); (Name "prism_north"); (Name "prism_bottom"); (Name "prism_top")])]) [
      Return (Attribute "np" "nan")] [];
    Assign ["b_u"] (Call (Name "_calculate_component") [(Name "easting"); (Name "northing"); (Name "upward"); (Name "prism_west"); (Name "prism_east"); (Name "prism_south"); (Name "prism_north"); (Name "prism_bottom"); (Name "prism_top"); (Name "magnetization_east"); (Name "magnetization_north"); (Name "magnetization_up"); (Name "kernel_eu"); (Name "kernel_nu"); (Name "kernel_uu")]);
    If (Call (Name "is_point_on_top_face") [(Name "easting"); (Name "northing"); (Name "upward"); (Name "prism_west"); (Name "prism_east"); (Name "prism_south"); (Name "prism_north"); (Name "prism_bottom"); (Name "prism_top")]) [
      AugAssign "b_u" Add (BinOp (BinOp (Int 4) Mult (Attribute "np" "pi")) Mult (Name "magnetization_up"))] [];
    Return (BinOp (BinOp (BinOp (Name "VACUUM_MAGNETIC_PERMEABILITY") Div (Int 4)) Div (Attribute "np" "pi")) Mult (Name "b_u"))];
   (* _magnetic.py:868 *)
   Def "magnetic_ee" ["easting"; "northing"; "upward"; "prism_west"; "prism_east"; "prism_south"; "prism_north"; "prism_bottom"; "prism_top"; "magnetization_east"; "magnetization_north"; "magnetization_up"] [
    If (BoolOp Or [(Call (Name "is_point_on_edge") [(Name "easting"); (Name "northing"); (Name "upward"); (Name "prism_west"); (Name "prism_east"); (Name "prism_south"); (Name "prism_north"); (Name "prism_bottom"); (Name "prism_top")]); (Call (Name "is_interior_point") [(Name "easting"); (Name "northing"); (Name "upward"); (Name "prism_west"); (Name "prism_east"); (Name "prism_south"); (Name "prism_north"); (Name "prism_bottom"); (Name "prism_top")])]) [
      Return (Attribute "np" "nan")] [];
    Assign ["b_ee"] (Call (Name "_calculate_component") [(Name "easting"); (Name "northing"); (Name "upward"); (Name "prism_west"); (Name "prism_east"); (Name "prism_south"); (Name "prism_north"); (Name "prism_bottom"); (Name "prism_top"); (Name "magnetization_east"); (Name "magnetization_north"); (Name "magnetization_up"); (Name "kernel_eee"); (Name "kernel_een"); (Name "kernel_eeu")]);
    Return (BinOp (BinOp (BinOp (Name "VACUUM_MAGNETIC_PERMEABILITY") Div (Int 4)) Div (Attribute "np" "pi")) Mult (Name "b_ee"))];
   (* _magnetic.py:1003 *)
   Def "magnetic_nn" ["easting"; "northing"; "upward"; "prism_west"; "prism_east"; "prism_south"; "prism_north"; "prism_bottom"; "prism_top"; "magnetization_east"; "magnetization_north"; "magnetization_up"] [
    If (BoolOp Or [(Call (Name "is_point_on_edge") [(Name "easting"); (Name "northing"); (Name "upward"); (Name "prism_west"); (Name "prism_east"); (Name "prism_south"); (Name "prism_north"); (Name "prism_bottom"); (Name "prism_top")]); (Call (Name "is_interior_point") [(Name "easting"); (Name "northing"); (Name "upward"); (Name "prism_west"); (Name "prism_east"); (Name "prism_south"); (Name "prism_north"); (Name "prism_bottom"); (Name "prism_top")])]) [
      Return (Attribute "np" "nan")] [];
    Assign ["b_nn"] (Call (Name "_calculate_component") [(Name "easting"); (Name "northing"); (Name "upward"); (Name "prism_west"); (Name "prism_east"); (Name "prism_south"); (Name "prism_north"); (Name "prism_bottom"); (Name "prism_top"); (Name "magnetization_east"); (Name "magnetization_north"); (Name "magnetization_up"); (Name "kernel_enn"); (Name "kernel_nnn"); (Name "kernel_nnu")]);
    Return (BinOp (BinOp (BinOp (Name "VACUUM_MAGNETIC_PERMEABILITY") Div (Int 4)) Div (Attribute "np" "pi")) Mult (Name "b_nn"))];
   (* _magnetic.py:1138 *)
   Def "magnetic_uu" ["easting"; "northing"; "upward"; "prism_west"; "prism_east"; "prism_south"; "prism_north"; "prism_bottom"; "prism_top"; "magnetization_east"; "magnetization_north"; "magnetization_up"] [
    If (BoolOp Or [(Call (Name "is_point_on_edge") [(Name "easting"); (Name "northing"); (Name "upward"); (Name "prism_west"); (Name "prism_east"); (Name "prism_south"); (Name "prism_north"); (Name "prism_bottom"); (Name "prism_top")]); (Call (Name "is_interior_point") [(Name "easting"); (Name "northing"); (Name "upward"); (Name "prism_west"); (Name "prism_east"); (Name "prism_south"); (Name "prism_north"); (Name "prism_bottom"); (Name "prism_top")])]) [
      Return (Attribute "np" "nan")] [];
    Assign ["b_uu"] (Call (Name "_calculate_component") [(Name "easting"); (Name "northing"); (Name "upward"); (Name "prism_west"); (Name "prism_east"); (Name "prism_south"); (Name "prism_north"); (Name "prism_bottom"); (Name "prism_top"); (Name "magnetization_east"); (Name "magnetization_north"); (Name "magnetization_up"); (Name "kernel_euu"); (Name "kernel_nuu"); (Name "kernel_uuu")]);
    Return (BinOp (BinOp (BinOp (Name "VACUUM_MAGNETIC_PERMEABILITY") Div (Int 4)) Div (Attribute "np" "pi")) Mult (Name "b_uu"))];
   (* _magnetic.py:1273 *)
   Def "magnetic_en" ["easting"; "northing"; "upward"; "prism_west"; "prism_east"; "prism_south"; "prism_north"; "prism_bottom"; "prism_top"; "magnetization_east"; "magnetization_north"; "magnetization_up"] [
    If (BoolOp Or [(Call (Name "is_point_on_edge") [(Name "easting"); (Name "northing"); (Name "upward"); (Name "prism_west"); (Name "prism_east"); (Name "prism_south"); (Name "prism_north"); (Name "prism_bottom"); (Name "prism_top")]); (Call (Name "is_interior_point") [(Name "easting"); (Name "northing"); (Name "upward"); (Name "prism_west"); (Name "prism_east"); (Name "prism_south"); (Name "prism_north"); (Name "prism_bottom"); (Name "prism_top")])]) [
      Return (Attribute "np" "nan")] [];
    Assign ["b_en"] (Call (Name "_calculate_component") [(Name "easting"); (Name "northing"); (Name "upward"); (Name "prism_west"); (Name "prism_east"); (Name "prism_south"); (Name "prism_north"); (Name "prism_bottom"); (Name "prism_top"); (Name "magnetization_east"); (Name "magnetization_north"); (Name "magnetization_up"); (Name "kernel_een"); (Name "kernel_enn"); (Name "kernel_enu")]);
    Return (BinOp (BinOp (BinOp (Name "VACUUM_MAGNETIC_PERMEABILITY") Div (Int 4)) Div (Attribute "np" "pi")) Mult (Name "b_en"))];
   (* _magnetic.py:1408 *)
   Def "magnetic_eu" ["easting"; "northing"; "upward"; "prism_west"; "prism_east"; "prism_south"; "prism_north"; "prism_bottom"; "prism_top"; "magnetization_east"; "magnetization_north"; "magnetization_up"] [
    If (BoolOp Or [(Call (Name "is_point_on_edge") [(Name "easting"); (Name "northing"); (Name "upward"); (Name "prism_west"); (Name "prism_east"); (Name "prism_south"); (Name "prism_north"); (Name "prism_bottom"); (Name "prism_top")]); (Call (Name "is_interior_point") [(Name "easting"); (Name "northing"); (Name "upward"); (Name "prism_west"); (Name "prism_east"); (Name "prism_south"); (Name "prism_north"); (Name "prism_bottom"); (Name "prism_top")])]) [
      Return (Attribute "np" "nan")] [];
    Assign ["b_eu"] (Call (Name "_calculate_component") [(Name "easting"); (Name "northing"); (Name "upward"); (Name "prism_west"); (Name "prism_east"); (Name "prism_south"); (Name "prism_north"); (Name "prism_bottom"); (Name "prism_top"); (Name "magnetization_east"); (Name "magnetization_north"); (Name "magnetization_up"); (Name "kernel_eeu"); (Name "kernel_enu"); (Name "kernel_euu")]);
    Return (BinOp (BinOp (BinOp (Name "VACUUM_MAGNETIC_PERMEABILITY") Div (Int 4)) Div (Attribute "np" "pi")) Mult (Name "b_eu"))];
   (* _magnetic.py:1543 *)
   Def "magnetic_nu" ["easting"; "northing"; "upward"; "prism_west"; "prism_east"; "prism_south"; "prism_north"; "prism_bottom"; "prism_top"; "magnetization_east"; "magnetization_north"; "magnetization_up"] [
    If (BoolOp Or [(Call (Name "is_point_on_edge") [(Name "easting"); (Name "northing"); (Name "upward"); (Name "prism_west"); (Name "prism_east"); (Name "prism_south"); (Name "prism_north"); (Name "prism_bottom"); (Name "prism_top")]); (Call (Name "is_interior_point") [(Name "easting"); (Name "northing"); (Name "upward"); (Name "prism_west"); (Name "prism_east"); (Name "prism_south"); (Name "prism_north"); (Name "prism_bottom"); (Name "prism_top")])]) [
      Return (Attribute "np" "nan")] [];
    Assign ["b_nu"] (Call (Name "_calculate_component") [(Name "easting"); (Name "northing"); (Name "upward"); (Name "prism_west"); (Name "prism_east"); (Name "prism_south"); (Name "prism_north"); (Name "prism_bottom"); (Name "prism_top"); (Name "magnetization_east"); (Name "magnetization_north"); (Name "magnetization_up"); (Name "kernel_enu"); (Name "kernel_nnu"); (Name "kernel_nuu")]);
    Return (BinOp (BinOp (BinOp (Name "VACUUM_MAGNETIC_PERMEABILITY") Div (Int 4)) Div (Attribute "np" "pi")) Mult (Name "b_nu"))];
   (* _magnetic.py:1678 *)
   Def "_calculate_component" ["easting"; "northing"; "upward"; "prism_west"; "prism_east"; "prism_south"; "prism_north"; "prism_bottom"; "prism_top"; "magnetization_east"; "magnetization_north"; "magnetization_up"; "kernel_i"; "kernel_j"; "kernel_k"] [
    Assign ["result"] (Float 0 10);
    For "i" (Call (Name "range") [(Int 2)]) [
      Assign ["shift_east"] (IfExp (Compare (Name "i") [(Eq, (Int 0))]) (BinOp (Name "prism_east") Sub (Name "easting")) (BinOp (Name "prism_west") Sub (Name "easting")));
      Assign ["shift_east_sq"] (BinOp (Name "shift_east") Pow (Int 2));
      For "j" (Call (Name "range") [(Int 2)]) [
        Assign ["shift_north"] (IfExp (Compare (Name "j") [(Eq, (Int 0))]) (BinOp (Name "prism_north") Sub (Name "northing")) (BinOp (Name "prism_south") Sub (Name "northing")));
        Assign ["shift_north_sq"] (BinOp (Name "shift_north") Pow (Int 2));
        For "k" (Call (Name "range") [(Int 2)]) [
          Assign ["shift_upward"] (IfExp (Compare (Name "k") [(Eq, (Int 0))]) (BinOp (Name "prism_top") Sub (Name "upward")) (BinOp (Name "prism_bottom") Sub (Name "upward")));
          Assign ["shift_upward_sq"] (BinOp (Name "shift_upward") Pow (Int 2));
          Assign ["radius"] (Call (Attribute "np" "sqrt") [(BinOp (BinOp (Name "shift_east_sq") Add (Name "shift_north_sq")) Add (Name "shift_upward_sq"))]);
          Assign ["k_e"] (Call (Name "kernel_i") [(Name "shift_east"); (Name "shift_north"); (Name "shift_upward"); (Name "radius")]);
          Assign ["k_n"] (Call (Name "kernel_j") [(Name "shift_east"); (Name "shift_north"); (Name "shift_upward"); (Name "radius")]);
          Assign ["k_u"] (Call (Name "kernel_k") [(Name "shift_east"); (Name "shift_north"); (Name "shift_upward"); (Name "radius")]);
          AugAssign "result" Add (BinOp (BinOp (USub (Int 1)) Pow (BinOp (BinOp (Name "i") Add (Name "j")) Add (Name "k"))) Mult (BinOp (BinOp (BinOp (Name "magnetization_east") Mult (Name "k_e")) Add (BinOp (Name "magnetization_north") Mult (Name "k_n"))) Add (BinOp (Name "magnetization_up") Mult (Name "k_u"))))]]];
    Return (Name "result")]].

Definition choclo : list pymodule :=
  [m_choclo_constants; m_choclo_utils; m_choclo_point; m_choclo_point__kernels; m_choclo_point__forward; m_choclo_dipole; m_choclo_dipole__forward; m_choclo_prism; m_choclo_prism__utils; m_choclo_prism__kernels; m_choclo_prism__gravity; m_choclo_prism__magnetic].
