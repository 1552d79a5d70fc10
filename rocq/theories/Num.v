(** Arithmetic interface of the model.

    The C++ code computes with [double] (and one [float]).  The model is
    written once over this record of operations and used at two instances:
    [B64] (IEEE-754 binary64, file B64.v) and [XR] (extended reals, file
    XR.v). *)
From Coq Require Import ZArith List Bool.
Import ListNotations.

Class Num := {
  num : Type;
  nadd : num -> num -> num;          (* a + b *)
  nsub : num -> num -> num;          (* a - b *)
  nmul : num -> num -> num;          (* a * b *)
  ndiv : num -> num -> num;          (* a / b *)
  nneg : num -> num;                 (* -a *)
  nabs : num -> num;                 (* fabs *)
  nlt : num -> num -> bool;          (* a < b, false on NaN *)
  nle : num -> num -> bool;          (* a <= b, false on NaN *)
  neqb : num -> num -> bool;         (* a == b, false on NaN *)
  nisnan : num -> bool;              (* std::isnan *)
  nofZ : Z -> num;                   (* conversion of an integer to double *)
  nfloor : num -> option Z;          (* std::floor as an integer; None for NaN, +-inf *)
  ntrunc : num -> option Z;          (* truncation toward zero; None for NaN, +-inf *)
  nf32 : num -> num;                 (* (double)(float) x *)
  nexp : num -> num;                 (* exp *)
  ndblmax : num                      (* DBL_MAX *)
}.

Definition nzero {A : Num} : num := nofZ 0.
Definition none_ {A : Num} : num := nofZ 1.
Definition ntwo {A : Num} : num := nofZ 2.

(** What the unqualified call [abs(x)] with a [double] argument means in
    Correlator.cpp:100,101,127,128,166.  Correlator.cpp includes <cmath> but
    neither <math.h> nor <stdlib.h>, and has no [using namespace std].
    libc++ (macOS) declares the floating overloads at global scope:
    [AbsFloat].  libstdc++ (GCC/Linux) declares only the C function
    [int abs(int)] there (bits/std_abs.h puts the others into [std]), so the
    argument is first converted to [int]: [AbsInt]. *)
Inductive abs_meaning := AbsFloat | AbsInt.

(** Build configuration.  [p_checked]: element access with [operator[]] is
    bounds checked (-D_GLIBCXX_ASSERTIONS, libc++ hardening). *)
Record platform := { p_abs : abs_meaning; p_checked : bool }.
