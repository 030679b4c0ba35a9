(** * FloatModel: the f64 numbers of the code

    The numbers of type f64 are the IEEE 754 binary64 numbers of Coq's standard library ([SpecFloat], pure definitions: no
    axiom and no primitive).  The operations round to nearest, ties to even, as those of the code (Rust, type f64).  Not
    modelled: the payload of NaN. *)
From Coq Require Export ZArith.
From Coq.Floats Require Export SpecFloat.

Notation f64 := spec_float.
Definition f64_add : f64 -> f64 -> f64 := SFadd 53 1024.
Definition f64_sub : f64 -> f64 -> f64 := SFsub 53 1024.
Definition f64_mul : f64 -> f64 -> f64 := SFmul 53 1024.
Definition f64_div : f64 -> f64 -> f64 := SFdiv 53 1024.
Definition f64_abs : f64 -> f64 := SFabs.
(** [partial_cmp], [<], [==]; with a NaN: [None], false, false *)
Definition f64_cmp : f64 -> f64 -> option comparison := SFcompare.
Definition f64_lt (x y : f64) : bool := SFltb x y.
Definition f64_eq (x y : f64) : bool := SFeqb x y.
(** [f64::from] of an integer *)
Definition f64_of_Z (z : Z) : f64 := binary_normalize 53 1024 z 0 false.
(** The literals 0.0 and 1.0 *)
Definition f64_zero : f64 := S754_zero false.
Definition f64_one : f64 := S754_finite false 4503599627370496 (-52).
(** A value that a variable of type f64 can have. *)
Definition f64_valid (x : f64) : bool := valid_binary 53 1024 x.
Definition f64_finite (x : f64) : bool := match x with S754_zero _ | S754_finite _ _ _ => true | _ => false end.
