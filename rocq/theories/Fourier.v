(** Fourier transforms of lists of complex numbers: Fft.v for the complex numbers of Cplx.v and the
    functions of mathlib.py.  Paths are relative to /repo/pythonbmp. *)
From Coq Require Import ZArith Reals List.
From Verif Require Import Coords Cplx Fft.
Import ListNotations.
Open Scope R_scope.

(** mathlib.py:1487-1488; the lambdas exp(a * -1j) and exp(a * 1j) *)
Definition fftfn (a : R) : C := cexp (cmul (rtoc a) (copp cI)).
Definition ifftfn (a : R) : C := cexp (cmul (rtoc a) cI).
(** mathlib.py:1520-1535 and 1538-1553 with applyfft of Fft.v; real numbers in place of floats; tau is
    2 pi *)
Definition cfft (v : list C) : list C := fft (0, 0) cadd csub cmul (fun m n => fftfn (2 * PI * INR m / INR n)) v.
Definition cifft (v : list C) : list C := ifft (0, 0) cadd csub cmul (fun m n => ifftfn (2 * PI * INR m / INR n)) v.
