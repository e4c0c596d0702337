(** Property C113: Fourier transforms. *)
From Coq Require Import List PeanoNat Arith ZArith Ring Ring_theory Lia.
From Verif Require Import Fft SpecFft FftProofs.
Import ListNotations.

(** For lists whose length is a power of two, fft is the discrete Fourier transform:
    in any commutative ring, with w in place of exp(- 2 pi i / 2^k). *)
Theorem C113_transform : forall (R : Type) zero one add mul sub opp, @ring_theory R zero one add mul sub opp eq ->
  forall k w fn v, length v = 2 ^ k -> (k = 0 \/ rpow one mul w (2 ^ (k - 1)) = opp one) ->
  (* fn m n is the power of w for the angle 2 pi m / n *)
  (forall m e, 1 <= e <= k -> m < 2 ^ (e - 1) -> fn m (2 ^ e) = rpow one mul w (m * 2 ^ (k - e))) ->
  length (fft zero add sub mul fn v) = 2 ^ k /\
  forall j, j < 2 ^ k -> nth j (fft zero add sub mul fn v) zero = rsum zero add (fun i => mul (nth i v zero) (rpow one mul w (i * j))) (2 ^ k).
Proof.
  intros R zero one add mul sub opp RT k w fn v L Hw Hf. unfold fft. split; [rewrite fft_len; exact L|]. intros j Hj.
  apply (fft_dft R zero one add mul sub opp RT k fn w v); auto. rewrite L. apply Nat.lt_le_incl, Nat.pow_gt_lin_r. lia.
Qed.
(** ifft after fft multiplies every entry by the length: it is the inverse only up to that
    factor *)
Theorem C113_inverse : forall (R : Type) zero one add mul sub opp, @ring_theory R zero one add mul sub opp eq ->
  forall k w w' fn fn' v, length v = 2 ^ k -> mul w w' = one -> (k = 0 \/ rpow one mul w (2 ^ (k - 1)) = opp one) ->
  (forall m e, 1 <= e <= k -> m < 2 ^ (e - 1) -> fn m (2 ^ e) = rpow one mul w (m * 2 ^ (k - e))) ->
  (forall m e, 1 <= e <= k -> m < 2 ^ (e - 1) -> fn' m (2 ^ e) = rpow one mul w' (m * 2 ^ (k - e))) ->
  ifft zero add sub mul fn' (fft zero add sub mul fn v) = map (times zero add (length v)) v.
Proof.
  intros R zero one add mul sub opp RT k w w' fn fn' v L Hi Hw Hf Hf'.
  assert (Z0 : forall n, times zero add n zero = zero).
  { intros n. unfold times. apply (sum_zero R zero one add mul sub opp RT). auto. }
  apply (nth_ext _ _ zero zero).
  - unfold ifft, fft. now rewrite !fft_len, map_length.
  - intros j Hj. assert (Hl : j < 2 ^ k) by (unfold ifft, fft in Hj; now rewrite !fft_len, L in Hj). clear Hj. rewrite L.
    transitivity (times zero add (2 ^ k) (nth j v zero)); [|rewrite <- (map_nth (times zero add (2 ^ k))), Z0; reflexivity].
    apply (fft_inverse R zero one add mul sub opp RT k fn fn' w w'); auto.
Qed.
(** With an odd length the last entry stays as it is. *)
Theorem C113_odd_last : forall (R : Type) (zero : R) add mul sub fn v, Nat.odd (length v) = true ->
  nth (length v - 1) (fft zero add sub mul fn v) zero = nth (length v - 1) v zero.
Proof. intros. apply fft_odd; auto. Qed.

(** Gaussian integers, with - i as the root of unity *)
Definition gadd (a b : Z * Z) := (fst a + fst b, snd a + snd b)%Z.
Definition gsub (a b : Z * Z) := (fst a - fst b, snd a - snd b)%Z.
Definition gopp (a : Z * Z) := (- fst a, - snd a)%Z.
Definition gmul (a b : Z * Z) := (fst a * fst b - snd a * snd b, fst a * snd b + snd a * fst b)%Z.
Definition gfn (s : Z) (m n : nat) : Z * Z := rpow (1, 0)%Z gmul (0, s)%Z (m * (4 / n)).
Example C113_ex : ring_theory (0, 0)%Z (1, 0)%Z gadd gmul gsub gopp eq /\
  rpow (1, 0)%Z gmul (0, -1)%Z (2 ^ (2 - 1)) = gopp (1, 0)%Z /\ gmul (0, -1)%Z (0, 1)%Z = (1, 0)%Z /\
  (forall s m e, 1 <= e <= 2 -> m < 2 ^ (e - 1) -> gfn s m (2 ^ e) = rpow (1, 0)%Z gmul (0, s)%Z (m * 2 ^ (2 - e))) /\
  fft (0, 0)%Z gadd gsub gmul (gfn (-1)) [(1, 0); (2, 0); (4, 0); (0, 3)]%Z = [(7, 3); (-6, -2); (3, -3); (0, 2)]%Z /\
  ifft (0, 0)%Z gadd gsub gmul (gfn 1) [(7, 3); (-6, -2); (3, -3); (0, 2)]%Z = [(4, 0); (8, 0); (16, 0); (0, 12)]%Z /\
  fft (0, 0)%Z gadd gsub gmul (gfn (-1)) [(1, 0); (2, 0); (4, 0)]%Z = [(7, 0); (3, 0); (4, 0)]%Z.
Proof.
  split.
  { constructor; intros; repeat match goal with a : (Z * Z)%type |- _ => destruct a end; unfold gadd, gmul, gsub, gopp; cbn [fst snd]; f_equal; ring. }
  split; [reflexivity|]. split; [reflexivity|]. split.
  { intros s m e He Hm. unfold gfn. f_equal. f_equal. destruct e as [|[|[|e]]]; try lia; reflexivity. }
  split; [vm_compute; reflexivity|]. split; [vm_compute; reflexivity|]. vm_compute. reflexivity.
Qed.

Print Assumptions C113_transform.
Print Assumptions C113_inverse.
Print Assumptions C113_odd_last.
