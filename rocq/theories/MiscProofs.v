(** Buffers of pixels: reversal and splitting (proofs). *)
From Coq Require Import ZArith List Bool Lia.
From Verif Require Import PyBase PyFacts Spec Bmp BmpFacts PixelProofs Buffers HorizProofs MathLib.
Import ListNotations.
Open Scope Z_scope.
Open Scope py_scope.
Ltac Zify.zify_post_hook ::= Z.to_euclidean_division_equations.

(** ** RGB2BGRbuf *)
Lemma RGB2BGRbuf_run l n : zlen l = 3 * n -> exists l', RGB2BGRbuf l = Ok l' /\ zlen l' = zlen l /\
  (forall i k, 0 <= i < n -> 0 <= k < 3 -> getz l' (3 * i + k) = getz l (3 * i + (2 - k))).
Proof.
  intros Hn. pose proof (zlen_nonneg l). destruct (Z.eq_dec n 0) as [->|N].
  { assert (l = []) by (apply zlen_0_nil; lia). subst l. exists []. repeat split; auto. intros; lia. }
  unfold RGB2BGRbuf. set (m := zlen l) in *.
  assert (C1 : stepcount 2 m 3 = n) by (apply stepcount_exact; lia).
  assert (C2 : stepcount 0 (m - 2) 3 = n) by (apply stepcount_exact; lia).
  assert (L1 : zlen (py_xslice l 2 m 3) = n) by (rewrite zlen_xslice; fold m; lia).
  assert (L2 : zlen (py_xslice l 0 (m - 2) 3) = n) by (rewrite zlen_xslice; fold m; lia).
  set (a := py_xslice l 2 m 3) in *. set (b := py_xslice l 0 (m - 2) 3) in *.
  assert (Ga : forall i, 0 <= i < n -> getz a i = getz l (2 + i * 3))
    by (intros; unfold a; apply getz_xslice; fold m; lia).
  assert (Gb : forall i, 0 <= i < n -> getz b i = getz l (0 + i * 3))
    by (intros; unfold b; apply getz_xslice; fold m; lia).
  destruct (py_xslice_set l 0 (m - 2) 3 a) as [l1|] eqn:E1.
  2:{ rewrite xslice_set_ok in E1 by (fold m; lia). discriminate. }
  assert (M1 : zlen l1 = m) by (apply (zlen_xslice_set l 0 (m - 2) 3 a l1); auto; fold m; lia).
  cbn beta iota. destruct (py_xslice_set l1 2 m 3 b) as [l2|] eqn:E2.
  2:{ rewrite xslice_set_ok in E2 by lia. discriminate. }
  assert (M2 : zlen l2 = m) by (rewrite <- M1; apply (zlen_xslice_set l1 2 m 3 b l2); auto; lia).
  exists l2. split; auto. split; [exact M2|]. intros i k Hi Hk.
  rewrite (getz_xslice_set l1 2 m 3 b l2 (3 * i + k) ltac:(lia) ltac:(lia) ltac:(lia) ltac:(lia) ltac:(lia) E2).
  rewrite (getz_xslice_set l 0 (m - 2) 3 a l1 (3 * i + k) ltac:(lia) ltac:(fold m; lia) ltac:(fold m; lia) ltac:(lia) ltac:(lia) E1).
  assert (F : forall s e j, in_xslice s e 3 j = true <-> (s <= j < e /\ (j - s) mod 3 = 0)).
  { intros. unfold in_xslice. rewrite !andb_true_iff, Z.leb_le, Z.ltb_lt, Z.eqb_eq. tauto. }
  destruct (in_xslice 2 m 3 (3 * i + k)) eqn:F1; [|destruct (in_xslice 0 (m - 2) 3 (3 * i + k)) eqn:F2].
  - apply F in F1. assert (k = 2) by lia. subst k. replace ((3 * i + 2 - 2) / 3) with i by lia.
    rewrite Gb by lia. f_equal. lia.
  - apply F in F2. assert (k = 0) by lia. subst k. replace ((3 * i + 0 - 0) / 3) with i by lia.
    rewrite Ga by lia. f_equal. lia.
  - assert (k = 1).
    { destruct (Z.eq_dec k 0); [|destruct (Z.eq_dec k 2)]; [| |lia]; exfalso.
      - rewrite (proj2 (F 0 (m - 2) (3 * i + k))) in F2 by lia. discriminate.
      - rewrite (proj2 (F 2 m (3 * i + k))) in F1 by lia. discriminate. }
    subst k. reflexivity.
Qed.

Lemma flip24_run l n : zlen l = 3 * n -> exists l', flip24bitbuf l = Ok l' /\ zlen l' = zlen l /\
  (forall i k, 0 <= i < n -> 0 <= k < 3 -> getz l' (3 * i + k) = getz l (3 * (n - 1 - i) + k)).
Proof.
  intros Hn. unfold flip24bitbuf. destruct (RGB2BGRbuf_run (rev l) n) as (l' & E & L & G); [now rewrite zlen_rev|].
  exists l'. split; auto. split; [now rewrite L, zlen_rev|]. intros i k Hi Hk.
  rewrite G by lia. rewrite getz_rev by lia. f_equal. lia.
Qed.

(** ** rotatebits *)
Lemma rotatebits_spec v : 0 <= v < 256 ->
  0 <= rotatebits v < 256 /\ forall k, 0 <= k < 8 ->
  rotatebits v / 2 ^ k mod 2 = if k =? 7 then 0 else v / 2 ^ (7 - k) mod 2.
Proof.
  intros Hv.
  assert (F : forallb (fun v => (0 <=? rotatebits v) && (rotatebits v <? 256) && forallb (fun k =>
     rotatebits v / 2 ^ k mod 2 =? (if k =? 7 then 0 else v / 2 ^ (7 - k) mod 2)) (range 0 8)) (range 0 256) = true)
    by (vm_compute; reflexivity).
  rewrite forallb_forall in F. specialize (F v ltac:(apply in_range; lia)).
  rewrite !andb_true_iff, Z.leb_le, Z.ltb_lt, forallb_forall in F. destruct F as [F1 F2].
  split; [exact F1|]. intros k Hk. apply Z.eqb_eq. apply F2. apply in_range. lia.
Qed.
Lemma rotatebitsinbuf_run l : bytes l -> exists l', rotatebitsinbuf l = Ok l' /\ bytes l' /\ zlen l' = zlen l /\
  forall i, 0 <= i < zlen l -> getz l' i = rotatebits (getz l i).
Proof.
  intros Hl. unfold rotatebitsinbuf.
  assert (B : bytes (map rotatebits l)).
  { apply Forall_forall. intros x Hx. apply in_map_iff in Hx. destruct Hx as (a & <- & Ha).
    apply rotatebits_spec. exact (proj1 (Forall_forall _ _) Hl a Ha). }
  eexists. split; [now apply py_array_ok|]. split; auto. split; [apply zlen_map|].
  intros i Hi. now rewrite getz_map by lia.
Qed.
Lemma bytes_rev l : bytes l -> bytes (rev l).
Proof. intros H. apply Forall_forall. intros x Hx. apply in_rev in Hx. exact (proj1 (Forall_forall _ _) H x Hx). Qed.

(** ** splitting: a slice with step n that starts at i *)
Lemma split_slice l i e n q : 0 < n -> 0 <= i < n -> 0 <= e <= zlen l -> 0 <= q ->
  i <= zlen l -> i + (q - 1) * n < e <= i + q * n \/ (q = 0 /\ e <= i) ->
  zlen (py_xslice l i e n) = q /\ forall j, 0 <= j < q -> getz (py_xslice l i e n) j = getz l (n * j + i).
Proof.
  intros Hn Hi He Hq Hl Hc.
  assert (C : stepcount i e n = q).
  { destruct Hc as [Hc|[-> Hc]]; [apply stepcount_exact; lia|].
    unfold stepcount. destruct (Z.leb_spec e i); lia. }
  split; [rewrite zlen_xslice; auto; lia|]. intros j Hj. rewrite getz_xslice by lia. f_equal. lia.
Qed.
