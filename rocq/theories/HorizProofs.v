(** Column-wise operations: horizontal flips and mirrors (proofs). *)
From Coq Require Import ZArith List Bool Lia.
From Verif Require Import PyBase PyFacts Spec Bmp BmpFacts PixelProofs Buffers Region Raster VertProofs.
Import ListNotations.
Open Scope Z_scope.
Open Scope py_scope.
Ltac Zify.zify_post_hook ::= Z.to_euclidean_division_equations.

(** ** one byte column *)
Definition incol (y1 y2 k k' y' : Z) : bool := (k' =? k) && ((y1 <=? y') && (y' <=? y2)).

(** Reading a column of [b0] and writing it, through [f], to a column of [b]:
    the setting of every step. *)
Definition colbuf (b : list Z) (w h bits y1 y2 k : Z) (v : list Z) : Prop :=
  zlen v = y2 - y1 + 1 /\ bytes v /\
  forall i, 0 <= i < y2 - y1 + 1 -> getz v i = raster b w h bits k (y2 - i).

Lemma run_col_get b w h bits o y1 y2 k s e : wf b w h bits ->
  0 <= y1 <= y2 /\ y2 < h -> 0 <= k < stride w bits ->
  s = rowaddr w h bits y2 + k ->
  rowaddr w h bits y1 + k < e <= rowaddr w h bits y1 + k + stride w bits ->
  exists v, xslice s e (stride w bits) (mkst b o) = (Ok v, mkst b o) /\ colbuf b w h bits y1 y2 k v.
Proof.
  intros W Hy Hk -> He. exists (py_xslice b (rowaddr w h bits y2 + k) e (stride w bits)).
  split; [apply run_xslice|]. exact (col_get b w h bits y1 y2 k e W Hy Hk He).
Qed.
Lemma run_col_set b w h bits o y1 y2 k s e b0 k0 (f : Z -> Z) v : wf b w h bits ->
  0 <= y1 <= y2 /\ y2 < h -> 0 <= k < stride w bits ->
  s = rowaddr w h bits y2 + k ->
  rowaddr w h bits y1 + k < e <= rowaddr w h bits y1 + k + stride w bits ->
  zlen v = y2 - y1 + 1 -> bytes v ->
  (forall i, 0 <= i < y2 - y1 + 1 -> getz v i = f (raster b0 w h bits k0 (y2 - i))) ->
  exists b', xslice_set s e (stride w bits) v (mkst b o) = (Ok tt, mkst b' o) /\
    rastered b b' w h bits (fun k' y' =>
      if incol y1 y2 k k' y' then f (raster b0 w h bits k0 y') else raster b w h bits k' y').
Proof.
  intros W Hy Hk -> He V1 V2 V3.
  destruct (col_set b w h bits y1 y2 k e W Hy Hk He v V1 V2) as (b' & E & R).
  exists b'. split; [now apply run_xslice_set|]. eapply rastered_ext; [|exact R].
  intros k' y' Hk' Hy'. cbn beta. unfold incol.
  destruct (Z.eqb_spec k' k) as [->|]; cbn [andb]; auto.
  destruct (Z.leb_spec y1 y'), (Z.leb_spec y' y2); cbn [andb]; auto.
  rewrite V3 by lia. do 2 f_equal. lia.
Qed.

(** ** nibbles *)
Definition swapnib (v : Z) : Z := v mod 16 * 16 + v / 16.
Lemma flipnib_run v : bytes v -> exists v', flipnibbleinbuf v = Ok v' /\ bytes v' /\ zlen v' = zlen v /\
   forall i, 0 <= i < zlen v -> getz v' i = swapnib (getz v i).
Proof.
  intros Hv. unfold flipnibbleinbuf.
  assert (B : bytes (map (fun b => Z.shiftr b 4 + Z.shiftl (b mod 16) 4) v)).
  { apply Forall_forall. intros x Hx. apply in_map_iff in Hx. destruct Hx as (a & <- & Ha).
    pose proof (proj1 (Forall_forall _ _) Hv a Ha) as Hb. unfold byte in *.
    rewrite shiftl4. change (Z.shiftr a 4) with (Z.shiftr a 4). rewrite Z.shiftr_div_pow2 by lia.
    change (2 ^ 4) with 16. lia. }
  eexists. split; [now apply py_array_ok|]. split; auto. split; [apply zlen_map|].
  intros i Hi. rewrite getz_map by lia. unfold swapnib. rewrite shiftl4, Z.shiftr_div_pow2 by lia.
  change (2 ^ 4) with 16. lia.
Qed.

(** ** one step *)
Inductive hop : Set := HF | HL | HR.
Definition wr1 (op : hop) : bool := match op with HL => false | _ => true end.
Definition wr2 (op : hop) : bool := match op with HR => false | _ => true end.

(** What a step does: blocks of [p] bytes at [k1] and [k2] in rows y1..y2 are
    exchanged or copied through [f]. *)
Definition hstepG (b : list Z) (w h bits y1 y2 : Z) (op : hop) (f : Z -> Z) (p k1 k2 k' y' : Z) : Z :=
  if (y1 <=? y') && (y' <=? y2) then
    if wr2 op && incols k2 p k' then f (raster b w h bits (k1 + (k' - k2)) y')
    else if wr1 op && incols k1 p k' then f (raster b w h bits (k2 + (k' - k1)) y')
    else raster b w h bits k' y'
  else raster b w h bits k' y'.

Section Step.
  Variables (w h bits y1 y2 : Z).
  Hypothesis Hy : 0 <= y1 <= y2 /\ y2 < h.
  Notation r := (stride w bits).
  Notation ra := (rowaddr w h bits).

  Definition step_ok (op : hop) (f : Z -> Z) (p : Z) (sw : Z -> Z -> Z -> Z -> Z -> M unit) : Prop :=
    forall b o k1 k2, wf b w h bits -> 0 <= k1 -> k1 + p <= r -> 0 <= k2 -> k2 + p <= r ->
      (k1 + p <= k2 \/ k1 = k2) ->
      exists b', sw (ra y2 + k1) (ra y1 + k1 + r) (ra y2 + k2) (ra y1 + k2 + r) r (mkst b o) = (Ok tt, mkst b' o) /\
        rastered b b' w h bits (hstepG b w h bits y1 y2 op f p k1 k2).

  Ltac getw := first [assumption | eapply rastered_wf; eassumption].
  Ltac cget kk v V :=
    match goal with |- context [bind (xslice ?s ?e (stride ?w ?bits)) _ (mkst ?b ?o)] =>
      let E := fresh "E" in
      destruct (run_col_get b w h bits o y1 y2 kk s e ltac:(getw) Hy ltac:(lia) ltac:(lia) ltac:(lia)) as (v & E & V);
      rewrite (bind_ok _ _ _ _ _ E); clear E
    end.
  Ltac cset kk b0 kk0 f V b' R :=
    let V1 := fresh "V" in let V2 := fresh "V" in let V3 := fresh "V" in
    let E := fresh "E" in
    pose proof V as (V1 & V2 & V3);
    match goal with
    | |- context [bind (xslice_set ?s ?e (stride ?w ?bits) ?v) _ (mkst ?b ?o)] =>
      destruct (run_col_set b w h bits o y1 y2 kk s e b0 kk0 f v ltac:(getw) Hy ltac:(lia) ltac:(lia) ltac:(lia)
         V1 V2 V3) as (b' & E & R);
      rewrite (bind_ok _ _ _ _ _ E); clear E V1 V2 V3
    | |- context [xslice_set ?s ?e (stride ?w ?bits) ?v (mkst ?b ?o)] =>
      destruct (run_col_set b w h bits o y1 y2 kk s e b0 kk0 f v ltac:(getw) Hy ltac:(lia) ltac:(lia) ltac:(lia)
         V1 V2 V3) as (b' & E & R);
      rewrite E; clear E V1 V2 V3
    end.
  Definition idf (v : Z) : Z := v.
  Ltac fin :=
    cbn beta; unfold idf, hstepG, incol, incols, wr1, wr2; cbn [andb];
    match goal with |- context [(y1 <=? ?y') && _] =>
      destruct (Z.leb_spec y1 y'), (Z.leb_spec y' y2); cbn [andb]; rewrite ?andb_true_r, ?andb_false_r; auto end;
    repeat match goal with
      | |- context [?a =? ?c] => destruct (Z.eqb_spec a c); [subst a|]
      end; cbn [andb]; 
    bcases; try lia; auto; do 2 f_equal; try lia; f_equal; lia.

  Lemma step8 op : bits = 8 -> step_ok op idf 1
    (match op with
     | HF => fun s1 e1 s2 e2 r =>
       a2 <- xslice s2 e2 r ;; a1 <- xslice s1 e1 r ;;
       xslice_set s1 e1 r a2 ;;; xslice_set s2 e2 r a1
     | HL => fun s1 e1 s2 e2 r => a <- xslice s1 e1 r ;; xslice_set s2 e2 r a
     | HR => fun s1 e1 s2 e2 r => a <- xslice s2 e2 r ;; xslice_set s1 e1 r a
     end).
  Proof.
    intros Eb b o k1 k2 W H1 H2 H3 H4 H5. destruct op.
    - cget k2 v2 V2. cget k1 v1 V1. cset k1 b k2 idf V2 b1 R1. cset k2 b k1 idf V1 b2 R2.
      exists b2. split; [reflexivity|]. eapply rastered_ext; [|exact (rastered_trans _ _ _ _ _ _ _ _ R1 R2)].
      intros k' y' Hk' Hy'. cbn beta. rewrite (proj2 (proj2 R1)) by auto. fin.
    - cget k1 v1 V1. cset k2 b k1 idf V1 b1 R1.
      exists b1. split; [reflexivity|]. eapply rastered_ext; [|exact R1]. intros k' y' Hk' Hy'. fin.
    - cget k2 v1 V1. cset k1 b k2 idf V1 b1 R1.
      exists b1. split; [reflexivity|]. eapply rastered_ext; [|exact R1]. intros k' y' Hk' Hy'. fin.
  Qed.

  Definition nibbuf b k v := zlen v = y2 - y1 + 1 /\ bytes v /\
     forall i, 0 <= i < y2 - y1 + 1 -> getz v i = swapnib (raster b w h bits k (y2 - i)).
  Lemma colbuf_nib b o k v : colbuf b w h bits y1 y2 k v ->
    forall mem, exists v', lift (flipnibbleinbuf v) (mkst mem o) = (Ok v', mkst mem o) /\ nibbuf b k v'.
  Proof.
    intros (V1 & V2 & V3) m. destruct (flipnib_run v V2) as (v' & E & B1 & B2 & B3).
    exists v'. split; [now apply run_lift|]. split; [lia|]. split; auto.
    intros i Hi. rewrite B3, V3 by lia. reflexivity.
  Qed.
  Ltac cnib V v' V' :=
    match goal with |- context [bind (lift (flipnibbleinbuf ?v)) _ (mkst ?b ?o)] =>
      let E := fresh "E" in
      destruct (colbuf_nib _ o _ v V b) as (v' & E & V'); rewrite (bind_ok _ _ _ _ _ E); clear E end.

  Lemma step4 op : bits = 4 -> step_ok op swapnib 1
    (match op with
     | HF => fun s1 e1 s2 e2 r =>
       a2 <- xslice s2 e2 r ;; a2 <- lift (flipnibbleinbuf a2) ;;
       a1 <- xslice s1 e1 r ;; a1 <- lift (flipnibbleinbuf a1) ;;
       xslice_set s1 e1 r a2 ;;; xslice_set s2 e2 r a1
     | HL => fun s1 e1 s2 e2 r => a <- xslice s1 e1 r ;; a <- lift (flipnibbleinbuf a) ;; xslice_set s2 e2 r a
     | HR => fun s1 e1 s2 e2 r => a <- xslice s2 e2 r ;; a <- lift (flipnibbleinbuf a) ;; xslice_set s1 e1 r a
     end).
  Proof.
    intros Eb b o k1 k2 W H1 H2 H3 H4 H5. destruct op.
    - cget k2 v2 V2. cnib V2 v2' V2'. cget k1 v1 V1. cnib V1 v1' V1'.
      cset k1 b k2 swapnib V2' b1 R1. cset k2 b k1 swapnib V1' b2 R2.
      exists b2. split; [reflexivity|]. eapply rastered_ext; [|exact (rastered_trans _ _ _ _ _ _ _ _ R1 R2)].
      intros k' y' Hk' Hy'. cbn beta. rewrite (proj2 (proj2 R1)) by auto. fin.
    - cget k1 v1 V1. cnib V1 v1' V1'. cset k2 b k1 swapnib V1' b1 R1.
      exists b1. split; [reflexivity|]. eapply rastered_ext; [|exact R1]. intros k' y' Hk' Hy'. fin.
    - cget k2 v1 V1. cnib V1 v1' V1'. cset k1 b k2 swapnib V1' b1 R1.
      exists b1. split; [reflexivity|]. eapply rastered_ext; [|exact R1]. intros k' y' Hk' Hy'. fin.
  Qed.

  Lemma step24 op : bits = 24 -> step_ok op idf 3
    (match op with
     | HF => fun s1 e1 s2 e2 r =>
       a2 <- xslice s2 (e2 - 2) r ;; a1 <- xslice s1 (e1 - 2) r ;;
       b2 <- xslice (s2 + 1) (e2 - 1) r ;; b1 <- xslice (s1 + 1) (e1 - 1) r ;;
       c2 <- xslice (s2 + 2) e2 r ;; c1 <- xslice (s1 + 2) e1 r ;;
       xslice_set s1 (e1 - 2) r a2 ;;; xslice_set s2 (e2 - 2) r a1 ;;;
       xslice_set (s1 + 1) (e1 - 1) r b2 ;;; xslice_set (s2 + 1) (e2 - 1) r b1 ;;;
       xslice_set (s1 + 2) e1 r c2 ;;; xslice_set (s2 + 2) e2 r c1
     | HL => fun s1 e1 s2 e2 r =>
       a <- xslice s1 (e1 - 2) r ;; b <- xslice (s1 + 1) (e1 - 1) r ;; c <- xslice (s1 + 2) e1 r ;;
       xslice_set s2 (e2 - 2) r a ;;; xslice_set (s2 + 1) (e2 - 1) r b ;;; xslice_set (s2 + 2) e2 r c
     | HR => fun s1 e1 s2 e2 r =>
       a <- xslice s2 (e2 - 2) r ;; b <- xslice (s2 + 1) (e2 - 1) r ;; c <- xslice (s2 + 2) e2 r ;;
       xslice_set s1 (e1 - 2) r a ;;; xslice_set (s1 + 1) (e1 - 1) r b ;;; xslice_set (s1 + 2) e1 r c
     end).
  Proof.
    intros Eb b o k1 k2 W H1 H2 H3 H4 H5. pose proof (stride_ge4 w bits ltac:(lia)) as S4. destruct op.
    - cget k2 a2 A2. cget k1 a1 A1. cget (k2 + 1) b2 B2. cget (k1 + 1) b1 B1. cget (k2 + 2) c2 C2. cget (k1 + 2) c1 C1.
      cset k1 b k2 idf A2 m1 R1. cset k2 b k1 idf A1 m2 R2.
      cset (k1 + 1) b (k2 + 1) idf B2 m3 R3. cset (k2 + 1) b (k1 + 1) idf B1 m4 R4.
      cset (k1 + 2) b (k2 + 2) idf C2 m5 R5. cset (k2 + 2) b (k1 + 2) idf C1 m6 R6.
      exists m6. split; [reflexivity|].
      pose proof (rastered_trans _ _ _ _ _ _ _ _ R1 (rastered_trans _ _ _ _ _ _ _ _ R2 (rastered_trans _ _ _ _ _ _ _ _ R3
        (rastered_trans _ _ _ _ _ _ _ _ R4 (rastered_trans _ _ _ _ _ _ _ _ R5 R6))))) as R.
      eapply rastered_ext; [|exact R].
      intros k' y' Hk' Hy'. cbn beta. rewrite (proj2 (proj2 R5)) by auto. rewrite (proj2 (proj2 R4)) by auto.
      rewrite (proj2 (proj2 R3)) by auto. rewrite (proj2 (proj2 R2)) by auto. rewrite (proj2 (proj2 R1)) by auto.
      clear R R1 R2 R3 R4 R5 R6 A1 A2 B1 B2 C1 C2. fin.
    - cget k1 a1 A1. cget (k1 + 1) b1 B1. cget (k1 + 2) c1 C1.
      cset k2 b k1 idf A1 m1 R1. cset (k2 + 1) b (k1 + 1) idf B1 m2 R2. cset (k2 + 2) b (k1 + 2) idf C1 m3 R3.
      exists m3. split; [reflexivity|].
      pose proof (rastered_trans _ _ _ _ _ _ _ _ R1 (rastered_trans _ _ _ _ _ _ _ _ R2 R3)) as R.
      eapply rastered_ext; [|exact R].
      intros k' y' Hk' Hy'. cbn beta. rewrite (proj2 (proj2 R2)) by auto. rewrite (proj2 (proj2 R1)) by auto.
      clear R R1 R2 R3 A1 B1 C1. fin.
    - cget k2 a1 A1. cget (k2 + 1) b1 B1. cget (k2 + 2) c1 C1.
      cset k1 b k2 idf A1 m1 R1. cset (k1 + 1) b (k2 + 1) idf B1 m2 R2. cset (k1 + 2) b (k2 + 2) idf C1 m3 R3.
      exists m3. split; [reflexivity|].
      pose proof (rastered_trans _ _ _ _ _ _ _ _ R1 (rastered_trans _ _ _ _ _ _ _ _ R2 R3)) as R.
      eapply rastered_ext; [|exact R].
      intros k' y' Hk' Hy'. cbn beta. rewrite (proj2 (proj2 R2)) by auto. rewrite (proj2 (proj2 R1)) by auto.
      clear R R1 R2 R3 A1 B1 C1. fin.
  Qed.
End Step.

(** ** the loop of horizontalbulkswap *)
Definition hmir (p U k : Z) : Z := p * (U - k / p) + k mod p.
Definition hval (b : list Z) (w h bits : Z) (op : hop) (f : Z -> Z) (p U k y : Z) : Z :=
  match op with
  | HF => f (raster b w h bits (hmir p U k) y)
  | HL => if U <=? 2 * (k / p) then f (raster b w h bits (hmir p U k) y) else raster b w h bits k y
  | HR => if 2 * (k / p) <=? U then f (raster b w h bits (hmir p U k) y) else raster b w h bits k y
  end.
Lemma incols_unit p u k : p = 1 \/ p = 3 -> incols (p * u) p k = (k / p =? u).
Proof. unfold incols. intros [-> | ->]; bcases; auto; lia. Qed.

(** units already treated after [j] steps *)
Definition proc (U1 U2 j u : Z) : bool :=
  ((U1 <=? u) && (u <? U1 + j)) || ((U2 - j <? u) && (u <=? U2)).
Lemma proc_0 U1 U2 u : proc U1 U2 0 u = false.
Proof. unfold proc. bcases; auto; lia. Qed.
Lemma proc_S U1 U2 j u : U1 + j <= U2 - j -> 0 <= j -> u <> U1 + j -> u <> U2 - j ->
  proc U1 U2 (j + 1) u = proc U1 U2 j u.
Proof. unfold proc. intros. bcases; auto; lia. Qed.
Lemma proc_1 U1 U2 j : U1 + j <= U2 - j -> 0 <= j -> proc U1 U2 j (U1 + j) = false /\ proc U1 U2 (j + 1) (U1 + j) = true.
Proof. unfold proc. intros. split; bcases; auto; lia. Qed.
Lemma proc_2 U1 U2 j : U1 + j <= U2 - j -> 0 <= j -> proc U1 U2 j (U2 - j) = false /\ proc U1 U2 (j + 1) (U2 - j) = true.
Proof. unfold proc. intros. split; bcases; auto; lia. Qed.
Lemma proc_end U1 U2 n u : 0 <= n -> U1 <= U2 -> U2 - U1 <= 2 * n -> (0 < n -> U1 + (n - 1) <= U2 - (n - 1)) ->
  2 * u <> U1 + U2 \/ U2 - U1 < 2 * n -> proc U1 U2 n u = (U1 <=? u) && (u <=? U2).
Proof. unfold proc. intros. bcases; auto; lia. Qed.

Lemma blk_fit p U2 s u : p = 1 \/ p = 3 -> 0 <= u <= U2 -> p * (U2 + 1) <= s -> 0 <= p * u /\ p * u + p <= s.
Proof. intros [-> | ->]; lia. Qed.
Lemma blk_sep p u v : p = 1 \/ p = 3 -> u < v -> p * u + p <= p * v.
Proof. intros [-> | ->]; lia. Qed.
Lemma blk_in p U2 s u k : p = 1 \/ p = 3 -> 0 <= u <= U2 -> p * (U2 + 1) <= s ->
  0 <= p * u + k mod p < s /\ (p * u + k mod p) / p = u.
Proof. intros [-> | ->]; lia. Qed.
Lemma blk_dec p k : p = 1 \/ p = 3 -> k = p * (k / p) + k mod p.
Proof. intros [-> | ->]; lia. Qed.
Lemma fuel_enough xa xb dx n : 0 < dx -> 0 <= n -> (n = 0 \/ xa + dx * (n - 1) < xb - dx * (n - 1)) -> 
  (Z.to_nat n <= Z.to_nat (xb - xa))%nat.
Proof. intros. nia. Qed.

Section Loop.
  Variables (b : list Z) (w h bits y1 y2 xa xb dx p U1 U2 n : Z) (op : hop) (f : Z -> Z).
  Variable sw : Z -> Z -> Z -> Z -> Z -> M unit.
  Variable o : list msg.
  Hypothesis W : wf b w h bits.
  Hypothesis Hy : 0 <= y1 <= y2 /\ y2 < h.
  Hypothesis Hp : p = 1 \/ p = 3.
  Hypothesis Hsw : step_ok w h bits y1 y2 op f p sw.
  Hypothesis HU : 0 <= U1 <= U2 /\ p * (U2 + 1) <= stride w bits.
  Hypothesis Hdx : 0 < dx.
  Hypothesis Hn : 0 <= n.
  Hypothesis Hlt : forall j, 0 <= j < n -> xa + dx * j < xb - dx * j.
  Hypothesis Hge : xb - dx * n <= xa + dx * n.
  Hypothesis Hun : forall j, 0 <= j < n -> U1 + j < U2 - j \/ (U1 + j = U2 - j /\ p = 1 /\ bits = 4).
  Hypothesis Hmid : U2 - U1 <= 2 * n.
  Hypothesis Hmid2 : U2 - U1 = 2 * n -> forall v, f v = v.
  Hypothesis Haddr : forall j, 0 <= j < n ->
    (xa + dx * j) * bits / 8 = p * (U1 + j) /\ (xb - dx * j) * bits / 8 = p * (U2 - j).

  Definition hprocessed (j k' y' : Z) : bool :=
    ((y1 <=? y') && (y' <=? y2)) && proc U1 U2 j (k' / p).

  Lemma hloop_run : exists q b',
    whileM (Z.to_nat (xb - xa))
      (fun p => let '(x1, x2) := p in x1 <? x2)
      (fun p => let '(x1, x2) := p in
         a <- rd (bmoffsethd x1 y2) ;;
         b <- rd (bmoffsethd x1 y1) ;;
         c <- rd (bmoffsethd x2 y2) ;;
         d <- rd (bmoffsethd x2 y1) ;;
         sw a (b + stride w bits) c (d + stride w bits) (stride w bits) ;;;
         ret (x1 + dx, x2 - dx))
      (xa, xb) (mkst b o) = (Ok q, mkst b' o) /\
    rastered b b' w h bits (fun k y =>
      if ((y1 <=? y) && (y <=? y2)) && ((U1 <=? k / p) && (k / p <=? U2))
      then hval b w h bits op f p (U1 + U2) k y else raster b w h bits k y).
  Proof.
    match goal with |- exists q b', whileM ?fu ?co ?bo _ _ = _ /\ _ =>
      destruct (whileM_inv (fun j q s => q = (xa + dx * j, xb - dx * j) /\ out s = o /\
        rastered b (mem s) w h bits (fun k y =>
          if hprocessed j k y then hval b w h bits op f p (U1 + U2) k y else raster b w h bits k y))
        co bo n fu (xa, xb) (mkst b o)) as (q & s' & E & Eq & Eo & R) end.
    - exact Hn.
    - apply (fuel_enough xa xb dx n Hdx Hn).
      destruct (Z.eq_dec n 0) as [En|Nn]; [now left|right; apply Hlt; clear - Hn Nn; lia].
    - split; [f_equal; ring|]. split; auto. eapply rastered_ext; [|apply rastered_refl; auto].
      intros k y _ _. unfold hprocessed. now rewrite proc_0, andb_false_r.
    - intros j q s Hj (-> & Eo & R). split; [apply Z.ltb_lt; auto|].
      destruct s as [bj oj]. cbn [mem out] in *. subst oj. pose proof (rastered_wf _ _ _ _ _ _ R) as Wj.
      destruct (Haddr j Hj) as (A1 & A2).
      rewrite (bind_ok _ _ _ _ _ (run_rd _ _ _ _ (wf_offsethd _ _ _ _ Wj _ _))).
      rewrite (bind_ok _ _ _ _ _ (run_rd _ _ _ _ (wf_offsethd _ _ _ _ Wj _ _))).
      rewrite (bind_ok _ _ _ _ _ (run_rd _ _ _ _ (wf_offsethd _ _ _ _ Wj _ _))).
      rewrite (bind_ok _ _ _ _ _ (run_rd _ _ _ _ (wf_offsethd _ _ _ _ Wj _ _))).
      rewrite !baddr_rowaddr, A1, A2.
      assert (Hun' : U1 + j <= U2 - j) by (clear - Hun Hj; specialize (Hun j Hj); lia).
      assert (HB1 : 0 <= U1 + j <= U2) by (clear - Hun' HU Hj; lia).
      assert (HB2 : 0 <= U2 - j <= U2) by (clear - Hun' HU Hj; lia).
      destruct (Hsw bj o (p * (U1 + j)) (p * (U2 - j)) Wj) as (b' & E & R').
      1-4: apply (blk_fit p U2 (stride w bits)); auto; apply HU.
      { destruct (Hun j Hj) as [?|(E12 & ?)]; [left; now apply blk_sep|right; rewrite E12; auto]. }
      rewrite (bind_ok _ _ _ _ _ E). eexists _, _. split; [reflexivity|]. cbn [mem out].
      split; [f_equal; ring|]. split; auto.
      eapply rastered_ext; [|exact (rastered_trans _ _ _ _ _ _ _ _ R R')].
      intros k y Hk Hy'. unfold hstepG. rewrite !incols_unit by auto.
      assert (Gj : forall k', 0 <= k' < stride w bits -> raster bj w h bits k' y =
        if hprocessed j k' y then hval b w h bits op f p (U1 + U2) k' y else raster b w h bits k' y)
        by (intros; apply R; auto).
      assert (Hm : forall u, 0 <= u <= U2 -> 0 <= p * u + k mod p < stride w bits /\ (p * u + k mod p) / p = u).
      { intros u Hu. apply (blk_in p U2); auto. apply HU. }
      pose proof (blk_dec p k Hp) as Ek.
      remember (k / p) as u eqn:Eku. symmetry in Eku. destruct (proc_1 U1 U2 j Hun' (proj1 Hj)) as (P1 & P1').
      destruct (proc_2 U1 U2 j Hun' (proj1 Hj)) as (P2 & P2').
      destruct (Hm (U1 + j) HB1) as (M1 & M2). destruct (Hm (U2 - j) HB2) as (M3 & M4).
      destruct ((y1 <=? y) && (y <=? y2)) eqn:Ey.
      2:{ rewrite Gj by auto. unfold hprocessed. rewrite Ey. reflexivity. }
      cbn [andb].
      assert (G1 : raster bj w h bits (p * (U1 + j) + k mod p) y = raster b w h bits (p * (U1 + j) + k mod p) y).
      { rewrite Gj by auto. unfold hprocessed. now rewrite M2, P1, andb_false_r. }
      assert (G2 : raster bj w h bits (p * (U2 - j) + k mod p) y = raster b w h bits (p * (U2 - j) + k mod p) y).
      { rewrite Gj by auto. unfold hprocessed. now rewrite M4, P2, andb_false_r. }
      destruct (Z.eqb_spec u (U2 - j)) as [E2|N2]; [|destruct (Z.eqb_spec u (U1 + j)) as [E1|N1]].
      + rewrite E2 in Ek, Eku. rewrite E2.
        replace (p * (U1 + j) + (k - p * (U2 - j))) with (p * (U1 + j) + k mod p) by (clear - Ek; lia).
        rewrite G1. replace (raster bj w h bits k y) with (raster b w h bits k y) by (rewrite Ek; symmetry; exact G2).
        unfold hprocessed. rewrite Ey. rewrite Eku. cbn [andb]. rewrite P2'.
        unfold hval, hmir. rewrite Eku. replace (U1 + U2 - (U2 - j)) with (U1 + j) by (clear; lia).
        destruct op; cbn [wr1 wr2 andb]; auto.
        * replace (U1 + U2 <=? 2 * (U2 - j)) with true by (symmetry; apply Z.leb_le; clear - Hun'; lia). reflexivity.
        * destruct (Z.eqb_spec (U2 - j) (U1 + j)) as [E1|N1].
          -- replace (2 * (U2 - j) <=? U1 + U2) with true by (symmetry; apply Z.leb_le; clear - E1; lia).
             replace (p * (U2 - j) + (k - p * (U1 + j))) with (p * (U1 + j) + k mod p)
               by (rewrite <- E1; clear - Ek; lia).
             rewrite G1. reflexivity.
          -- replace (2 * (U2 - j) <=? U1 + U2) with false by (symmetry; apply Z.leb_gt; clear - Hun' N1; lia). reflexivity.
      + rewrite E1 in Ek, Eku, N2. rewrite andb_false_r, andb_true_r.
        replace (p * (U2 - j) + (k - p * (U1 + j))) with (p * (U2 - j) + k mod p) by (clear - Ek; lia).
        rewrite G2. replace (raster bj w h bits k y) with (raster b w h bits k y) by (rewrite Ek; symmetry; exact G1).
        unfold hprocessed. rewrite Ey. rewrite Eku. cbn [andb]. rewrite P1'.
        unfold hval, hmir. rewrite Eku. replace (U1 + U2 - (U1 + j)) with (U2 - j) by (clear; lia).
        destruct op; cbn [wr1 wr2 andb]; auto.
        * replace (U1 + U2 <=? 2 * (U1 + j)) with false by (symmetry; apply Z.leb_gt; clear - N2 Hun'; lia). reflexivity.
        * replace (2 * (U1 + j) <=? U1 + U2) with true by (symmetry; apply Z.leb_le; clear - Hun'; lia). reflexivity.
      + rewrite !andb_false_r. rewrite (Gj k) by auto. unfold hprocessed. rewrite Eku, Ey. cbn [andb].
        rewrite proc_S; auto. apply Hj.
    - intros q s (-> & _). apply Z.ltb_ge. exact Hge.
    - destruct s' as [b' o']. cbn [mem out] in *. subst o'. exists q, b'. split; [exact E|].
      eapply rastered_ext; [|exact R]. intros k y Hk Hy'. unfold hprocessed.
      destruct ((y1 <=? y) && (y <=? y2)); cbn [andb]; auto.
      pose proof (blk_dec p k Hp) as Ek.
      assert (Hlast : 0 < n -> U1 + (n - 1) <= U2 - (n - 1)).
      { intros Hn0. assert (Hj : 0 <= n - 1 < n) by (clear - Hn0; lia). specialize (Hun (n - 1) Hj).
        clear - Hun. lia. }
      unfold hval, hmir. set (u := k / p) in *. clearbody u.
      assert (C : (2 * u <> U1 + U2 \/ U2 - U1 < 2 * n) \/ (2 * u = U1 + U2 /\ U2 - U1 = 2 * n))
        by (clear - Hmid; lia).
      destruct C as [C|[C1 C2]].
      + rewrite proc_end; auto. apply HU.
      + assert (Ei : U1 + U2 - u = u) by (clear - C1; lia). rewrite Ei, <- Ek.
        destruct op; rewrite ?(Hmid2 C2);
          repeat match goal with |- context [if ?c then _ else _] => destruct c end; auto.
  Qed.
End Loop.

Definition hsource (op : hop) (xa xb x : Z) : Z :=
  match op with
  | HF => xa + xb - x
  | HL => Z.min x (xa + xb - x)
  | HR => Z.max x (xa + xb - x)
  end.
(** rectangles for which the operation works on whole bytes *)
Definition flippable (op : hop) (bits xa xb : Z) : Prop :=
  bits = 8 \/ bits = 24 \/
  (bits = 4 /\ xa mod 2 = 0 /\ xb mod 2 = 1 /\ (op = HF \/ (xb - xa + 1) mod 4 = 0)).

Definition hunit (bits : Z) : Z := if bits =? 24 then 3 else 1.
Definition hbyte (bits : Z) : Z -> Z := if bits =? 4 then swapnib else idf.

Definition hopfun (op : hop) (x1 y1 x2 y2 : Z) : M (option unit) :=
  match op with
  | HF => fliphorizontalregion x1 y1 x2 y2
  | HL => mirrorleftinregion x1 y1 x2 y2
  | HR => mirrorrightinregion x1 y1 x2 y2
  end.

Lemma hbulk_run b w h bits o op x1 y1 x2 y2 sw : wf b w h bits ->
  inside w h x1 y1 -> inside w h x2 y2 -> flippable op bits (lo x1 x2) (hi x1 x2) ->
  step_ok w h bits (lo y1 y2) (hi y1 y2) op (hbyte bits) (hunit bits) sw ->
  let U1 := if bits =? 4 then lo x1 x2 / 2 else lo x1 x2 in
  let U2 := if bits =? 4 then hi x1 x2 / 2 else hi x1 x2 in
  exists b', horizontalbulkswap x1 y1 x2 y2 sw (mkst b o) = (Ok (Some tt), mkst b' o) /\
    rastered b b' w h bits (fun k y =>
      if ((lo y1 y2 <=? y) && (y <=? hi y1 y2)) && ((U1 <=? k / hunit bits) && (k / hunit bits <=? U2))
      then hval b w h bits op (hbyte bits) (hunit bits) (U1 + U2) k y else raster b w h bits k y).
Proof.
  intros W I1 I2 HA Hsw U1 U2. unfold horizontalbulkswap. rewrite (guard_true _ _ _ _ _ _ _ _ _ _ W I1 I2).
  unfold withSome. rewrite !bind_assoc.
  rewrite (bind_ok _ _ _ _ _ (wf_geti_bits _ _ _ _ W o)). rewrite !bind_assoc.
  unfold inside in *.
  assert (El : lift (if bits =? 24 then Ok 1 else if bits =? 8 then Ok 1
                else if bits =? 4 then Ok 2 else if bits =? 1 then Ok 8 else Err KeyError) (mkst b o)
     = (Ok (if bits =? 4 then 2 else 1), mkst b o)).
  { destruct HA as [-> | [-> | (-> & _)]]; reflexivity. }
  rewrite (bind_ok _ _ _ _ _ El). rewrite bind_assoc.
  rewrite (bind_ok _ _ _ _ _ (run_rd _ _ _ _ (wf_rxchr _ _ _ _ W))). 
  assert (Sy : swapif y1 y2 (y1 >? y2) = (lo y1 y2, hi y1 y2)).
  { unfold swapif, lo, hi. rewrite Z.gtb_ltb. destruct (Z.ltb_spec y2 y1); f_equal; lia. }
  assert (Sx : swapif x1 x2 (x1 >? x2) = (lo x1 x2, hi x1 x2)).
  { unfold swapif, lo, hi. rewrite Z.gtb_ltb. destruct (Z.ltb_spec x2 x1); f_equal; lia. }
  rewrite Sy, Sx. clear Sy Sx.
  set (xa := lo x1 x2) in *. set (xb := hi x1 x2) in *. set (ya := lo y1 y2) in *. set (yb := hi y1 y2) in *.
  assert (Hxy : 0 <= xa <= xb /\ xb < w /\ 0 <= ya <= yb /\ yb < h) by (unfold xa, xb, ya, yb, lo, hi; lia).
  clearbody xa xb ya yb. clear I1 I2.
  set (n := if bits =? 4 then (U2 - U1 + 2) / 2 else (U2 - U1 + 1) / 2).
  destruct (hloop_run b w h bits ya yb xa xb (if bits =? 4 then 2 else 1) (hunit bits) U1 U2 n op (hbyte bits) sw o W)
    as (q & b' & E & R).
  - unfold hunit. destruct (bits =? 24); auto.
  - exact Hsw.
  - unfold U1, U2, hunit, stride. clear - HA Hxy. destruct HA as [-> | [-> | (-> & ?)]]; cbn [Z.eqb Pos.eqb]; lia.
  - destruct (bits =? 4); lia.
  - unfold n, U1, U2. destruct (bits =? 4); lia.
  - intros j Hj. unfold n, U1, U2 in Hj. clear - HA Hxy Hj.
    destruct HA as [-> | [-> | (-> & ?)]]; cbn [Z.eqb Pos.eqb] in *; lia.
  - unfold n, U1, U2. clear - HA Hxy. destruct HA as [-> | [-> | (-> & ?)]]; cbn [Z.eqb Pos.eqb]; lia.
  - intros j Hj. unfold n, U1, U2, hunit in *. clear - HA Hxy Hj.
    destruct HA as [-> | [-> | (-> & ?)]]; cbn [Z.eqb Pos.eqb] in *; lia.
  - unfold n, U1, U2. clear - HA Hxy. destruct HA as [-> | [-> | (-> & ?)]]; cbn [Z.eqb Pos.eqb]; lia.
  - unfold n, U1, U2, hbyte. clear - HA Hxy. destruct HA as [-> | [-> | (-> & ?)]]; cbn [Z.eqb Pos.eqb]; auto; lia.
  - intros j Hj. unfold n, U1, U2, hunit in *. clear - HA Hxy Hj.
    destruct HA as [-> | [-> | (-> & ?)]]; cbn [Z.eqb Pos.eqb] in *; lia.
  - exists b'. split; [|exact R]. rewrite bind_assoc. rewrite (bind_ok _ _ _ _ _ E). reflexivity.
Qed.

Lemma hop_raster b w h bits o op x1 y1 x2 y2 : wf b w h bits ->
  inside w h x1 y1 -> inside w h x2 y2 -> flippable op bits (lo x1 x2) (hi x1 x2) ->
  let U1 := if bits =? 4 then lo x1 x2 / 2 else lo x1 x2 in
  let U2 := if bits =? 4 then hi x1 x2 / 2 else hi x1 x2 in
  exists b', hopfun op x1 y1 x2 y2 (mkst b o) = (Ok (Some tt), mkst b' o) /\
    rastered b b' w h bits (fun k y =>
      if ((lo y1 y2 <=? y) && (y <=? hi y1 y2)) && ((U1 <=? k / hunit bits) && (k / hunit bits <=? U2))
      then hval b w h bits op (hbyte bits) (hunit bits) (U1 + U2) k y else raster b w h bits k y).
Proof.
  intros W I1 I2 HA.
  assert (Hy : 0 <= lo y1 y2 <= hi y1 y2 /\ hi y1 y2 < h) by (unfold inside, lo, hi in *; lia).
  assert (Eb : forall (A : Type) (f24 f8 f4 f1 : A), bydepth f24 f8 f4 f1 (mkst b o) =
     (Ok (if bits =? 24 then f24 else if bits =? 8 then f8 else f4), mkst b o)).
  { intros. unfold bydepth. rewrite (bind_ok _ _ _ _ _ (wf_geti_bits _ _ _ _ W o)). unfold lift.
    destruct HA as [-> | [-> | (-> & _)]]; reflexivity. }
  unfold hopfun. destruct op;
    [unfold fliphorizontalregion|unfold mirrorleftinregion|unfold mirrorrightinregion];
    rewrite (bind_ok _ _ _ _ _ (Eb _ _ _ _ _));
    (apply (hbulk_run b w h bits o _ x1 y1 x2 y2 _ W I1 I2 HA));
    unfold hbyte, hunit; destruct HA as [-> | [-> | (-> & _)]]; cbn [Z.eqb Pos.eqb].
  - exact (step8 w h 8 _ _ Hy HF eq_refl). - exact (step24 w h 24 _ _ Hy HF eq_refl). - exact (step4 w h 4 _ _ Hy HF eq_refl).
  - exact (step8 w h 8 _ _ Hy HL eq_refl). - exact (step24 w h 24 _ _ Hy HL eq_refl). - exact (step4 w h 4 _ _ Hy HL eq_refl).
  - exact (step8 w h 8 _ _ Hy HR eq_refl). - exact (step24 w h 24 _ _ Hy HR eq_refl). - exact (step4 w h 4 _ _ Hy HR eq_refl).
Qed.

Lemma rowpix4 G x : rowpix 4 G x =
  if x mod 2 =? 0 then (G (x / 2) / 16) mod 16 else G (x / 2) mod 16.
Proof.
  unfold rowpix. cbn [Z.eqb Pos.eqb]. change (2 ^ 4) with 16.
  assert (C : x mod 2 = 0 \/ x mod 2 = 1) by lia.
  replace (x * 4 / 8) with (x / 2) by lia. destruct C as [C|C]; rewrite C; cbn [Z.eqb Pos.eqb].
  - replace ((x * 4) mod 8) with 0 by lia. reflexivity.
  - replace ((x * 4) mod 8) with 4 by lia. change (2 ^ (8 - 4 - 4)) with 1. now rewrite Z.div_1_r.
Qed.
Lemma rowpix8 G x : byte (G x) -> rowpix 8 G x = G x.
Proof.
  intros H. unfold rowpix. cbn [Z.eqb Pos.eqb]. replace (x * 8 / 8) with x by lia.
  replace ((x * 8) mod 8) with 0 by lia. change (2 ^ 8) with 256. change (2 ^ (8 - 8 - 0)) with 1.
  rewrite Z.div_1_r. unfold byte in H. lia.
Qed.

Lemma hop_run b w h bits o op x1 y1 x2 y2 : wf b w h bits ->
  inside w h x1 y1 -> inside w h x2 y2 -> flippable op bits (lo x1 x2) (hi x1 x2) ->
  exists b', hopfun op x1 y1 x2 y2 (mkst b o) = (Ok (Some tt), mkst b' o) /\
    repainted b b' w h bits (fun x y =>
      if in_rect x1 y1 x2 y2 x y then pixel b w h bits (hsource op (lo x1 x2) (hi x1 x2) x) y
      else pixel b w h bits x y).
Proof.
  intros W I1 I2 HA. destruct (hop_raster b w h bits o op x1 y1 x2 y2 W I1 I2 HA) as (b' & E & R).
  exists b'. split; auto. eapply rastered_repainted; [exact R|]. clear R E b'.
  intros x y (Hx & Hy). cbn beta. unfold in_rect.
  assert (Hb : forall k y, byte (raster b w h bits k y)) by (intros; eapply wf_byte; eauto).
  unfold inside in *.
  assert (Hab : lo x1 x2 <= hi x1 x2) by (unfold lo, hi; lia).
  set (xa := lo x1 x2) in *. set (xb := hi x1 x2) in *. clearbody xa xb.
  destruct ((lo y1 y2 <=? y) && (y <=? hi y1 y2)) eqn:Ey; cbn [andb].
  2:{ rewrite andb_false_r. now rewrite pixel_raster. }
  rewrite andb_true_r. clear I1 I2 Ey W. rewrite !pixel_raster.
  unfold flippable in HA. destruct HA as [-> | [-> | (-> & HA1 & HA2 & HA3)]]; unfold hval, hmir, hbyte, hunit; cbn [Z.eqb Pos.eqb].
  - rewrite rowpix8; rewrite ?Z.div_1_r.
    2:{ destruct ((xa <=? x) && (x <=? xb)); auto.
        destruct op; unfold idf; repeat match goal with |- context [if ?c then _ else _] => destruct c end; auto. }
    destruct ((xa <=? x) && (x <=? xb)); rewrite rowpix8 by auto; auto.
    destruct op; cbn [hsource]; unfold idf; bcases; f_equal; lia.
  - unfold rowpix; cbn [Z.eqb Pos.eqb].
    replace (3 * x / 3) with x by lia. replace ((3 * x + 1) / 3) with x by lia. replace ((3 * x + 2) / 3) with x by lia.
    replace ((3 * x) mod 3) with 0 by lia. replace ((3 * x + 1) mod 3) with 1 by lia. replace ((3 * x + 2) mod 3) with 2 by lia.
    destruct ((xa <=? x) && (x <=? xb)); auto. unfold idf.
    rewrite Z.add_0_r. destruct op; cbn [hsource].
    + reflexivity.
    + destruct (Z.leb_spec (xa + xb) (2 * x)); [rewrite Z.min_r by lia|rewrite Z.min_l by lia]; reflexivity.
    + destruct (Z.leb_spec (2 * x) (xa + xb)); [rewrite Z.max_r by lia|rewrite Z.max_l by lia]; reflexivity.
  - rewrite rowpix4. rewrite Z.div_1_r.
    replace ((xa / 2 <=? x / 2) && (x / 2 <=? xb / 2)) with ((xa <=? x) && (x <=? xb)) by (bcases; auto; lia).
    destruct ((xa <=? x) && (x <=? xb)) eqn:Ex; [|now rewrite rowpix4].
    apply andb_true_iff in Ex. rewrite !Z.leb_le in Ex.
    replace (1 * (xa / 2 + xb / 2 - x / 2) + (x / 2) mod 1) with (xa / 2 + xb / 2 - x / 2) by lia.
    assert (Hf : (if x mod 2 =? 0 then (swapnib (raster b w h 4 (xa / 2 + xb / 2 - x / 2) y) / 16) mod 16
         else swapnib (raster b w h 4 (xa / 2 + xb / 2 - x / 2) y) mod 16)
       = rowpix 4 (fun k => raster b w h 4 k y) (xa + xb - x)).
    { rewrite rowpix4. replace ((xa + xb - x) / 2) with (xa / 2 + xb / 2 - x / 2) by lia.
      pose proof (Hb (xa / 2 + xb / 2 - x / 2) y) as Hv. unfold byte, swapnib in *.
      set (v := raster b w h 4 (xa / 2 + xb / 2 - x / 2) y) in *. clearbody v.
      destruct (Z.eqb_spec (x mod 2) 0), (Z.eqb_spec ((xa + xb - x) mod 2) 0); lia. }
    destruct op; cbn [hsource].
    + exact Hf.
    + destruct HA3 as [?|HA3]; [discriminate|].
      destruct (Z.leb_spec (xa / 2 + xb / 2) (2 * (x / 2))).
      * rewrite Z.min_r by lia. exact Hf.
      * rewrite Z.min_l by lia. now rewrite rowpix4.
    + destruct HA3 as [?|HA3]; [discriminate|].
      destruct (Z.leb_spec (2 * (x / 2)) (xa / 2 + xb / 2)).
      * rewrite Z.max_r by lia. exact Hf.
      * rewrite Z.max_l by lia. now rewrite rowpix4.
Qed.

Lemma hmir_unit p U k : p = 1 \/ p = 3 -> hmir p U k / p = U - k / p /\ hmir p U k mod p = k mod p.
Proof. unfold hmir. intros [-> | ->]; lia. Qed.
Lemma hmir_invol p U k : p = 1 \/ p = 3 -> hmir p U (hmir p U k) = k.
Proof.
  intros Hp. destruct (hmir_unit p U k Hp) as [E1 E2]. unfold hmir at 1. rewrite E1, E2.
  replace (U - (U - k / p)) with (k / p) by lia. symmetry. now apply blk_dec.
Qed.
Lemma swapnib_invol v : byte v -> swapnib (swapnib v) = v.
Proof. unfold byte, swapnib. lia. Qed.

Lemma hflip_twice b w h bits o x1 y1 x2 y2 b' : wf b w h bits ->
  inside w h x1 y1 -> inside w h x2 y2 -> flippable HF bits (lo x1 x2) (hi x1 x2) ->
  fliphorizontalregion x1 y1 x2 y2 (mkst b o) = (Ok (Some tt), mkst b' o) ->
  fliphorizontalregion x1 y1 x2 y2 (mkst b' o) = (Ok (Some tt), mkst b o).
Proof.
  intros W I1 I2 HA E. destruct (hop_raster b w h bits o HF x1 y1 x2 y2 W I1 I2 HA) as (b1 & E1 & R1).
  cbn [hopfun] in E1. rewrite E in E1. inversion E1; subst b1; clear E1.
  destruct (hop_raster b' w h bits o HF x1 y1 x2 y2 (rastered_wf _ _ _ _ _ _ R1) I1 I2 HA) as (b2 & E2 & R2).
  cbn [hopfun] in E2. rewrite E2. do 3 f_equal. clear E2 E.
  set (U1 := if bits =? 4 then lo x1 x2 / 2 else lo x1 x2) in *.
  set (U2 := if bits =? 4 then hi x1 x2 / 2 else hi x1 x2) in *.
  assert (Hp : hunit bits = 1 \/ hunit bits = 3) by (unfold hunit; destruct (bits =? 24); auto).
  assert (HU : 0 <= U1 <= U2 /\ hunit bits * (U2 + 1) <= stride w bits).
  { unfold inside in *. unfold U1, U2, hunit, stride, lo, hi in *. clear - HA I1 I2. 
    destruct HA as [-> | [-> | (-> & ?)]]; cbn [Z.eqb Pos.eqb]; lia. }
  assert (Hf : forall v, byte v -> hbyte bits (hbyte bits v) = v).
  { intros v Hv. unfold hbyte. destruct (bits =? 4); [now apply swapnib_invol|reflexivity]. }
  clearbody U1 U2. clear HA I1 I2.
  apply (rastered_unique b _ _ w h bits (raster b w h bits)); [|now apply rastered_refl].
  eapply rastered_ext; [|exact (rastered_trans _ _ _ _ _ _ _ _ R1 R2)].
  intros k y Hk Hy. cbn beta. unfold hval in *.
  destruct ((lo y1 y2 <=? y) && (y <=? hi y1 y2)) eqn:Ey; cbn [andb].
  2:{ rewrite (proj2 (proj2 R1)) by auto. now rewrite Ey. }
  destruct ((U1 <=? k / hunit bits) && (k / hunit bits <=? U2)) eqn:Ex.
  - apply andb_true_iff in Ex. rewrite !Z.leb_le in Ex.
    destruct (hmir_unit (hunit bits) (U1 + U2) k Hp) as [M1 M2].
    assert (HB : 0 <= hmir (hunit bits) (U1 + U2) k < stride w bits).
    { unfold hmir. apply (blk_in (hunit bits) U2); auto; [|apply HU]. 
      set (u := k / hunit bits) in *. clearbody u. clear - Ex HU. lia. }
    rewrite (proj2 (proj2 R1)) by auto. rewrite Ey. rewrite M1.
    replace ((U1 <=? U1 + U2 - k / hunit bits) && (U1 + U2 - k / hunit bits <=? U2)) with true
      by (set (u := k / hunit bits) in *; clearbody u; clear - Ex; bcases; auto; lia).
    cbn [andb]. rewrite hmir_invol by auto. apply Hf. eapply wf_byte; eauto.
  - rewrite (proj2 (proj2 R1)) by auto. now rewrite Ey, Ex.
Qed.

(** ** the whole image *)
Lemma whole_run {A} b w h bits o (f : Z -> Z -> Z -> Z -> M A) : wf b w h bits ->
  wholeimage f (mkst b o) = f 0 0 (w - 1) (h - 1) (mkst b o).
Proof.
  intros W. unfold wholeimage.
  rewrite (bind_ok _ _ _ _ _ (run_rd _ _ _ _ (wf_rx _ _ _ _ W))).
  rewrite (bind_ok _ _ _ _ _ (run_rd _ _ _ _ (wf_ry _ _ _ _ W))). reflexivity.
Qed.
Lemma hop_whole b w h bits o op : wf b w h bits -> 0 < w -> 0 < h -> flippable op bits 0 (w - 1) ->
  exists b', hopfun op 0 0 (w - 1) (h - 1) (mkst b o) = (Ok (Some tt), mkst b' o) /\
    repainted b b' w h bits (fun x y => pixel b w h bits (hsource op 0 (w - 1) x) y).
Proof.
  intros W Hw Hh HA.
  destruct (hop_run b w h bits o op 0 0 (w - 1) (h - 1) W) as (b' & E & R); try (unfold inside; lia).
  { replace (lo 0 (w - 1)) with 0 by (unfold lo; lia). replace (hi 0 (w - 1)) with (w - 1) by (unfold hi; lia). auto. }
  exists b'. split; auto. eapply repainted_ext; [|exact R]. intros x y (Hx & Hy). cbn beta. unfold in_rect.
  replace (lo 0 (w - 1)) with 0 by (unfold lo; lia). replace (hi 0 (w - 1)) with (w - 1) by (unfold hi; lia).
  replace (lo 0 (h - 1)) with 0 by (unfold lo; lia). replace (hi 0 (h - 1)) with (h - 1) by (unfold hi; lia).
  replace ((0 <=? x) && (x <=? w - 1) && ((0 <=? y) && (y <=? h - 1))) with true by (bcases; auto; lia). reflexivity.
Qed.
