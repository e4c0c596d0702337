(** Reduction of 24-bit bitmaps (proofs). *)
From Coq Require Import ZArith List Bool Lia.
From Verif Require Import PyBase PyFacts Spec SpecImage Bmp BmpFacts HeaderProofs PixelProofs Buffers Region Raster VertProofs RectProofs
  ResizeProofs MathLib MiscProofs PropMisc Shrink.
Import ListNotations.
Open Scope Z_scope.
Open Scope py_scope.
Ltac Zify.zify_post_hook ::= Z.to_euclidean_division_equations.

(** ** sums of lists *)
Lemma total_cons x l : total (x :: l) = x + total l.
Proof. reflexivity. Qed.
Lemma total_app a b : total (a ++ b) = total a + total b.
Proof. induction a as [|x a IH]; cbn [app]; rewrite ?total_cons; [reflexivity|lia]. Qed.
Lemma total_rev l : total (rev l) = total l.
Proof. induction l as [|x l IH]; cbn [rev]; auto. rewrite total_app, !total_cons. change (total []) with 0. lia. Qed.
Lemma total_flip (f : Z -> Z) n : total (map (fun j => f (n - 1 - j)) (range 0 n)) = total (map f (range 0 n)).
Proof.
  rewrite <- (total_rev (map f _)), <- map_rev. f_equal. rewrite <- (map_map (fun j => n - 1 - j) f). f_equal.
  apply list_ext; [rewrite zlen_map, zlen_rev; reflexivity|].
  rewrite zlen_map, zlen_range. intros i Hi. rewrite getz_map by (rewrite zlen_range; lia). rewrite getz_rev by (rewrite zlen_range; lia).
  rewrite zlen_range, !getz_range by lia. lia.
Qed.
Lemma total_add {A} (f g : A -> Z) l : total (map (fun i => f i + g i) l) = total (map f l) + total (map g l).
Proof. induction l as [|x l IH]; cbn [map]; rewrite ?total_cons; [reflexivity|lia]. Qed.
Lemma total_swap {A B} (f : A -> B -> Z) la lb :
  total (map (fun a => total (map (f a) lb)) la) = total (map (fun b => total (map (fun a => f a b) la)) lb).
Proof.
  induction la as [|x la IH]; cbn [map].
  - induction lb as [|y lb IH]; cbn [map]; [reflexivity|]. rewrite total_cons, <- IH. reflexivity.
  - rewrite total_cons, IH, <- total_add. reflexivity.
Qed.

Lemma addvect_len u v : zlen (addvect u v) = Z.min (zlen u) (zlen v).
Proof.
  revert v. induction u as [|x u IH]; intros [|y v]; cbn [addvect zipwith]; rewrite ?zlen_cons; try reflexivity.
  - pose proof (zlen_nonneg v). change (zlen []) with 0. lia.
  - pose proof (zlen_nonneg u). change (zlen []) with 0. lia.
  - fold (addvect u v). rewrite IH. lia.
Qed.
Lemma addvect_get u v k : 0 <= k < zlen u -> k < zlen v -> getz (addvect u v) k = getz u k + getz v k.
Proof.
  revert v k. induction u as [|x u IH]; intros [|y v] k Hk Hv; rewrite ?zlen_cons in *; change (zlen (@nil Z)) with 0 in *; try lia.
  change (addvect (x :: u) (y :: v)) with (x + y :: addvect u v). rewrite !getz_cons. destruct (k =? 0) eqn:E; auto. apply IH; lia.
Qed.
Lemma sum_lists t : forall u q, zlen u = q -> Forall (fun v => zlen v = q) t ->
  zlen (fold_left addvect t u) = q /\
  forall k, 0 <= k < q -> getz (fold_left addvect t u) k = total (map (fun v => getz v k) (u :: t)).
Proof.
  induction t as [|v t IH]; intros u q Hu HF; cbn [fold_left].
  - split; auto. intros k Hk. cbn [map]. rewrite total_cons. change (total []) with 0. lia.
  - inversion HF as [|? ? Hv HT]; subst. destruct (IH (addvect u v) (zlen u)) as [L G]; auto.
    { rewrite addvect_len. lia. }
    split; auto. intros k Hk. rewrite G by lia. cbn [map]. rewrite !total_cons, addvect_get by lia. lia.
Qed.
Lemma sum_short t : forall u, Exists (fun v => zlen v = 0) (u :: t) -> zlen (fold_left addvect t u) = 0.
Proof.
  induction t as [|v t IH]; intros u H; cbn [fold_left].
  - inversion H as [? ? H0|? ? H0]; auto. inversion H0.
  - apply IH. inversion H as [? ? H0|? ? H0]; subst.
    + apply Exists_cons_hd. rewrite addvect_len. pose proof (zlen_nonneg v). lia.
    + inversion H0 as [? ? H1|? ? H1]; subst; [|now apply Exists_cons_tl].
      apply Exists_cons_hd. rewrite addvect_len. pose proof (zlen_nonneg u). lia.
Qed.

(** ** adding up neighbouring columns of a channel of even length *)
Lemma channel_sums buf n : 0 < n -> zlen buf mod 2 = 0 ->
  exists s, addvectinlist (altsplitbufnway buf n) = Ok s /\ zlen s = zlen buf / n /\
    forall k, 0 <= k < zlen buf / n -> getz s k = total (map (fun i => getz buf (n * k + i)) (range 0 n)).
Proof.
  intros Hn He. pose proof (zlen_nonneg buf) as Hl.
  assert (EA : altsplitbufnway buf n = map (fun i => py_xslice buf i (zlen buf - (n - 1 - i)) n) (range 0 n)).
  { unfold altsplitbufnway. rewrite land1, He, Z.sub_0_r. now destruct (zlen buf mod n =? 0). }
  rewrite EA. set (f := fun i => py_xslice buf i (zlen buf - (n - 1 - i)) n).
  assert (EM : map f (range 0 n) = f 0 :: map f (range (0 + 1) n)) by (rewrite (range_cons 0 n) by lia; reflexivity).
  rewrite EM. cbn [addvectinlist]. eexists. split; [reflexivity|].
  destruct (Z.leb_spec n (zlen buf)) as [L|L].
  - pose proof (Z.div_mod (zlen buf) n ltac:(lia)) as D. pose proof (Z.mod_pos_bound (zlen buf) n Hn) as M.
    assert (Q : 1 <= zlen buf / n) by (apply Z.div_le_lower_bound; lia).
    assert (F : forall i, 0 <= i < n -> zlen (f i) = zlen buf / n /\ forall k, 0 <= k < zlen buf / n -> getz (f i) k = getz buf (n * k + i)).
    { intros i Hi. unfold f. set (q := zlen buf / n) in *. set (m := zlen buf mod n) in *. clearbody q m. clear - Hi D M L Q Hl.
      assert (n <= n * q) by nia.
      apply split_slice; try lia; try nia. }
    destruct (sum_lists (map f (range (0 + 1) n)) (f 0) (zlen buf / n)) as [S1 S2].
    + apply F. lia.
    + apply Forall_map, Forall_forall. intros i Hi. apply in_range in Hi. apply F. lia.
    + split; auto. intros k Hk. rewrite S2 by auto. rewrite <- EM, map_map. f_equal. apply map_ext_in. intros i Hi. apply in_range in Hi. now apply F.
  - rewrite (Z.div_small (zlen buf) n) by lia. split; [|intros; lia]. apply sum_short.
    rewrite <- EM. apply Exists_exists. exists (f (n - 1 - zlen buf)). split.
    + apply in_map_iff. exists (n - 1 - zlen buf). split; auto. apply in_range. lia.
    + unfold f. replace (zlen buf - (n - 1 - (n - 1 - zlen buf))) with 0 by ring.
      unfold py_xslice. rewrite zlen_map, zlen_range_step by lia. unfold stepcount, clampi. rewrite Z.ltb_irrefl.
      assert (E0 : Z.min 0 (zlen buf) = 0) by lia. rewrite E0.
      destruct (Z.ltb_spec (n - 1 - zlen buf) 0); [lia|].
      set (a := Z.min (n - 1 - zlen buf) (zlen buf)). assert (0 <= a) by (unfold a; lia). clearbody a.
      destruct (Z.leb_spec 0 a); [reflexivity|lia].
Qed.

(** ** one reduced row *)
Lemma split3_any buf w : zlen buf = 3 * w ->
  exists a b c, altsplitbuf3way buf = [a; b; c] /\
    (zlen a = w - w mod 2 /\ zlen b = w - w mod 2 /\ zlen c = w - w mod 2) /\
    forall k, 0 <= k < w - w mod 2 -> getz a k = getz buf (3 * k) /\ getz b k = getz buf (3 * k + 1) /\ getz c k = getz buf (3 * k + 2).
Proof.
  intros Hl. destruct (C34_altsplitbuf3way buf) as (a & b & c & E & La & Lb & Lc & G). rewrite Hl in *.
  replace (if ((3 * w) mod 3 =? 0) && ((3 * w) mod 2 =? 1) then 3 * w / 3 - 1 else 3 * w / 3) with (w - w mod 2) in *.
  - exists a, b, c. auto.
  - clear. replace (3 * w / 3) with w by lia. replace ((3 * w) mod 3 =? 0) with true by lia. cbn [andb].
    destruct (Z.eqb_spec ((3 * w) mod 2) 1); lia.
Qed.

Definition byte_rnd (rnd : Z -> Z -> Z) (n : Z) : Prop := forall s, 0 <= s <= 255 * (n * n) -> 0 <= rnd n s < 256.

Lemma total_bound {A} (f : A -> Z) l m : (forall a, In a l -> 0 <= f a <= m) -> 0 <= total (map f l) <= m * zlen l.
Proof.
  induction l as [|x l IH]; intros H; cbn [map]; rewrite ?total_cons, ?zlen_cons; [change (total []) with 0; change (zlen (@nil A)) with 0; lia|].
  assert (0 <= total (map f l) <= m * zlen l) by (apply IH; intros; apply H; now right). specialize (H x (or_introl eq_refl)). lia.
Qed.

Section Row.
  Variables (rnd : Z -> Z -> Z) (n w : Z) (rows : list (list Z)).
  Hypothesis Hn : 0 < n.
  Hypothesis Hw : 0 <= w.
  Hypothesis Hr : zlen rows = n.
  Hypothesis HL : Forall (fun v => zlen v = 3 * w /\ bytes v) rows.
  Hypothesis HB : byte_rnd rnd n.
  Let p := (w - w mod 2) / n.
  Definition cell (c k : Z) : Z :=
    rnd n (total (map (fun i => total (map (fun v => getz v (3 * (n * k + i) + c)) rows)) (range 0 n))).

  Lemma cell_byte c k : byte (cell c k).
  Proof.
    apply HB.
    assert (K : forall i, In i (range 0 n) -> 0 <= total (map (fun v => getz v (3 * (n * k + i) + c)) rows) <= 255 * n).
    { intros i _. replace (255 * n) with (255 * zlen rows) by (now rewrite Hr). apply total_bound. intros v Hv. rewrite Forall_forall in HL.
      pose proof (proj1 (bytes_getz v) (proj2 (HL v Hv)) (3 * (n * k + i) + c)) as B. unfold byte in B. lia. }
    pose proof (total_bound _ _ _ K) as T. rewrite zlen_range in T. rewrite Z.max_r in T by lia.
    replace (255 * (n * n)) with (255 * n * (n - 0)) by ring. exact T.
  Qed.
  Lemma smaller_row : exists nb, resizesmaller24bitbuf rnd rows = Ok nb /\ bytes nb /\ zlen nb = 3 * p /\
    forall k, 0 <= k < p -> getz nb (3 * k) = cell 0 k /\ getz nb (3 * k + 1) = cell 1 k /\ getz nb (3 * k + 2) = cell 2 k.
  Proof.
    unfold resizesmaller24bitbuf. rewrite Hr. replace (n =? 0) with false by lia.
    assert (ER : exists u t, rows = u :: t) by (destruct rows as [|u t]; [change (zlen (@nil (list Z))) with 0 in Hr; lia|eauto]).
    destruct ER as (u & t & ER). rewrite ER. cbn [addvectinlist rbind].
    pose proof HL as HL'. rewrite ER in HL'. rewrite Forall_forall in HL'.
    destruct (sum_lists t u (3 * w)) as [L G].
    { apply HL'. now left. }
    { apply Forall_forall. intros v Hv. apply HL'. now right. }
    rewrite <- ER in G. destruct (split3_any _ w L) as (a & b & c & -> & (La & Lb & Lc) & Gs).
    assert (Ev : forall l : list Z, zlen l = w - w mod 2 -> zlen l mod 2 = 0) by (intros l ->; clear; lia).
    destruct (channel_sums a n Hn (Ev _ La)) as (sa & -> & Lsa & Ga).
    destruct (channel_sums b n Hn (Ev _ Lb)) as (sb & -> & Lsb & Gb).
    destruct (channel_sums c n Hn (Ev _ Lc)) as (sc & -> & Lsc & Gc).
    rewrite La in Lsa, Ga. rewrite Lb in Lsb, Gb. rewrite Lc in Lsc, Gc. fold p in Lsa, Ga, Lsb, Gb, Lsc, Gc. cbn [rbind].
    assert (Hp : 0 <= p) by (unfold p; apply Z.div_pos; [clear - Hw|]; lia).
    assert (IX : forall k i, 0 <= k < p -> 0 <= i < n -> 0 <= n * k + i < w - w mod 2).
    { intros k i Hk Hi. unfold p in Hk. pose proof (Z.mul_div_le (w - w mod 2) n Hn) as M.
      set (e := w - w mod 2) in *. set (q := e / n) in *. clearbody e q. clear - Hk Hi M Hn. nia. }
    assert (C0 : forall k, 0 <= k < p -> rnd n (getz sa k) = cell 0 k).
    { intros k Hk. rewrite Ga by auto. unfold cell. do 2 f_equal. apply map_ext_in. intros i Hi. apply in_range in Hi.
      destruct (Gs (n * k + i) (IX k i Hk ltac:(lia))) as (-> & _ & _). rewrite G by (pose proof (IX k i Hk ltac:(lia)); clear - H; lia). now rewrite Z.add_0_r. }
    assert (C1 : forall k, 0 <= k < p -> rnd n (getz sb k) = cell 1 k).
    { intros k Hk. rewrite Gb by auto. unfold cell. do 2 f_equal. apply map_ext_in. intros i Hi. apply in_range in Hi.
      destruct (Gs (n * k + i) (IX k i Hk ltac:(lia))) as (_ & -> & _). rewrite G by (pose proof (IX k i Hk ltac:(lia)); clear - H; lia). reflexivity. }
    assert (C2 : forall k, 0 <= k < p -> rnd n (getz sc k) = cell 2 k).
    { intros k Hk. rewrite Gc by auto. unfold cell. do 2 f_equal. apply map_ext_in. intros i Hi. apply in_range in Hi.
      destruct (Gs (n * k + i) (IX k i Hk ltac:(lia))) as (_ & _ & ->). rewrite G by (pose proof (IX k i Hk ltac:(lia)); clear - H; lia). reflexivity. }
    assert (BB : forall s ch, zlen s = p -> (forall k, 0 <= k < p -> rnd n (getz s k) = cell ch k) -> bytes (map (rnd n) s)).
    { intros s ch Ls K. apply bytes_getz. intros i. destruct (Z.ltb_spec i 0) as [I0|I0]; [rewrite getz_neg by exact I0; unfold byte; clear; lia|].
      destruct (Z.ltb_spec i p) as [I1|I1]; [|rewrite getz_big by (rewrite zlen_map, Ls; exact I1); unfold byte; clear; lia].
      rewrite getz_map by (rewrite Ls; split; assumption). rewrite K by (split; assumption). apply cell_byte. }
    pose proof (BB sa 0 Lsa C0) as BA. pose proof (BB sb 1 Lsb C1) as BB1. pose proof (BB sc 2 Lsc C2) as BC.
    unfold makeBGRbuf. rewrite py_array_ok by (apply interleave_bytes; auto). eexists. split; [reflexivity|]. split; [apply interleave_bytes; auto|].
    destruct (interleave_spec (Z.to_nat p) (map (rnd n) sa) (map (rnd n) sb) (map (rnd n) sc)) as (J1 & J2);
      try (rewrite zlen_map, Z2Nat.id by lia; assumption).
    rewrite Z2Nat.id in J1, J2 by lia. split; [exact J1|]. intros k Hk. destruct (J2 k Hk) as (-> & -> & ->).
    rewrite !getz_map by (rewrite ?Lsa, ?Lsb, ?Lsc; exact Hk). auto.
  Qed.
End Row.

(** ** the whole image *)
Lemma channel_of b w h x y c : wf b w h 24 -> 0 <= c < 3 ->
  raster b w h 24 (3 * x + c) y = pixel b w h 24 x y / 256 ^ c mod 256.
Proof.
  intros W Hc. rewrite pixel_raster. unfold rowpix. cbn [Z.eqb Pos.eqb].
  pose proof (wf_byte _ _ _ _ (rowaddr w h 24 y + 3 * x) W) as B0. pose proof (wf_byte _ _ _ _ (rowaddr w h 24 y + (3 * x + 1)) W) as B1.
  pose proof (wf_byte _ _ _ _ (rowaddr w h 24 y + (3 * x + 2)) W) as B2. unfold byte in *. unfold raster.
  set (g0 := getz b (rowaddr w h 24 y + 3 * x)) in *. set (g1 := getz b (rowaddr w h 24 y + (3 * x + 1))) in *.
  set (g2 := getz b (rowaddr w h 24 y + (3 * x + 2))) in *.
  assert (Hc' : c = 0 \/ c = 1 \/ c = 2) by (clear - Hc; lia).
  destruct Hc' as [-> |[-> | ->]].
  - rewrite Z.add_0_r. fold g0. change (256 ^ 0) with 1. clearbody g0 g1 g2. clear - B0 B1 B2. lia.
  - fold g1. change (256 ^ 1) with 256. clearbody g0 g1 g2. clear - B0 B1 B2. lia.
  - fold g2. change (256 ^ 2) with 65536. clearbody g0 g1 g2. clear - B0 B1 B2. lia.
Qed.

Section Whole.
  Variables (rnd : Z -> Z -> Z) (b : list Z) (w h n : Z).
  Hypothesis W : wf b w h 24.
  Hypothesis Hn : 0 < n.
  Hypothesis Hw : 0 < w.
  Hypothesis Hh : 0 < h.
  Hypothesis HB : byte_rnd rnd n.
  Let nx := w / n. Let ny := h / n. Let p := (w - w mod 2) / n.
  Let rw (y : Z) : list Z := map (fun k => raster b w h 24 k y) (range 0 (3 * w)).
  Let grp (q m : Z) : list (list Z) := map (fun j => rw (h - 1 - (n * q + j))) (range 0 m).
  Let small (q : Z) : list Z := match resizesmaller24bitbuf rnd (grp q n) with Ok l => l | Err _ => [] end.

  Lemma rw_len y : zlen (rw y) = 3 * w.
  Proof. unfold rw. rewrite zlen_map, zlen_range. lia. Qed.
  Lemma rw_bytes y : bytes (rw y).
  Proof. apply Forall_map, Forall_forall. intros k _. apply (wf_byte _ _ _ _ _ W). Qed.
  Lemma rw_get y k : 0 <= k < 3 * w -> getz (rw y) k = raster b w h 24 k y.
  Proof. intros Hk. unfold rw. rewrite getz_map by (rewrite zlen_range; lia). rewrite getz_range by lia. reflexivity. Qed.
  Lemma grp_len q m : 0 <= m -> zlen (grp q m) = m.
  Proof. intros. unfold grp. rewrite zlen_map, zlen_range. lia. Qed.
  Lemma grp_ok q m : Forall (fun v => zlen v = 3 * w /\ bytes v) (grp q m).
  Proof. apply Forall_map, Forall_forall. intros j _. split; [apply rw_len|apply rw_bytes]. Qed.
  Lemma small_spec q : resizesmaller24bitbuf rnd (grp q n) = Ok (small q) /\ bytes (small q) /\ zlen (small q) = 3 * p /\
    forall k, 0 <= k < p -> getz (small q) (3 * k) = cell rnd n (grp q n) 0 k /\ getz (small q) (3 * k + 1) = cell rnd n (grp q n) 1 k /\
      getz (small q) (3 * k + 2) = cell rnd n (grp q n) 2 k.
  Proof.
    destruct (smaller_row rnd n w (grp q n) Hn ltac:(lia) (grp_len q n ltac:(lia)) (grp_ok q n) HB) as (nb & E & R).
    unfold small. rewrite E. split; [reflexivity|exact R].
  Qed.
  Lemma nxy : 0 <= nx /\ 0 <= ny /\ 0 <= p <= nx /\ n * ny <= h < n * ny + n.
  Proof.
    unfold nx, ny, p. pose proof (Z.mul_div_le h n Hn). pose proof (Z.mul_succ_div_gt h n Hn).
    assert (0 <= w / n) by (apply Z.div_pos; lia). assert (0 <= h / n) by (apply Z.div_pos; lia).
    assert (0 <= (w - w mod 2) / n) by (apply Z.div_pos; [clear - Hw|]; lia).
    assert ((w - w mod 2) / n <= w / n) by (apply Z.div_le_mono; [|clear - Hw]; lia).
    set (q := h / n) in *. clearbody q. clear - H H0 H1 H2 H3 H4. lia.
  Qed.

  Definition done (nb nb' : list Z) (q : Z) : Prop := rastered nb nb' nx ny 24 (fun k Y =>
    if (ny - q <=? Y) && (k <? 3 * p) then getz (small (ny - 1 - Y)) k else raster nb nx ny 24 k Y).
  Lemma shrink_loop nb o : wf nb nx ny 24 -> exists nb' a,
    itercopyrect (from b) 0 0 (w - 1) (h - 1) (0, [], 1, 0, false)
          (fun q buf =>
             let '(offset, bufl, i, y, stop) := q in
             if stop : bool then ret q
             else
               let j := i mod n in
               let bufl := bufl ++ [buf] in
               if j =? 0 then
                 nbuf <- lift (resizesmaller24bitbuf rnd bufl) ;;
                 BMPbitBLTput offset nbuf ;;;
                 let y := y + 1 in
                 if y >? ny - 1 then ret (offset + stride nx 24, [], i, y, true)
                 else ret (offset + stride nx 24, [], i + 1, y, false)
               else ret (offset, bufl, i + 1, y, false)) (mkst nb o) = (Ok a, mkst nb' o) /\ done nb nb' ny.
  Proof.
    intros Wn. destruct nxy as (Nx & Ny & Np & Nh).
    match goal with |- exists nb' a, itercopyrect _ _ _ _ _ ?z ?f _ = _ /\ _ =>
      destruct (itercopyrect_inv (from b) (fun _ => b) w h 24 0 0 (w - 1) (h - 1)
        (fun t a s => exists q m nb', t = n * q + m /\ 0 <= m < n /\ 0 <= q <= ny /\ s = mkst nb' o /\ done nb nb' q /\
           let '(offset, bufl, i, y, stop) := a in
           if stop : bool then q = ny else offset = q * stride nx 24 /\ bufl = grp q m /\ i = t + 1 /\ y = q) z f (mkst nb o))
        as (a & s' & E & q & m & nb' & A1 & A2 & A3 & -> & D & _) end.
    - apply from_reads.
    - auto.
    - split; lia.
    - split; lia.
    - replace (lo 0 (w - 1)) with 0 by (unfold lo; clear - Hw; lia). replace (hi 0 (w - 1)) with (w - 1) by (unfold hi; clear - Hw; lia).
      split; [reflexivity|]. clear. lia.
    - exists 0, 0, nb. split; [ring|]. split; [lia|]. split; [lia|]. split; [reflexivity|]. split; [|split; [ring|repeat split; auto]].
      unfold done. eapply rastered_ext; [|apply rastered_refl; auto]. intros k Y Hk HY. cbn beta.
      replace (ny - 0 <=? Y) with false by (clear - HY; lia). reflexivity.
    - intros t [[[[off bufl] i] yy] stop] s buf Ht (q & m & nb' & Et & Hm & Hq & -> & D & S) L1 L2 L3.
      replace (lo 0 (w - 1)) with 0 in * by (unfold lo; clear - Hw; lia). replace (hi 0 (w - 1)) with (w - 1) in * by (unfold hi; clear - Hw; lia).
      replace (lo 0 (h - 1)) with 0 in * by (unfold lo; clear - Hh; lia). replace (hi 0 (h - 1)) with (h - 1) in * by (unfold hi; clear - Hh; lia).
      replace (h - 1 - 0 + 1) with h in * by ring.
      destruct stop.
      + eexists _, _. split; [reflexivity|]. exists q, (m + 1), nb'. subst q.
        split; [rewrite Et; ring|]. split; [clear - Hm Et Ht Nh; lia|]. auto.
      + destruct S as (-> & -> & -> & ->).
        assert (Eb : buf = rw (h - 1 - (n * q + m))).
        { apply list_ext; [rewrite rw_len, L1; clear - Hw; lia|]. intros k Hk. rewrite L1 in Hk.
          rewrite L3 by exact Hk. rewrite rw_get by (clear - Hk; lia). rewrite Et. reflexivity. }
        assert (Eg : grp q m ++ [buf] = grp q (m + 1)).
        { unfold grp. rewrite range_snoc by (clear - Hm; lia). rewrite map_app, Eb. reflexivity. }
        cbv zeta. rewrite Eg.
        assert (EM : (t + 1) mod n = (m + 1) mod n).
        { rewrite Et. replace (n * q + m + 1) with (m + 1 + q * n) by ring. apply Z.mod_add. clear - Hn. lia. }
        rewrite EM. destruct (Z.eq_dec (m + 1) n) as [Em|Nm].
        * rewrite Em, Z.mod_same by (clear - Hn; lia). rewrite Z.eqb_refl.
          assert (Hq1 : q < ny).
          { assert (n * (q + 1) <= h) by (clear - Et Ht Em; lia). clear - H Nh Hn Hq.
            destruct (Z.eq_dec q ny) as [-> |]; [|lia]. replace (n * (ny + 1)) with (n * ny + n) in H by ring. lia. }
          destruct (small_spec q) as (E1 & B1 & Z1 & _).
          rewrite (bind_ok _ _ _ _ _ (run_lift _ _ _ _ E1)).
          assert (HS : 3 * p <= stride nx 24) by (clear - Np; unfold stride; lia).
          destruct (bltput_row nb' nx ny 24 o (ny - 1 - q) 0 (small q)) as (n2 & E2 & R2);
            [apply D|clear - Hq Hq1; lia|clear; lia|rewrite Z1; clear - HS; lia|exact B1|].
          replace ((ny - 1 - (ny - 1 - q)) * stride nx 24 + 0) with (q * stride nx 24) in E2 by ring.
          rewrite (bind_ok _ _ _ _ _ E2).
          assert (D2 : done nb n2 (q + 1)).
          { unfold done in *. eapply rastered_trans; [exact D|]. eapply rastered_ext; [|exact R2]. intros k Y Hk HY. cbn beta.
            rewrite (proj2 (proj2 D)) by auto. unfold in_rowpart. rewrite Z1, Z.sub_0_r, Z.add_0_l.
            replace (0 <=? k) with true by (clear - Hk; lia). cbn [andb].
            destruct (k <? 3 * p); [|rewrite !andb_false_r; reflexivity]. rewrite !andb_true_r.
            destruct (Z.eqb_spec Y (ny - 1 - q)) as [-> |N].
            - replace (ny - (q + 1) <=? ny - 1 - q) with true by (clear; lia). f_equal. f_equal. ring.
            - replace (ny - (q + 1) <=? Y) with (ny - q <=? Y) by (clear - N; lia). reflexivity. }
          destruct (q + 1 >? ny - 1) eqn:EY.
          -- eexists _, _. split; [reflexivity|]. exists (q + 1), 0, n2. split; [rewrite Et, <- Em; ring|]. split; [clear - Hn; lia|]. split; [clear - Hq Hq1; lia|].
             split; [reflexivity|]. split; [exact D2|]. clear - EY Hq1. lia.
          -- eexists _, _. split; [reflexivity|]. exists (q + 1), 0, n2. split; [rewrite Et, <- Em; ring|]. split; [clear - Hn; lia|]. split; [clear - Hq Hq1; lia|].
             split; [reflexivity|]. split; [exact D2|]. split; [ring|]. split; [reflexivity|]. split; [ring|reflexivity].
        * rewrite Z.mod_small by (clear - Hm Nm; lia). replace (m + 1 =? 0) with false by (clear - Hm; lia).
          eexists _, _. split; [reflexivity|]. exists q, (m + 1), nb'. split; [rewrite Et; ring|]. split; [clear - Hm Nm; lia|]. auto 8.
    - exists nb', a. split; [exact E|].
      replace (lo 0 (h - 1)) with 0 in A1 by (unfold lo; clear - Hh; lia). replace (hi 0 (h - 1)) with (h - 1) in A1 by (unfold hi; clear - Hh; lia).
      assert (q = ny); [|subst; exact D].
      assert (n * q <= h < n * q + n) by (clear - A1 A2; lia). clear - H Nh Hn A3. nia.
  Qed.

  Lemma cell_mean q c k : 0 <= c < 3 -> 0 <= k < p -> 0 <= q < ny ->
    cell rnd n (grp q n) c k = rnd n (square_sum (fun u v => pixel b w h 24 u v / 256 ^ c mod 256) n (k * n) (h - n * ny + (ny - 1 - q) * n)).
  Proof.
    intros Hc Hk Hq. unfold cell, square_sum. do 2 f_equal. apply map_ext_in. intros i Hi. apply in_range in Hi.
    unfold grp. rewrite map_map.
    rewrite <- (total_flip (fun j => pixel b w h 24 (k * n + i) (h - n * ny + (ny - 1 - q) * n + j) / 256 ^ c mod 256)).
    f_equal. apply map_ext_in. intros j Hj. apply in_range in Hj.
    assert (HI : 0 <= n * k + i < w).
    { unfold p in Hk. pose proof (Z.mul_div_le (w - w mod 2) n Hn) as M.
      assert (w - w mod 2 <= w) by (clear; lia). set (e := w - w mod 2) in *. set (d := e / n) in *. clearbody e d. clear - Hk Hi M Hn H. nia. }
    rewrite rw_get by (clear - HI Hc; lia). rewrite channel_of by auto. f_equal. f_equal. f_equal; ring.
  Qed.

  Lemma shrink_run o : exists nb, resizeNtimessmaller rnd n (mkst b o) = (Ok (Some nb), mkst b o) /\ wf nb nx ny 24 /\
    forall x y, inside nx ny x y -> pixel nb nx ny 24 x y =
      if x <? p then square_mean (rnd n) b w h n (x * n) (h mod n + y * n) else 0.
  Proof.
    destruct nxy as (Nx & Ny & Np & Nh). unfold resizeNtimessmaller, func24bitonly.
    rewrite (bind_ok _ _ _ _ _ (wf_geti_bits _ _ _ _ W _)). cbn [Z.eqb Pos.eqb negb]. unfold withSome.
    rewrite bind_assoc, (bind_ok _ _ _ _ _ (wf_geti_bits _ _ _ _ W _)).
    assert (Em : getmaxxy b = Ok (w, h)).
    { unfold getmaxxy, getmaxx, getmaxy. rewrite (wf_rx _ _ _ _ W), (wf_ry _ _ _ _ W). reflexivity. }
    rewrite bind_assoc, (bind_ok _ _ _ _ _ (run_rd _ _ _ _ Em)). cbv zeta. replace (n =? 0) with false by (clear - Hn; lia).
    fold nx ny.
    assert (WB : w < 2 ^ 24 /\ h < 2 ^ 24) by (destruct W; tauto).
    assert (nx <= w /\ ny <= h).
    { unfold nx, ny. split; apply Z.div_le_upper_bound; auto; clear - Hn Hw Hh; nia. }
    destruct (newBMP_wf nx ny 24 ltac:(unfold valid_depth; auto)) as (nb & En & Wn & Pn & _ & Gn); [lia|lia|].
    rewrite bind_assoc, (bind_ok _ _ _ _ _ (run_lift _ _ _ _ En)).
    destruct (shrink_loop nb o Wn) as (nb' & a & E & D). exists nb'. split.
    - erewrite bind_ok; [reflexivity|]. apply building_run.
      assert (EO : o24bmof 0 (ny - 1) nb = Ok 0).
      { pose proof (wf_offset _ _ _ _ Wn 0 (ny - 1)) as K. unfold bmoffset in K. rewrite (wf_rbits _ _ _ _ Wn) in K. cbn [rbind Z.eqb Pos.eqb] in K.
        rewrite K, baddr_rowaddr. unfold rowaddr. f_equal. change (0 * 24 / 8) with 0. ring. }
      rewrite (bind_ok _ _ _ _ _ (run_rd _ _ _ _ EO)). rewrite (bind_ok _ _ _ _ _ (run_rd _ _ _ _ (wf_rxchr _ _ _ _ Wn))).
      now rewrite (bind_ok _ _ _ _ _ E).
    - split; [apply D|]. intros x y I. destruct I as [Ix Iy].
      assert (EH : h mod n = h - n * ny) by (unfold ny; pose proof (Z.div_mod h n ltac:(lia)); lia).
      destruct (Z.ltb_spec x p) as [Lp|Lp].
      + rewrite pixel_raster. unfold rowpix. cbn [Z.eqb Pos.eqb]. unfold done in D.
        assert (ST : 3 * nx <= stride nx 24) by (clear; unfold stride; lia).
        rewrite !(proj2 (proj2 D)) by (clear - ST Ix Iy; lia).
        replace (ny - ny <=? y) with true by (clear - Iy; lia). cbn [andb].
        replace (3 * x <? 3 * p) with true by (clear - Lp; lia). replace (3 * x + 1 <? 3 * p) with true by (clear - Lp; lia).
        replace (3 * x + 2 <? 3 * p) with true by (clear - Lp; lia).
        destruct (small_spec (ny - 1 - y)) as (_ & _ & _ & G). destruct (G x ltac:(clear - Lp Ix; lia)) as (-> & -> & ->).
        rewrite !cell_mean by (clear - Lp Ix Iy; lia). unfold square_mean, rgb24. rewrite EH. replace (ny - 1 - (ny - 1 - y)) with y by ring. reflexivity.
      + rewrite pixel_raster. unfold rowpix. cbn [Z.eqb Pos.eqb]. unfold done in D.
        assert (ST : 3 * nx <= stride nx 24) by (clear; unfold stride; lia).
        rewrite !(proj2 (proj2 D)) by (clear - ST Ix Iy; lia).
        replace (3 * x <? 3 * p) with false by (clear - Lp; lia). replace (3 * x + 1 <? 3 * p) with false by (clear - Lp; lia).
        replace (3 * x + 2 <? 3 * p) with false by (clear - Lp; lia). rewrite !andb_false_r.
        pose proof (Pn x y (conj Ix Iy)) as K. rewrite pixel_raster in K. exact K.
  Qed.
End Whole.
