(** Properties C122-C124: palettes of mixtures, HSL values, the default palette of 4 bits. *)
From Coq Require Import ZArith QArith Qround Qabs Qminmax List Bool Lia Lqa.
From Verif Require Import PyBase PyFacts Spec SpecImage SpecShapes SpecEdges Bmp BmpFacts Palette HeaderProofs FractProofs3 Exact SpecExact SpecColours CurveProofs Colours ColourProofs
  Fractal Concrete PropCore PropDraw PropFractal PropExact PropColours2.
Import ListNotations.
Open Scope Z_scope.

(** * C122 *)
Lemma byte3_bytes3 c : bytes3 c -> byte3 c.
Proof. destruct c as [[r g] b]. cbn. unfold byte. tauto. Qed.
Lemma shade_bytes f c : unit3 f -> 0 <= c < 256 -> bytes3 (shade f c).
Proof.
  destruct f as [[fr fg] fb]. intros (U1 & U2 & U3) C. cbn [shade RGBfactors2RGB bytes3].
  split; [|split]; apply qround_byte; apply unit_scale; auto; lia.
Qed.
(** A palette of one hue: black first, the hue at full brightness last, evenly spaced. *)
Theorem C122_monochrome : forall f b w h bits o, wf b w h bits -> bits <> 24 -> unit3 f ->
  exists b' pal, setBMP2monochrome (shade f) (mkst b o) = (Ok pal, mkst b' o) /\ wf b' w h bits /\
    (forall i, 0 <= i < 2 ^ bits ->
       let '(fr, fg, fb) := f in let '(r, g, bl) := pal_entry b' i in
       let lum := (inject_Z i / inject_Z (2 ^ bits - 1) * 255)%Q in
       rounds (fr * lum) r /\ rounds (fg * lum) g /\ rounds (fb * lum) bl) /\
    pal_entry b' 0 = (0, 0, 0) /\
    (forall x y, inside w h x y -> pixel b' w h bits x y = pixel b w h bits x y).
Proof.
  intros f b w h bits o W N U. destruct (C87_monochrome (shade f) b w h bits o W N) as (b' & pal & E & W' & _ & P & _ & X).
  { intros c C. now apply byte3_bytes3, shade_bytes. }
  exists b', pal. split; [exact E|]. split; [exact W'|].
  pose proof (wf_depth _ _ _ _ W) as D.
  split; [|split; [|exact X]].
  - intros i Hi. rewrite (P i Hi). destruct f as [[fr fg] fb]. cbn [shade RGBfactors2RGB].
    assert (EQ : (inject_Z (i * (255 / (2 ^ bits - 1))) == inject_Z i / inject_Z (2 ^ bits - 1) * 255)%Q).
    { rewrite inject_Z_mult. unfold valid_depth in D. destruct D as [->|[->|[->|D]]]; [| | |contradiction]; cbn; field. }
    assert (EXT : forall p q, (p == q)%Q -> rounds q (qround p)) by (intros p q Epq; rewrite (qround_ext p q Epq); apply rounds_qround).
    split; [|split]; apply EXT; rewrite EQ; ring.
  - rewrite (P 0) by (split; [lia|apply Z.pow_pos_nonneg; unfold valid_depth in D; lia]). cbn [Z.mul]. destruct f as [[fr fg] fb]. cbn [shade RGBfactors2RGB].
    rewrite !(nearest_integer 0) by (change (inject_Z 0) with 0%Q; ring). reflexivity.
Qed.
(** A palette between two colours *)
Theorem C122_dichromatic : forall c1 c2 b w h bits o, wf b w h bits -> bits <> 24 -> 0 <= c1 < 2 ^ 24 -> 0 <= c2 < 2 ^ 24 ->
  exists b' pal, setBMP2dichromaticpal (blend c1 c2) c1 (mkst b o) = (Ok (RGB2BGRAlist pal), mkst b' o) /\ wf b' w h bits /\
    (forall i, 0 <= i < 2 ^ bits ->
       let c := rgb24 (pal_entry b' ((3 * (2 ^ bits - i)) mod 2 ^ bits)) in
       mixture lerp c1 c2 i (2 ^ bits) c /\ between c1 c2 c) /\
    pal_entry b' 0 = rgb_of c1 /\
    (forall x y, inside w h x y -> pixel b' w h bits x y = pixel b w h bits x y).
Proof.
  intros c1 c2 b w h bits o W N R1 R2.
  assert (P2 : 0 < 2 ^ bits) by (apply Z.pow_pos_nonneg; [lia|]; pose proof (wf_depth _ _ _ _ W) as D; unfold valid_depth in D; lia).
  assert (BL : forall i n, 0 <= i <= n -> bytes3 (blend c1 c2 i n) /\ (let '(r, g, bl) := blend c1 c2 i n in dichromatic lerp c1 c2 i n = RGB2int r g bl)).
  { intros i n Hi. assert (EB : let '(r, g, bl) := blend c1 c2 i n in dichromatic lerp c1 c2 i n = RGB2int r g bl).
    { unfold blend, dichromatic. destruct (int2RGB c1) as [[x1 y1] z1], (int2RGB c2) as [[x2 y2] z2]. reflexivity. }
    split; [|exact EB]. unfold blend. rewrite !int2RGB_of. pose proof (rgb_of_bytes3 c1 R1) as B1. pose proof (rgb_of_bytes3 c2 R2) as B2.
    destruct (rgb_of c1) as [[x1 y1] z1], (rgb_of c2) as [[x2 y2] z2]. cbn [bytes3] in *.
    pose proof (ease_component lerp x1 x2 i n (C121_eases lerp (or_introl eq_refl)) Hi). pose proof (ease_component lerp y1 y2 i n (C121_eases lerp (or_introl eq_refl)) Hi).
    pose proof (ease_component lerp z1 z2 i n (C121_eases lerp (or_introl eq_refl)) Hi). unfold zmid in *. lia. }
  destruct (C87_dichromatic (blend c1 c2) c1 b w h bits o W N R1) as (b' & pal & E & W' & _ & P & _ & X).
  { intros i Hi. apply byte3_bytes3. apply BL. lia. }
  exists b', pal. split; [exact E|]. split; [exact W'|]. split; [|split; [|exact X]].
  - intros i Hi c. subst c. rewrite (P i Hi). destruct (BL i (2 ^ bits) ltac:(lia)) as (B & EB). destruct (blend c1 c2 i (2 ^ bits)) as [[r g] bl].
    destruct (C121_mixture lerp c1 c2 i (2 ^ bits) (C121_eases lerp (or_introl eq_refl)) R1 R2 ltac:(lia)) as (_ & M & Bt & _).
    rewrite EB in *. replace (rgb24 (r, g, bl)) with (RGB2int r g bl); [split; assumption|].
    unfold RGB2int, rgb24. rewrite !Z.shiftl_mul_pow2 by lia. change (2 ^ 8) with 256. change (2 ^ 16) with 65536. lia.
  - specialize (P 0 ltac:(lia)). rewrite Z.sub_0_r, Z.mod_mul in P by lia. rewrite P. destruct (BL 0 (2 ^ bits) ltac:(lia)) as (B & EB).
    destruct (C121_mixture lerp c1 c2 0 (2 ^ bits) (C121_eases lerp (or_introl eq_refl)) R1 R2 ltac:(lia)) as (_ & _ & _ & F & _).
    destruct (blend c1 c2 0 (2 ^ bits)) as [[r g] bl]. destruct (rgb_of_RGB2int r g bl B) as (RE & _). rewrite <- RE, <- EB, F. reflexivity.
Qed.
Example C122_ex : unit3 (1, 1 # 2, 0)%Q /\
  map (pal_entry (after (setBMP2monochrome (shade (1, 1 # 2, 0)%Q)) (blank 2 2 4))) [0; 1; 8; 15] = [(0, 0, 0); (17, 8, 0); (136, 68, 0); (255, 128, 0)] /\
  map (pal_entry (after (setBMP2dichromaticpal (blend 0 16711935) 0) (blank 2 2 4))) [0; 1; 2; 15] = [(0, 0, 0); (80, 0, 80); (159, 0, 159); (175, 0, 175)].
Proof. split; [repeat split; discriminate|]. vm_compute. auto. Qed.
Print Assumptions C122_monochrome.
Print Assumptions C122_dichromatic.

(** * C123 *)
Lemma level_one d : (d <= 1)%Q -> (level d == 1)%Q.
Proof. intros H. unfold level. rewrite (Q.min_l 1 (2 - d)%Q) by lra. rewrite Q.max_r by lra. reflexivity. Qed.
Lemma level_zero d : (2 <= d)%Q -> (level d == 0)%Q.
Proof. intros H. unfold level. rewrite (Q.min_r 1 (2 - d)%Q) by lra. rewrite Q.max_l by lra. reflexivity. Qed.
Lemma level_mid d : (1 <= d <= 2)%Q -> (level d == 2 - d)%Q.
Proof. intros H. unfold level. rewrite (Q.min_r 1 (2 - d)%Q) by lra. rewrite Q.max_r by lra. reflexivity. Qed.
Lemma level_ext d e : (d == e)%Q -> (level d == level e)%Q.
Proof. intros E. unfold level. now rewrite E. Qed.
Lemma abs_pos q : (0 <= q)%Q -> (Qabs q == q)%Q.
Proof. apply Qabs_pos. Qed.
Lemma abs_neg q : (q <= 0)%Q -> (Qabs q == - q)%Q.
Proof. apply Qabs_neg. Qed.
(** the colour of a hue: with chroma c and the denominator D of the saturation *)
Lemma channel_val c D l lev v : (0 < D)%Q -> (D == 1 - Qabs (2 * l - 1))%Q -> (l + c * (lev - (1 # 2)) == v)%Q -> (channel (c / D) l lev == v)%Q.
Proof. intros P E V. unfold channel. rewrite <- E, <- V. field. lra. Qed.
Lemma chroma_den hi lo : (0 <= lo)%Q -> (lo < hi)%Q -> (hi <= 1)%Q ->
  (0 < 1 - Qabs (2 * ((hi + lo) / 2) - 1))%Q /\ (hi - lo <= 1 - Qabs (2 * ((hi + lo) / 2) - 1))%Q.
Proof.
  intros A B C. assert (E : (2 * ((hi + lo) / 2) - 1 == hi + lo - 1)%Q) by field. rewrite E.
  destruct (Qlt_le_dec (hi + lo) 1); [rewrite abs_neg by lra|rewrite abs_pos by lra]; lra.
Qed.
(** the hue sits a fraction t of a sixth from a primary colour *)
Lemma hsl_sound r g b : (0 <= r <= 1)%Q -> (0 <= g <= 1)%Q -> (0 <= b <= 1)%Q ->
  let '(H, T, L) := hsl r g b in
  (0 <= H < 6)%Q /\ (0 <= T <= 1)%Q /\ (0 <= L <= 1)%Q /\
  (hsl_red H T L == r)%Q /\ (hsl_green H T L == g)%Q /\ (hsl_blue H T L == b)%Q.
Proof.
  intros Hr Hg Hb. unfold hsl. set (hi := Qmax (Qmax r g) b). set (lo := Qmin (Qmin r g) b).
  assert (HI : (r <= hi /\ g <= hi /\ b <= hi)%Q /\ (hi == r \/ hi == g \/ hi == b)%Q).
  { subst hi. destruct (Q.max_spec r g) as [[A ->]|[A ->]]; [destruct (Q.max_spec g b) as [[B ->]|[B ->]]|destruct (Q.max_spec r b) as [[B ->]|[B ->]]]; (split; [repeat split; lra|]); auto using Qeq_refl. }
  assert (LO : (lo <= r /\ lo <= g /\ lo <= b)%Q /\ (lo == r \/ lo == g \/ lo == b)%Q).
  { subst lo. destruct (Q.min_spec r g) as [[A ->]|[A ->]]; [destruct (Q.min_spec r b) as [[B ->]|[B ->]]|destruct (Q.min_spec g b) as [[B ->]|[B ->]]]; (split; [repeat split; lra|]); auto using Qeq_refl. }
  clearbody hi lo. destruct HI as ((I1 & I2 & I3) & IE), LO as ((L1 & L2 & L3) & LE).
  assert (HB : (0 <= lo /\ hi <= 1)%Q) by (split; [destruct LE as [E|[E|E]]|destruct IE as [E|[E|E]]]; lra).
  destruct (Qeq_bool hi lo) eqn:Q0.
  { apply Qeq_bool_iff in Q0. assert (EL : ((hi + lo) / 2 == hi)%Q) by (rewrite <- Q0; field).
    split; [lra|]. split; [lra|]. split; [rewrite EL; lra|]. unfold hsl_red, hsl_green, hsl_blue, channel. rewrite EL. repeat split; lra. }
  assert (NE : ~ (hi == lo)%Q) by (intros E; apply Qeq_bool_iff in E; congruence). clear Q0.
  assert (LT : (lo < hi)%Q) by (destruct (Qlt_le_dec lo hi); [auto|contradiction NE; lra]).
  set (l := ((hi + lo) / 2)%Q). set (c := (hi - lo)%Q). destruct (chroma_den hi lo (proj1 HB) LT (proj2 HB)) as (D0 & D1). fold l in D0, D1. fold c in D1.
  set (D := (1 - Qabs (2 * l - 1))%Q) in *. assert (C0 : (0 < c)%Q) by (subst c; lra).
  assert (EL : (l == (hi + lo) / 2)%Q) by reflexivity. assert (EC : (c == hi - lo)%Q) by reflexivity. assert (ED : (D == 1 - Qabs (2 * l - 1))%Q) by reflexivity.
  assert (EL2 : (2 * l == hi + lo)%Q) by (rewrite EL; field). clearbody l c D. clear EL.
  assert (SB : (0 <= c / D <= 1)%Q) by (split; [apply Qle_shift_div_l; lra|apply Qle_shift_div_r; lra]).
  assert (LB : (0 <= l <= 1)%Q) by lra.
  assert (FR : forall x, (0 <= x <= c -> 0 <= x / c <= 1)%Q) by (intros x Hx; split; [apply Qle_shift_div_l; lra|apply Qle_shift_div_r; lra]).
  assert (FC : forall x, (c * (x / c) == x)%Q) by (intros x; field; lra).
  assert (CV : forall lev v, (l + c * (lev - (1 # 2)) == v)%Q -> (channel (c / D) l lev == v)%Q) by (intros; now apply channel_val).
  assert (CE : forall d e v, (d == e)%Q -> (channel (c / D) l (level e) == v)%Q -> (channel (c / D) l (level d) == v)%Q).
  { intros d e v E F. rewrite <- F. unfold channel. now rewrite (level_ext d e E). }
  assert (V1 : forall d, (d <= 1)%Q -> (channel (c / D) l (level d) == hi)%Q) by (intros d Hd; apply CV; rewrite (level_one d Hd); lra).
  assert (V0 : forall d, (2 <= d)%Q -> (channel (c / D) l (level d) == lo)%Q) by (intros d Hd; apply CV; rewrite (level_zero d Hd); lra).
  assert (VM : forall d v, (1 <= d <= 2)%Q -> (c * (2 - d) == v - lo)%Q -> (channel (c / D) l (level d) == v)%Q).
  { intros d v Hd Hv. apply CV. rewrite (level_mid d Hd). lra. }
  assert (RED : forall H, (0 <= H <= 3)%Q -> (Qmin (Qabs H) (Qabs (6 - H)) == H)%Q).
  { intros H HH. rewrite (abs_pos H) by lra. rewrite (abs_pos (6 - H)%Q) by lra. apply Q.min_l. lra. }
  assert (RED' : forall H, (3 <= H <= 6)%Q -> (Qmin (Qabs H) (Qabs (6 - H)) == 6 - H)%Q).
  { intros H HH. rewrite (abs_pos H) by lra. rewrite (abs_pos (6 - H)%Q) by lra. apply Q.min_r. lra. }
  unfold hsl_red, hsl_green, hsl_blue.
  destruct (Qeq_bool hi r) eqn:QR.
  - apply Qeq_bool_iff in QR. destruct (Qle_bool b g) eqn:QG; cbn [negb].
    + apply Qle_bool_iff in QG. assert (EB : (lo == b)%Q) by (destruct LE as [E|[E|E]]; lra).
      set (t := ((g - b) / c)%Q). assert (T : (0 <= t <= 1)%Q) by (apply FR; lra). pose proof (FC (g - b)%Q) as TC. fold t in TC. clearbody t.
      assert (EH : (t + 0 == t)%Q) by ring. split; [lra|]. split; [exact SB|]. split; [exact LB|]. split; [|split].
      * apply CE with t; [rewrite RED; lra|]. rewrite V1; lra.
      * apply CE with (2 - t)%Q; [rewrite abs_neg; lra|]. apply VM; lra.
      * apply CE with (4 - t)%Q; [rewrite abs_neg; lra|]. rewrite V0; lra.
    + assert (QG' : (g < b)%Q) by (destruct (Qlt_le_dec g b); [auto|apply Qle_bool_iff in q; congruence]). assert (EB : (lo == g)%Q) by (destruct LE as [E|[E|E]]; lra).
      set (t := ((g - b) / c)%Q). assert (T : (-1 <= t < 0)%Q).
      { subst t. split; [apply Qle_shift_div_l; lra|apply Qlt_shift_div_r; lra]. }
      pose proof (FC (g - b)%Q) as TC. fold t in TC. clearbody t.
      split; [lra|]. split; [exact SB|]. split; [exact LB|]. split; [|split].
      * apply CE with (- t)%Q; [rewrite RED'; lra|]. rewrite V1; lra.
      * apply CE with (4 + t)%Q; [rewrite abs_pos; lra|]. rewrite V0; lra.
      * apply CE with (2 + t)%Q; [rewrite abs_pos; lra|]. apply VM; lra.
  - assert (NR : ~ (hi == r)%Q) by (intros E; apply Qeq_bool_iff in E; congruence). destruct (Qeq_bool hi g) eqn:QG.
    + apply Qeq_bool_iff in QG. set (u := ((b - r) / c)%Q). assert (T : (-1 <= u <= 1)%Q).
      { subst u. split; [apply Qle_shift_div_l; lra|apply Qle_shift_div_r; lra]. }
      pose proof (FC (b - r)%Q) as TC. fold u in TC. assert (SG : ((b <= r)%Q -> (u <= 0)%Q) /\ ((r <= b)%Q -> (0 <= u)%Q)).
      { subst u. split; intros O; [apply Qle_shift_div_r; lra|apply Qle_shift_div_l; lra]. } clearbody u. destruct SG as (SG1 & SG2).
      split; [lra|]. split; [exact SB|]. split; [exact LB|]. split; [|split].
      * apply CE with (2 + u)%Q; [rewrite RED; lra|]. destruct (Qlt_le_dec r b) as [O|O]; [specialize (SG2 ltac:(lra)); rewrite V0 by lra; destruct LE as [E|[E|E]]; lra|specialize (SG1 O); apply VM; [lra|destruct LE as [E|[E|E]]; lra]].
      * destruct (Qlt_le_dec u 0); [apply CE with (- u)%Q; [rewrite abs_neg; lra|]|apply CE with u; [rewrite abs_pos; lra|]]; rewrite V1; lra.
      * apply CE with (2 - u)%Q; [rewrite abs_neg; lra|]. destruct (Qlt_le_dec r b) as [O|O]; [specialize (SG2 ltac:(lra)); apply VM; [lra|destruct LE as [E|[E|E]]; lra]|specialize (SG1 O); rewrite V0 by lra; destruct LE as [E|[E|E]]; lra].
    + assert (NG : ~ (hi == g)%Q) by (intros E; apply Qeq_bool_iff in E; congruence). assert (QB : (hi == b)%Q) by tauto.
      set (u := ((r - g) / c)%Q). assert (T : (-1 <= u <= 1)%Q).
      { subst u. split; [apply Qle_shift_div_l; lra|apply Qle_shift_div_r; lra]. }
      pose proof (FC (r - g)%Q) as TC. fold u in TC. assert (SG : ((r <= g)%Q -> (u <= 0)%Q) /\ ((g <= r)%Q -> (0 <= u)%Q)).
      { subst u. split; intros O; [apply Qle_shift_div_r; lra|apply Qle_shift_div_l; lra]. } clearbody u. destruct SG as (SG1 & SG2).
      split; [lra|]. split; [exact SB|]. split; [exact LB|]. split; [|split].
      * apply CE with (2 - u)%Q; [rewrite RED'; lra|]. destruct (Qlt_le_dec g r) as [O|O]; [specialize (SG2 ltac:(lra)); apply VM; [lra|destruct LE as [E|[E|E]]; lra]|specialize (SG1 O); rewrite V0 by lra; destruct LE as [E|[E|E]]; lra].
      * apply CE with (2 + u)%Q; [rewrite abs_pos; lra|]. destruct (Qlt_le_dec g r) as [O|O]; [specialize (SG2 ltac:(lra)); rewrite V0 by lra; destruct LE as [E|[E|E]]; lra|specialize (SG1 O); apply VM; [lra|destruct LE as [E|[E|E]]; lra]].
      * destruct (Qlt_le_dec u 0); [apply CE with (- u)%Q; [rewrite abs_neg; lra|]|apply CE with u; [rewrite abs_pos; lra|]]; rewrite V1; lra.
Qed.
Lemma byte_unit v : 0 <= v < 256 -> (0 <= inject_Z v / 255 <= 1)%Q.
Proof. intros H. apply (frac_unit v 255). lia. Qed.
(** The three numbers are the roundings of a hue (in degrees), a saturation and a luminosity
    (in percent) from which the usual formula gives back the colour. *)
Theorem C123_hsl : forall r g b, bytes3 (r, g, b) ->
  let '(h, s, l) := RGB2HSL r g b in
  exists H T L, (0 <= H < 6)%Q /\ (0 <= T <= 1)%Q /\ (0 <= L <= 1)%Q /\
    (hsl_red H T L * 255 == inject_Z r)%Q /\ (hsl_green H T L * 255 == inject_Z g)%Q /\ (hsl_blue H T L * 255 == inject_Z b)%Q /\
    rounds (H * 60) h /\ rounds (T * 100) s /\ rounds (L * 100) l /\
    0 <= h <= 360 /\ 0 <= s <= 100 /\ 0 <= l <= 100.
Proof.
  intros r g b (R & G & B). unfold RGB2HSL. pose proof (hsl_sound (inject_Z r / 255) (inject_Z g / 255) (inject_Z b / 255) (byte_unit r R) (byte_unit g G) (byte_unit b B)) as HS.
  destruct (hsl (inject_Z r / 255) (inject_Z g / 255) (inject_Z b / 255)) as [[H T] L]. destruct HS as (A1 & A2 & A3 & A4 & A5 & A6).
  exists H, T, L. split; [exact A1|]. split; [exact A2|]. split; [exact A3|].
  split; [rewrite A4; field|]. split; [rewrite A5; field|]. split; [rewrite A6; field|].
  split; [apply rounds_qround|]. split; [apply rounds_qround|]. split; [apply rounds_qround|].
  split; [|split]; apply qround_bounds; change (inject_Z 0) with 0%Q; change (inject_Z 360) with 360%Q; change (inject_Z 100) with 100%Q; lra.
Qed.
(** Greys have hue and saturation 0. *)
Theorem C123_grey : forall v, 0 <= v < 256 -> exists l, RGB2HSL v v v = (0, 0, l) /\ rounds (inject_Z v / 255 * 100) l.
Proof.
  intros v V. unfold RGB2HSL, hsl. set (q := (inject_Z v / 255)%Q).
  assert (E1 : (Qmax (Qmax q q) q == q)%Q) by (rewrite !Q.max_id; reflexivity). assert (E2 : (Qmin (Qmin q q) q == q)%Q) by (rewrite !Q.min_id; reflexivity).
  assert (EB : Qeq_bool (Qmax (Qmax q q) q) (Qmin (Qmin q q) q) = true) by (apply Qeq_bool_iff; now rewrite E1, E2).
  rewrite EB. rewrite !(nearest_integer 0) by (change (inject_Z 0) with 0%Q; ring). eexists. split; [reflexivity|].
  assert (EQ : ((Qmax (Qmax q q) q + Qmin (Qmin q q) q) / 2 * 100 == q * 100)%Q) by (rewrite E1, E2; field). rewrite (qround_ext _ _ EQ). apply rounds_qround.
Qed.
(** The hue of a colour whose red is the largest component and whose blue exceeds the green
    by little is rounded up to 360, outside the range 0 to 359 of the tables of colours. *)
Theorem C123_hue_360_refuted : ~ (forall r g b, bytes3 (r, g, b) -> let '(h, _, _) := RGB2HSL r g b in 0 <= h < 360).
Proof. intros F. specialize (F 255 0 1 ltac:(cbn; lia)). assert (E : RGB2HSL 255 0 1 = (360, 100, 50)) by now vm_compute. rewrite E in F. lia. Qed.
Example C123_ex : RGB2HSL 255 128 0 = (30, 100, 50) /\ RGB2HSL 10 200 190 = (177, 90, 41) /\ RGB2HSL 30 20 60 = (255, 50, 16) /\ RGB2HSL 77 77 77 = (0, 0, 30).
Proof. vm_compute. auto. Qed.
Print Assumptions C123_hsl.
Print Assumptions C123_grey.
Print Assumptions C123_hue_360_refuted.

(** * C124 *)
(** The number: bit 2, 1 and 0 for a component of at least 64, bit 3 when some component is at
    least 128. *)
Theorem C124_match : forall r g b, bytes3 (r, g, b) ->
  let n := matchRGBtodefault4bitpal (r, g, b) in
  0 <= n < 16 /\ Z.testbit n 2 = (64 <=? r) /\ Z.testbit n 1 = (64 <=? g) /\ Z.testbit n 0 = (64 <=? b) /\
  Z.testbit n 3 = (128 <=? brightest (r, g, b)).
Proof.
  intros r g b (R & G & B). unfold matchRGBtodefault4bitpal, brightest. rewrite !Z.shiftr_div_pow2 by lia. change (2 ^ 6) with 64.
  replace (r / 64 >? 1) with (128 <=? r) by (Z.to_euclidean_division_equations; lia).
  replace (g / 64 >? 1) with (128 <=? g) by (Z.to_euclidean_division_equations; lia).
  replace (b / 64 >? 1) with (128 <=? b) by (Z.to_euclidean_division_equations; lia).
  replace (r / 64 >=? 1) with (64 <=? r) by (Z.to_euclidean_division_equations; lia).
  replace (g / 64 >=? 1) with (64 <=? g) by (Z.to_euclidean_division_equations; lia).
  replace (b / 64 >=? 1) with (64 <=? b) by (Z.to_euclidean_division_equations; lia).
  replace (128 <=? Z.max r (Z.max g b)) with ((128 <=? r) || (128 <=? g) || (128 <=? b)) by lia.
  destruct ((128 <=? r) || (128 <=? g) || (128 <=? b)), (64 <=? r), (64 <=? g), (64 <=? b); cbn; repeat split; discriminate || reflexivity.
Qed.
(** The number does not show the colour in a new 4-bit image: red and blue are exchanged. *)
Definition lit (bright v : Z) : Z := if v <? 64 then 0 else if 128 <=? bright then 255 else 128.
Theorem C124_shown : forall x y bmp r g b, 0 <= x < 2 ^ 24 -> 0 <= y < 2 ^ 24 -> newBMP x y 4 = Ok bmp -> bytes3 (r, g, b) ->
  let k := brightest (r, g, b) in
  pal_entry bmp (matchRGBtodefault4bitpal (r, g, b)) = (lit k b, lit k g, lit k r).
Proof.
  intros x y bmp r g b X Y E H k. destruct (C124_match r g b H) as (N & _).
  destruct (C02_newBMP x y 4 ltac:(unfold valid_depth; lia) X Y) as (b' & E' & W & _ & _ & _ & _ & _ & _ & _ & GP). rewrite E in E'. injection E' as <-.
  rewrite (nthpal_entry bmp x y 4 stdpal4) by (auto; discriminate || lia || (rewrite GP by discriminate; reflexivity)).
  clear GP W E N. subst k. destruct H as (R & G & B). unfold matchRGBtodefault4bitpal, brightest, lit. rewrite !Z.shiftr_div_pow2 by lia. change (2 ^ 6) with 64.
  replace (r / 64 >? 1) with (128 <=? r) by (Z.to_euclidean_division_equations; lia).
  replace (g / 64 >? 1) with (128 <=? g) by (Z.to_euclidean_division_equations; lia).
  replace (b / 64 >? 1) with (128 <=? b) by (Z.to_euclidean_division_equations; lia).
  replace (r / 64 >=? 1) with (negb (r <? 64)) by (Z.to_euclidean_division_equations; lia).
  replace (g / 64 >=? 1) with (negb (g <? 64)) by (Z.to_euclidean_division_equations; lia).
  replace (b / 64 >=? 1) with (negb (b <? 64)) by (Z.to_euclidean_division_equations; lia).
  assert (K : (128 <=? Z.max r (Z.max g b)) = ((128 <=? r) || (128 <=? g) || (128 <=? b))) by lia. rewrite K. clear K.
  assert (D : (r <? 64) && (g <? 64) && (b <? 64) = true -> (128 <=? r) || (128 <=? g) || (128 <=? b) = false) by lia.
  destruct ((128 <=? r) || (128 <=? g) || (128 <=? b)), (r <? 64), (g <? 64), (b <? 64); try reflexivity. now specialize (D eq_refl).
Qed.
Theorem C124_colour_refuted : ~ (forall bmp c, newBMP 2 2 4 = Ok bmp -> bytes3 c ->
  forall i, 0 <= i < 16 -> rgb_dist2 c (pal_entry bmp (matchRGBtodefault4bitpal c)) <= rgb_dist2 c (pal_entry bmp i)).
Proof.
  intros F. specialize (F (blank 2 2 4) (255, 0, 0) ltac:(now vm_compute) ltac:(cbn; lia) 9 ltac:(lia)).
  assert (E : (rgb_dist2 (255, 0, 0) (pal_entry (blank 2 2 4) (matchRGBtodefault4bitpal (255, 0, 0))) <=? rgb_dist2 (255, 0, 0) (pal_entry (blank 2 2 4) 9)) = false) by now vm_compute. lia.
Qed.
(** With drawn numbers: bits 2, 1, 0 for a draw above 128. *)
Lemma draw_bit i : 0 <= i < 256 -> (qround (inject_Z i / 256) =? 1) = (128 <? i).
Proof.
  intros H. destruct (rounds_qround (inject_Z i / 256)) as ([N1 N2] & EV). set (z := qround (inject_Z i / 256)) in *.
  pose proof (le_inject 0 i ltac:(lia)) as P1. pose proof (lt_inject i 256 ltac:(lia)) as P2. change (inject_Z 0) with 0%Q in *. change (inject_Z 256) with 256%Q in *.
  assert (Q : (inject_Z i == 256 * (inject_Z i / 256))%Q) by field. set (q := (inject_Z i / 256)%Q) in *. clearbody q.
  assert (ZB : 0 <= z <= 1) by (subst z; apply qround_bounds; change (inject_Z 0) with 0%Q; change (inject_Z 1) with 1%Q; lra).
  assert (z = 0 \/ z = 1) as [Z|Z] by lia; rewrite Z in *; cbn [Z.eqb Pos.eqb].
  - change (inject_Z 0) with 0%Q in *. symmetry. apply Z.ltb_ge. apply inject_le. change (inject_Z 128) with 128%Q. lra.
  - change (inject_Z 1) with 1%Q in *. symmetry. apply Z.ltb_lt. apply inject_lt. change (inject_Z 128) with 128%Q.
    destruct (Qlt_le_dec 128 (inject_Z i)) as [L|L]; [exact L|]. assert (X : Z.even 1 = true) by (apply EV; left; lra). discriminate X.
Qed.
Theorem C124_random : forall r g b i j k, bytes3 (r, g, b) -> 0 <= i <= r -> 0 <= j <= g -> 0 <= k <= b ->
  let n := probplotRGBto4bitpal i j k (r, g, b) in
  0 <= n < 16 /\ Z.testbit n 2 = (128 <? i) /\ Z.testbit n 1 = (128 <? j) /\ Z.testbit n 0 = (128 <? k) /\
  Z.testbit n 3 = (128 <=? brightest (r, g, b)).
Proof.
  intros r g b i j k (R & G & B) I J K. unfold probplotRGBto4bitpal, brightest. rewrite !draw_bit by lia. rewrite !Z.shiftr_div_pow2 by lia. change (2 ^ 6) with 64.
  replace (r / 64 >? 1) with (128 <=? r) by (Z.to_euclidean_division_equations; lia).
  replace (g / 64 >? 1) with (128 <=? g) by (Z.to_euclidean_division_equations; lia).
  replace (b / 64 >? 1) with (128 <=? b) by (Z.to_euclidean_division_equations; lia).
  replace (128 <=? Z.max r (Z.max g b)) with ((128 <=? r) || (128 <=? g) || (128 <=? b)) by lia.
  destruct ((128 <=? r) || (128 <=? g) || (128 <=? b)), (128 <? i), (128 <? j), (128 <? k); cbn; repeat split; discriminate || reflexivity.
Qed.
(** so a component of at most 128 never contributes *)
Theorem C124_random_dark : forall r g b i j k, bytes3 (r, g, b) -> 0 <= i <= r -> 0 <= j <= g -> 0 <= k <= b ->
  brightest (r, g, b) < 128 -> probplotRGBto4bitpal i j k (r, g, b) = 0.
Proof.
  intros r g b i j k H I J K D. destruct (C124_random r g b i j k H I J K) as (N & T2 & T1 & T0 & T3). set (n := probplotRGBto4bitpal i j k (r, g, b)) in *.
  unfold brightest in *. replace (128 <? i) with false in T2 by lia. replace (128 <? j) with false in T1 by lia. replace (128 <? k) with false in T0 by lia.
  replace (128 <=? Z.max r (Z.max g b)) with false in T3 by lia. clearbody n.
  assert (C : n = 0 \/ n = 1 \/ n = 2 \/ n = 3 \/ n = 4 \/ n = 5 \/ n = 6 \/ n = 7 \/ n = 8 \/ n = 9 \/ n = 10 \/ n = 11 \/ n = 12 \/ n = 13 \/ n = 14 \/ n = 15) by lia.
  repeat (destruct C as [->|C]; [try discriminate; reflexivity|]). subst n. discriminate.
Qed.
Example C124_ex : matchRGBtodefault4bitpal (70, 10, 200) = 13 /\ pal_entry (blank 2 2 4) 13 = (255, 0, 255) /\
  matchRGBtodefault4bitpal (70, 10, 20) = 4 /\ pal_entry (blank 2 2 4) 4 = (0, 0, 128) /\ probplotRGBto4bitpal 200 129 128 (255, 130, 140) = 14.
Proof. vm_compute. auto 6. Qed.
Print Assumptions C124_match.
Print Assumptions C124_shown.
Print Assumptions C124_colour_refuted.
Print Assumptions C124_random.
Print Assumptions C124_random_dark.
