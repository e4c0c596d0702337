(** Properties C121-C124: mixtures, palettes of mixtures, HSL values, the palette of 4 bits. *)
From Coq Require Import ZArith QArith Qround Qabs Qminmax List Bool Lia Lqa.
From Verif Require Import PyBase PyFacts Spec SpecImage SpecShapes SpecEdges Bmp BmpFacts Raster PixelProofs Exact SpecExact SpecColours CurveProofs Colours ColourProofs
  Shapes Fractal Concrete DrawProofs3 PropDraw PropFilter PropShapes PropFractal PropExact.
Import ListNotations.
Open Scope Z_scope.

(** * C121 *)
Theorem C121_eases : forall fn, In fn [lerp; smoothsteplerp; smoothersteplerp; smootheststeplerp] -> eases fn.
Proof.
  assert (EL : eases lerp).
  { intros a b. unfold lerp. split; [ring|]. split; [ring|]. intros f f' H1 H2 H3. split; intros L; nra. }
  intros fn [<-|I]; [exact EL|]. intros a b. destruct (C115_steplerp fn a b I) as (E0 & E1 & A & M). split; [exact E0|]. split; [exact E1|].
  intros f f' H1 H2 H3.
  assert (PR : forall x y, (x == y)%Q -> (fn a b x == fn a b y)%Q).
  { intros x y E. destruct I as [<-|[<-|[<-|[]]]]; unfold smoothsteplerp, smoothersteplerp, smootheststeplerp, smoothstep, smootherstep, smootheststep, lerp;
      destruct (Qeq_bool (b - a) 0); cbn [negb]; rewrite ?E; reflexivity. }
  destruct (Qeq_dec f f') as [E|N]; [rewrite (PR f f' E); split; intros; lra|].
  assert (L : (f < f')%Q) by (apply Qle_lteq in H2; tauto). destruct (M f f' H1 L H3) as (M1 & M2).
  pose proof (A f ltac:(lra)) as A1. pose proof (A f' ltac:(lra)) as A2. unfold amid in *.
  split; intros O; (destruct (Qeq_dec a b) as [E|E]; [destruct A1, A2; lra|]); assert (O' : (a < b)%Q \/ (b < a)%Q) by (destruct (Qlt_le_dec a b); [now left|right; apply Qle_lteq in q; destruct q; [auto|now contradiction E]]); destruct O' as [O'|O']; first [lra|specialize (M1 O'); lra|specialize (M2 O'); lra].
Qed.
Lemma eases_proper fn a b x y : eases fn -> (0 <= x <= 1)%Q -> (x == y)%Q -> (fn a b x == fn a b y)%Q.
Proof.
  intros H U E. destruct (H a b) as (_ & _ & M). destruct (M x y ltac:(lra) ltac:(lra) ltac:(lra)) as (M1 & M2). destruct (M y x ltac:(lra) ltac:(lra) ltac:(lra)) as (M3 & M4).
  destruct (Qlt_le_dec a b) as [L|L]; [specialize (M1 ltac:(lra)); specialize (M3 ltac:(lra))|specialize (M2 ltac:(lra)); specialize (M4 ltac:(lra))]; lra.
Qed.
Lemma frac_unit n d : 0 <= n <= d -> (0 <= inject_Z n / inject_Z d <= 1)%Q.
Proof.
  intros H. destruct (Z.eq_dec d 0) as [->|N]; [replace n with 0 by lia; cbn; split; discriminate|].
  pose proof (le_inject 0 n ltac:(lia)) as A. pose proof (le_inject n d ltac:(lia)) as B. pose proof (lt_inject 0 d ltac:(lia)) as C. change (inject_Z 0) with 0%Q in *.
  split; [apply Qle_shift_div_l; lra|apply Qle_shift_div_r; lra].
Qed.
Lemma frac_le n m d : 0 <= n <= m -> m <= d -> (inject_Z n / inject_Z d <= inject_Z m / inject_Z d)%Q.
Proof.
  intros H L. destruct (Z.eq_dec d 0) as [->|N]; [replace n with 0 by lia; replace m with 0 by lia; apply Qle_refl|].
  pose proof (lt_inject 0 d ltac:(lia)) as C. change (inject_Z 0) with 0%Q in *. pose proof (le_inject n m ltac:(lia)) as A.
  assert (D : (0 < / inject_Z d)%Q) by now apply Qinv_lt_0_compat. unfold Qdiv. nra.
Qed.
Lemma frac_full d : 0 < d -> (inject_Z d / inject_Z d == 1)%Q.
Proof. intros H. pose proof (lt_inject 0 d H) as C. change (inject_Z 0) with 0%Q in *. field. lra. Qed.
Lemma frac_zero d : (inject_Z 0 / inject_Z d == 0)%Q.
Proof. unfold Qdiv. change (inject_Z 0) with 0%Q. ring. Qed.
(** one component *)
Lemma ease_component fn a b n d : eases fn -> 0 <= n <= d -> zmid a b (qround (fn (inject_Z a) (inject_Z b) (inject_Z n / inject_Z d)%Q)).
Proof.
  intros H R. pose proof (frac_unit n d R) as U. set (v := (inject_Z n / inject_Z d)%Q) in *. destruct (H (inject_Z a) (inject_Z b)) as (E0 & E1 & M).
  destruct (M 0%Q v ltac:(lra) ltac:(lra) ltac:(lra)) as (M1 & M2). destruct (M v 1%Q ltac:(lra) ltac:(lra) ltac:(lra)) as (M3 & M4).
  unfold zmid. destruct (Z.le_ge_cases a b) as [L|L]; [left|right]; apply le_inject in L; [specialize (M1 L); specialize (M3 L)|specialize (M2 L); specialize (M4 L)]; apply qround_bounds; lra.
Qed.
Lemma ease_first fn a b d : eases fn -> 0 <= d -> qround (fn (inject_Z a) (inject_Z b) (inject_Z 0 / inject_Z d)%Q) = a.
Proof.
  intros H D. apply nearest_integer. rewrite (eases_proper fn _ _ _ 0%Q H); [apply H|apply frac_unit; lia|apply frac_zero].
Qed.
Lemma ease_last fn a b d : eases fn -> 0 < d -> qround (fn (inject_Z a) (inject_Z b) (inject_Z d / inject_Z d)%Q) = b.
Proof.
  intros H D. apply nearest_integer. rewrite (eases_proper fn _ _ _ 1%Q H); [apply H|apply frac_unit; lia|now apply frac_full].
Qed.
Lemma ease_order fn a b n m d : eases fn -> 0 <= n <= m -> m <= d ->
  zmid (qround (fn (inject_Z a) (inject_Z b) (inject_Z n / inject_Z d)%Q)) b (qround (fn (inject_Z a) (inject_Z b) (inject_Z m / inject_Z d)%Q)).
Proof.
  intros H R L. pose proof (frac_unit n d ltac:(lia)) as U. pose proof (frac_unit m d ltac:(lia)) as U'. pose proof (frac_le n m d R L) as F.
  pose proof (ease_component fn a b m d H ltac:(lia)) as C. unfold zmid in *.
  set (v := (inject_Z n / inject_Z d)%Q) in *. set (w := (inject_Z m / inject_Z d)%Q) in *. destruct (H (inject_Z a) (inject_Z b)) as (E0 & E1 & M).
  destruct (M v w ltac:(lra) ltac:(lra) ltac:(lra)) as (M1 & M2). destruct (M w 1%Q ltac:(lra) ltac:(lra) ltac:(lra)) as (M3 & M4).
  destruct (Z.le_ge_cases a b) as [O|O]; [left|right]; apply le_inject in O; [specialize (M1 O); specialize (M3 O)|specialize (M2 O); specialize (M4 O)].
  - split; [now apply qround_le|]. pose proof (qround_bounds (inject_Z b) b b ltac:(lra) ltac:(lra)). apply Z.le_trans with (qround (inject_Z b)); [apply qround_le; lra|lia].
  - split; [|now apply qround_le]. pose proof (qround_bounds (inject_Z b) b b ltac:(lra) ltac:(lra)). apply Z.le_trans with (qround (inject_Z b)); [lia|apply qround_le; lra].
Qed.
Lemma rgb_of_RGB2int r g b : bytes3 (r, g, b) -> rgb_of (RGB2int r g b) = (r, g, b) /\ 0 <= RGB2int r g b < 2 ^ 24.
Proof.
  cbn [bytes3]. intros H. unfold RGB2int. rewrite !Z.shiftl_mul_pow2 by lia. change (2 ^ 8) with 256. change (2 ^ 16) with 65536. change (2 ^ 24) with 16777216.
  unfold rgb_of. split; [|lia]. f_equal; [f_equal|]; lia || (Z.to_euclidean_division_equations; lia).
Qed.
Lemma rgb_of_bytes3 c : 0 <= c < 2 ^ 24 -> bytes3 (rgb_of c).
Proof. intros H. change (2 ^ 24) with 16777216 in H. unfold rgb_of, bytes3. Z.to_euclidean_division_equations. lia. Qed.
Lemma rgb_of_inj c d : 0 <= c < 2 ^ 24 -> 0 <= d < 2 ^ 24 -> rgb_of c = rgb_of d -> c = d.
Proof. intros H K E. change (2 ^ 24) with 16777216 in *. unfold rgb_of in E. inversion E as [[E1 E2 E3]]. Z.to_euclidean_division_equations. lia. Qed.
Definition mixture (fn : Q -> Q -> Q -> Q) (c1 c2 n d : Z) (c : Z) : Prop :=
  let '(r1, g1, b1) := rgb_of c1 in let '(r2, g2, b2) := rgb_of c2 in let '(r, g, b) := rgb_of c in
  let v := (inject_Z n / inject_Z d)%Q in
  rounds (fn (inject_Z r1) (inject_Z r2) v) r /\ rounds (fn (inject_Z g1) (inject_Z g2) v) g /\ rounds (fn (inject_Z b1) (inject_Z b2) v) b.
Definition between (c1 c2 c : Z) : Prop :=
  let '(r1, g1, b1) := rgb_of c1 in let '(r2, g2, b2) := rgb_of c2 in let '(r, g, b) := rgb_of c in
  zmid r1 r2 r /\ zmid g1 g2 g /\ zmid b1 b2 b.
(** The colours of a gradient between two colours: rounded mixtures, starting with c1 at 0
    and ending with c2 at d, every component between those of c1 and c2 and never turning
    back. *)
Theorem C121_mixture : forall fn c1 c2 n d, eases fn -> 0 <= c1 < 2 ^ 24 -> 0 <= c2 < 2 ^ 24 -> 0 <= n <= d ->
  0 <= dichromatic fn c1 c2 n d < 2 ^ 24 /\ mixture fn c1 c2 n d (dichromatic fn c1 c2 n d) /\ between c1 c2 (dichromatic fn c1 c2 n d) /\
  dichromatic fn c1 c2 0 d = c1 /\ (0 < d -> dichromatic fn c1 c2 d d = c2) /\
  (forall m, n <= m <= d -> between (dichromatic fn c1 c2 n d) c2 (dichromatic fn c1 c2 m d)).
Proof.
  intros fn c1 c2 n d H R1 R2 N.
  assert (K : forall k, 0 <= k <= d -> exists r g b, dichromatic fn c1 c2 k d = RGB2int r g b /\ bytes3 (r, g, b) /\
     let '(r1, g1, b1) := rgb_of c1 in let '(r2, g2, b2) := rgb_of c2 in let v := (inject_Z k / inject_Z d)%Q in
     r = qround (fn (inject_Z r1) (inject_Z r2) v) /\ g = qround (fn (inject_Z g1) (inject_Z g2) v) /\ b = qround (fn (inject_Z b1) (inject_Z b2) v)).
  { intros k Hk. unfold dichromatic. rewrite !int2RGB_of. pose proof (rgb_of_bytes3 c1 R1) as B1. pose proof (rgb_of_bytes3 c2 R2) as B2.
    destruct (rgb_of c1) as [[r1 g1] b1], (rgb_of c2) as [[r2 g2] b2]. cbn [interpolateRGB]. do 3 eexists. split; [reflexivity|]. split; [|repeat split].
    pose proof (ease_component fn r1 r2 k d H Hk). pose proof (ease_component fn g1 g2 k d H Hk). pose proof (ease_component fn b1 b2 k d H Hk). unfold zmid in *. cbn [bytes3] in *. lia. }
  assert (D : 0 <= d) by lia.
  destruct (K n N) as (r & g & b & E & B & V). destruct (rgb_of_RGB2int r g b B) as (RE & RR). rewrite E in *. split; [exact RR|].
  unfold mixture, between. rewrite RE.
  assert (F0 : dichromatic fn c1 c2 0 d = c1).
  { destruct (K 0 ltac:(lia)) as (r0 & g0 & b0 & E' & B' & V'). destruct (rgb_of_RGB2int r0 g0 b0 B') as (RE' & RR'). rewrite E'. apply rgb_of_inj; auto. rewrite RE'.
    destruct (rgb_of c1) as [[r1 g1] b1], (rgb_of c2) as [[r2 g2] b2]. cbv zeta in V'. rewrite !(ease_first fn _ _ d H D) in V'. destruct V' as (-> & -> & ->). reflexivity. }
  assert (F1 : 0 < d -> dichromatic fn c1 c2 d d = c2).
  { intros P. destruct (K d ltac:(lia)) as (r0 & g0 & b0 & E' & B' & V'). destruct (rgb_of_RGB2int r0 g0 b0 B') as (RE' & RR'). rewrite E'. apply rgb_of_inj; auto. rewrite RE'.
    destruct (rgb_of c1) as [[r1 g1] b1], (rgb_of c2) as [[r2 g2] b2]. cbv zeta in V'. rewrite !(ease_last fn _ _ d H P) in V'. destruct V' as (-> & -> & ->). reflexivity. }
  split; [|split; [|split; [exact F0|split; [exact F1|]]]].
  - destruct (rgb_of c1) as [[r1 g1] b1], (rgb_of c2) as [[r2 g2] b2]. cbv zeta in *. destruct V as (-> & -> & ->). repeat split; try apply rounds_qround.
  - destruct (rgb_of c1) as [[r1 g1] b1], (rgb_of c2) as [[r2 g2] b2]. cbv zeta in *. destruct V as (-> & -> & ->). repeat split; now apply ease_component.
  - intros m Hm. destruct (K m ltac:(lia)) as (r' & g' & b' & E' & B' & V'). destruct (rgb_of_RGB2int r' g' b' B') as (RE' & _). rewrite E', RE'.
    destruct (rgb_of c1) as [[r1 g1] b1], (rgb_of c2) as [[r2 g2] b2]. cbv zeta in *. destruct V as (-> & -> & ->), V' as (-> & -> & ->). repeat split; apply ease_order; auto; lia.
Qed.
(** In an image: direction 0 of filleddichromaticgradrect mixes at min(x, n) / n where n is
    the width of the rectangle and x the column in the image.  *)
Theorem C121_rectangle : forall fn c1 c2 b w h o x1 y1 x2 y2 d, eases fn -> 0 <= c1 < 2 ^ 24 -> 0 <= c2 < 2 ^ 24 -> wf b w h 24 ->
  inside w h x1 y1 -> inside w h x2 y2 ->
  exists b', filleddichromaticgradrect (dichromatic fn c1 c2) x1 y1 x2 y2 d (mkst b o) = (Ok (Some tt), mkst b' o) /\ wf b' w h 24 /\
    (forall x y, inside w h x y -> in_box x1 y1 x2 y2 x y = true ->
       let n := (if d =? 0 then Z.abs (x2 - x1) else Z.abs (y2 - y1)) + 1 in
       let k := Z.min (if d =? 0 then x else y) n in
       mixture fn c1 c2 k n (pixel b' w h 24 x y) /\ between c1 c2 (pixel b' w h 24 x y) /\
       (k = 0 -> pixel b' w h 24 x y = c1) /\ (k = n -> pixel b' w h 24 x y = c2)) /\
    (forall x y, inside w h x y -> in_box x1 y1 x2 y2 x y = false -> pixel b' w h 24 x y = pixel b w h 24 x y).
Proof.
  intros fn c1 c2 b w h o x1 y1 x2 y2 d H R1 R2 W I1 I2.
  destruct (C71_dichromatic (dichromatic fn c1 c2) b w h o x1 y1 x2 y2 d W I1 I2) as (b' & E & W' & _ & R).
  { intros n m Hn. now apply C121_mixture. }
  exists b'. split; [exact E|]. split; [exact W'|]. split.
  - intros x y I B n k. specialize (R x y I). cbv beta in R. rewrite B in R.
    assert (KN : 0 <= k <= n /\ 0 < n) by (subst k n; unfold inside in I; destruct (d =? 0); lia).
    assert (RP : pixel b' w h 24 x y = dichromatic fn c1 c2 k n) by (rewrite R; subst k n; destruct (d =? 0); reflexivity). rewrite RP.
    destruct (C121_mixture fn c1 c2 k n H R1 R2 (proj1 KN)) as (_ & M & Bt & Z0 & Z1 & _). split; [exact M|]. split; [exact Bt|]. split; [now intros ->|]. intros ->. apply Z1. lia.
  - intros x y I B. specialize (R x y I). cbv beta in R. now rewrite B in R.
Qed.
(** Over a whole image the first column (or row) is c1 and the last one stays short of c2. *)
Theorem C121_background : forall fn c1 c2 b w h o d, eases fn -> 0 <= c1 < 2 ^ 24 -> 0 <= c2 < 2 ^ 24 -> wf b w h 24 -> 0 < w -> 0 < h ->
  exists b', fillbackgroundwithdichromaticgrad (dichromatic fn c1 c2) d (mkst b o) = (Ok (Some tt), mkst b' o) /\ wf b' w h 24 /\
    (forall x y, inside w h x y ->
       let k := if d =? 0 then x else y in let n := if d =? 0 then w else h in
       mixture fn c1 c2 k n (pixel b' w h 24 x y) /\ (k = 0 -> pixel b' w h 24 x y = c1) /\
       (forall x' y', inside w h x' y' -> k <= (if d =? 0 then x' else y') -> between (pixel b' w h 24 x y) c2 (pixel b' w h 24 x' y'))).
Proof.
  intros fn c1 c2 b w h o d H R1 R2 W P Q. destruct (C71_background (dichromatic fn c1 c2) b w h 24 o d W) as (_ & E).
  destruct (C71_dichromatic (dichromatic fn c1 c2) b w h o 0 0 (w - 1) (h - 1) d W) as (b' & E' & W' & _ & R); [unfold inside; lia|unfold inside; lia|intros n m Hn; now apply C121_mixture|].
  exists b'. split; [now rewrite E|]. split; [exact W'|]. intros x y I k n.
  assert (G : forall x y, inside w h x y -> pixel b' w h 24 x y = dichromatic fn c1 c2 (if d =? 0 then x else y) n).
  { clear x y I k. intros x y I. specialize (R x y I). cbv beta in R. replace (in_box 0 0 (w - 1) (h - 1) x y) with true in R by (unfold in_box, inside in *; lia).
    rewrite R. subst n. unfold inside in I. destruct (d =? 0); cbv zeta; f_equal; lia. }
  assert (KN : 0 <= k <= n) by (subst k n; unfold inside in I; destruct (d =? 0); lia).
  destruct (C121_mixture fn c1 c2 k n H R1 R2 KN) as (_ & M & Bt & Z0 & _ & O). rewrite (G x y I). fold k. split; [exact M|]. split; [now intros ->|].
  intros x' y' I' L. rewrite (G x' y' I'). apply O. subst n. unfold inside in I'. destruct (d =? 0); lia.
Qed.
Theorem C121_second_colour_refuted : ~ (forall fn c1 c2 b w h o b', eases fn -> 0 <= c1 < 2 ^ 24 -> 0 <= c2 < 2 ^ 24 -> wf b w h 24 -> 0 < w -> 0 < h ->
  snd (fillbackgroundwithdichromaticgrad (dichromatic fn c1 c2) 0 (mkst b o)) = mkst b' o -> pixel b' w h 24 (w - 1) 0 = c2).
Proof.
  intros F. specialize (F lerp 0 255 (blank 2 1 24) 2 1 [] (after (fillbackgroundwithdichromaticgrad (dichromatic lerp 0 255) 0) (blank 2 1 24))).
  assert (X : 128 = 255); [|discriminate X]. etransitivity; [|apply F]; [now vm_compute|apply C121_eases; now left|lia|lia|concrete_wf|lia|lia|now vm_compute].
Qed.

(** ** brightness gradients of one hue *)
Lemma unit_scale f a : (0 <= f <= 1)%Q -> 0 <= a <= 255 -> (0 <= f * inject_Z a <= 255)%Q.
Proof. intros U A. pose proof (le_inject 0 a ltac:(lia)). pose proof (le_inject a 255 ltac:(lia)). change (inject_Z 0) with 0%Q in *. change (inject_Z 255) with 255%Q in *. nra. Qed.
Lemma ease_range fn a b v : eases fn -> (0 <= a <= 255)%Q -> (0 <= b <= 255)%Q -> (0 <= v <= 1)%Q -> (0 <= fn a b v <= 255)%Q.
Proof.
  intros H A B U. destruct (H a b) as (E0 & E1 & M). destruct (M 0%Q v ltac:(lra) ltac:(lra) ltac:(lra)) as (M1 & M2). destruct (M v 1%Q ltac:(lra) ltac:(lra) ltac:(lra)) as (M3 & M4).
  destruct (Qlt_le_dec a b) as [L|L]; [specialize (M1 ltac:(lra)); specialize (M3 ltac:(lra))|specialize (M2 L); specialize (M4 L)]; lra.
Qed.
Lemma qround_byte q : (0 <= q <= 255)%Q -> 0 <= qround q < 256.
Proof. intros H. assert (0 <= qround q <= 255); [apply qround_bounds; [change (inject_Z 0) with 0%Q|change (inject_Z 255) with 255%Q]; lra|lia]. Qed.
(** the components of c are the rounded values *)
Definition rounded3 (r g b : Q) (c : Z) : Prop :=
  let '(x, y, z) := rgb_of c in rounds r x /\ rounds g y /\ rounds b z.
Theorem C121_brightness : forall fn l1 l2 fr fg fb n d, eases fn -> 0 <= l1 < 256 -> 0 <= l2 < 256 -> unit3 (fr, fg, fb) -> 0 <= n <= d ->
  let c := lumgradient fn (l1, l2) (fr, fg, fb) n d in let v := (inject_Z n / inject_Z d)%Q in
  0 <= c < 2 ^ 24 /\
  rounded3 (fn (fr * inject_Z l1) (fr * inject_Z l2) v)%Q (fn (fg * inject_Z l1) (fg * inject_Z l2) v)%Q (fn (fb * inject_Z l1) (fb * inject_Z l2) v)%Q c /\
  (n = 0 -> rounded3 (fr * inject_Z l1) (fg * inject_Z l1) (fb * inject_Z l1) c) /\
  (0 < n -> n = d -> rounded3 (fr * inject_Z l2) (fg * inject_Z l2) (fb * inject_Z l2) c).
Proof.
  intros fn l1 l2 fr fg fb n d H B1 B2 U N c v. cbn [unit3] in U. destruct U as (U1 & U2 & U3). pose proof (frac_unit n d N) as F. fold v in F.
  assert (K : forall f, (0 <= f <= 1)%Q -> 0 <= qround (fn (f * inject_Z l1) (f * inject_Z l2) v)%Q < 256).
  { intros f Uf. apply qround_byte. apply ease_range; auto; apply unit_scale; auto; lia. }
  assert (E : c = RGB2int (qround (fn (fr * inject_Z l1) (fr * inject_Z l2) v)%Q) (qround (fn (fg * inject_Z l1) (fg * inject_Z l2) v)%Q) (qround (fn (fb * inject_Z l1) (fb * inject_Z l2) v)%Q)) by reflexivity.
  destruct (rgb_of_RGB2int _ _ _ (conj (K fr U1) (conj (K fg U2) (K fb U3)))) as (RE & RR). rewrite <- E in *. split; [exact RR|]. unfold rounded3. rewrite RE.
  split; [repeat split; apply rounds_qround|].
  assert (EXT : forall p q, (p == q)%Q -> rounds q (qround p)) by (intros p q Epq; rewrite (qround_ext p q Epq); apply rounds_qround).
  split; intros Hn.
  - assert (V0 : (v == 0)%Q) by (subst v n; apply frac_zero). repeat split; apply EXT; rewrite (eases_proper fn _ _ v 0%Q H F V0); apply H.
  - intros Hd. assert (V1 : (v == 1)%Q) by (subst v d; now apply frac_full). repeat split; apply EXT; rewrite (eases_proper fn _ _ v 1%Q H F V1); apply H.
Qed.
(** Layers and rings truncate, first the brightness and then each component. *)
Definition tinted (fr fg fb : Q) (lum c : Z) : Prop :=
  let '(x, y, z) := rgb_of c in close (fr * inject_Z lum) x /\ close (fg * inject_Z lum) y /\ close (fb * inject_Z lum) z.
Lemma mixcolor_tinted lum fr fg fb : 0 <= lum < 256 -> unit3 (fr, fg, fb) ->
  0 <= mixcolor (inject_Z lum) (fr, fg, fb) < 2 ^ 24 /\ tinted fr fg fb lum (mixcolor (inject_Z lum) (fr, fg, fb)).
Proof.
  intros L (U1 & U2 & U3). unfold mixcolor.
  assert (K : forall f, (0 <= f <= 1)%Q -> 0 <= qtrunc (f * inject_Z lum) < 256).
  { intros f Uf. destruct (unit_scale f lum Uf ltac:(lia)) as (A & B). assert (0 <= qtrunc (f * inject_Z lum) <= 255); [|lia].
    apply qtrunc_bounds; auto. lia. }
  destruct (rgb_of_RGB2int _ _ _ (conj (K fr U1) (conj (K fg U2) (K fb U3)))) as (RE & RR). split; [exact RR|]. unfold tinted. rewrite RE.
  assert (KC : forall f, (0 <= f <= 1)%Q -> close (f * inject_Z lum) (qtrunc (f * inject_Z lum))) by (intros f Uf; apply qtrunc_close; apply unit_scale; auto; lia).
  split; [|split]; apply KC; assumption.
Qed.
Theorem C121_layers : forall l1 l2 fr fg fb i n, 0 <= l1 < 256 -> 0 <= l2 < 256 -> unit3 (fr, fg, fb) -> 0 <= i <= n -> 0 < n ->
  exists lum, zmid l1 l2 lum /\ close (inject_Z l1 + inject_Z (l2 - l1) * (inject_Z i / inject_Z n)) lum /\
    (i = 0 -> lum = l1) /\ (i = n -> lum = l2) /\
    0 <= layercolor (l1, l2) (fr, fg, fb) i n < 2 ^ 24 /\ tinted fr fg fb lum (layercolor (l1, l2) (fr, fg, fb) i n).
Proof.
  intros l1 l2 fr fg fb i n B1 B2 U I N. unfold layercolor. cbn [fst snd].
  set (q := (inject_Z l1 + inject_Z ((l2 - l1) * i) / inject_Z n)%Q).
  pose proof (frac_unit i n I) as F. set (v := (inject_Z i / inject_Z n)%Q) in *.
  assert (EQ : (q == inject_Z l1 + inject_Z (l2 - l1) * v)%Q) by (subst q v; rewrite inject_Z_mult; unfold Qdiv; ring).
  assert (ED : (inject_Z (l2 - l1) == inject_Z l2 - inject_Z l1)%Q) by (unfold Zminus; rewrite inject_Z_plus, inject_Z_opp; ring).
  pose proof (le_inject 0 l1 ltac:(lia)) as P1. pose proof (le_inject 0 l2 ltac:(lia)) as P2. change (inject_Z 0) with 0%Q in *.
  assert (Z12 : zmid l1 l2 (qtrunc q)).
  { unfold zmid. destruct (Z.le_ge_cases l1 l2) as [L|L]; [left|right]; pose proof (le_inject _ _ L) as L'; apply qtrunc_bounds; try lia; rewrite EQ, ED; nra. }
  assert (Q0 : (0 <= q)%Q) by (rewrite EQ, ED; nra).
  exists (qtrunc q). split; [exact Z12|]. split; [unfold close; rewrite <- EQ; now apply qtrunc_close|].
  split; [|split].
  - intros ->. apply qtrunc_unique; [exact Q0|]. rewrite EQ. assert (V : (v == 0)%Q) by apply frac_zero. rewrite V. lra.
  - intros ->. apply qtrunc_unique; [exact Q0|]. rewrite EQ, ED. assert (V : (v == 1)%Q) by now apply frac_full. rewrite V. lra.
  - apply mixcolor_tinted; auto. unfold zmid in Z12. lia.
Qed.
Theorem C121_rings : forall fn l1 l2 fr fg fb i n, eases fn -> 0 <= l1 < 256 -> 0 <= l2 < 256 -> unit3 (fr, fg, fb) -> 0 <= i <= n -> 0 < n ->
  exists lum, zmid l1 l2 lum /\ close (fn (inject_Z l1) (inject_Z l2) (inject_Z i / inject_Z n)%Q) lum /\
    (i = 0 -> lum = l1) /\ (i = n -> lum = l2) /\
    0 <= ringcolor fn (l1, l2) (fr, fg, fb) i n < 2 ^ 24 /\ tinted fr fg fb lum (ringcolor fn (l1, l2) (fr, fg, fb) i n).
Proof.
  intros fn l1 l2 fr fg fb i n H B1 B2 U I N. unfold ringcolor. cbn [fst snd].
  pose proof (frac_unit i n I) as F. set (v := (inject_Z i / inject_Z n)%Q) in *. set (q := fn (inject_Z l1) (inject_Z l2) v).
  pose proof (le_inject 0 l1 ltac:(lia)) as P1. pose proof (le_inject 0 l2 ltac:(lia)) as P2. change (inject_Z 0) with 0%Q in *.
  destruct (H (inject_Z l1) (inject_Z l2)) as (E0 & E1 & M).
  destruct (M 0%Q v ltac:(lra) ltac:(lra) ltac:(lra)) as (M1 & M2). destruct (M v 1%Q ltac:(lra) ltac:(lra) ltac:(lra)) as (M3 & M4). fold q in M1, M2, M3, M4.
  assert (ZQ : zmid l1 l2 (qtrunc q) /\ (0 <= q)%Q).
  { unfold zmid. destruct (Z.le_ge_cases l1 l2) as [L|L]; pose proof (le_inject _ _ L) as L'; [specialize (M1 L'); specialize (M3 L')|specialize (M2 L'); specialize (M4 L')]; (split; [|lra]); [left|right]; apply qtrunc_bounds; try lia; lra. }
  destruct ZQ as (Z12 & Q0).
  exists (qtrunc q). split; [exact Z12|]. split; [now apply qtrunc_close|]. split; [|split].
  - intros ->. assert (V : (v == 0)%Q) by apply frac_zero. apply qtrunc_unique; [exact Q0|]. subst q. rewrite (eases_proper fn _ _ v 0%Q H F V). lra.
  - intros ->. assert (V : (v == 1)%Q) by now apply frac_full. apply qtrunc_unique; [exact Q0|]. subst q. rewrite (eases_proper fn _ _ v 1%Q H F V). lra.
  - apply mixcolor_tinted; auto. unfold zmid in Z12. lia.
Qed.
(** In images of 24 bits: a rectangle, and circles made of rings. *)
Theorem C121_brightness_rectangle : forall fn l1 l2 fr fg fb b w h o x1 y1 x2 y2 d, eases fn -> 0 <= l1 < 256 -> 0 <= l2 < 256 -> unit3 (fr, fg, fb) ->
  wf b w h 24 -> inside w h x1 y1 -> inside w h x2 y2 ->
  exists b', filledgradrect (lumgradient fn (l1, l2) (fr, fg, fb)) x1 y1 x2 y2 d (mkst b o) = (Ok (Some tt), mkst b' o) /\ wf b' w h 24 /\
    (forall x y, inside w h x y -> in_box x1 y1 x2 y2 x y = true ->
       let n := (if d =? 0 then Z.abs (x2 - x1) else Z.abs (y2 - y1)) + 1 in
       let v := (inject_Z (Z.min (if d =? 0 then x else y) n) / inject_Z n)%Q in
       rounded3 (fn (fr * inject_Z l1) (fr * inject_Z l2) v)%Q (fn (fg * inject_Z l1) (fg * inject_Z l2) v)%Q (fn (fb * inject_Z l1) (fb * inject_Z l2) v)%Q (pixel b' w h 24 x y)) /\
    (forall x y, inside w h x y -> in_box x1 y1 x2 y2 x y = false -> pixel b' w h 24 x y = pixel b w h 24 x y).
Proof.
  intros fn l1 l2 fr fg fb b w h o x1 y1 x2 y2 d H B1 B2 U W I1 I2.
  destruct (C71_gradient (lumgradient fn (l1, l2) (fr, fg, fb)) b w h 24 o x1 y1 x2 y2 d W ltac:(auto) I1 I2) as (vv & b' & S & E & W' & _ & R).
  { intros n m Hn. now apply C121_brightness. }
  exists b'. split; [exact E|]. split; [exact W'|]. split; intros x y I B; specialize (R x y I); cbv beta in R; rewrite B in R; [|exact R].
  intros n v. assert (KN : 0 <= Z.min (if d =? 0 then x else y) n <= n) by (subst n; unfold inside in I; destruct (d =? 0); lia).
  assert (RP : pixel b' w h 24 x y = lumgradient fn (l1, l2) (fr, fg, fb) (Z.min (if d =? 0 then x else y) n) n).
  { rewrite R. subst n v. destruct (d =? 0); cbv zeta; exact (S _ _ KN). }
  rewrite RP. now apply (C121_brightness fn l1 l2 fr fg fb _ n H B1 B2 U KN).
Qed.
Lemma top_layer_range hit m n x y i : top_layer hit m n x y = Some i -> m <= i <= n.
Proof. unfold top_layer. intros F. apply find_some in F. destruct F as (F & _). apply in_range in F. lia. Qed.
Theorem C121_dichromic_circle : forall fn c1 c2 b w h o x y r, eases fn -> 0 <= c1 < 2 ^ 24 -> 0 <= c2 < 2 ^ 24 -> wf b w h 24 -> -19 <= x - r ->
  exists b', graddichromiccircle (fun i => dichromatic fn c1 c2 i r) x y r (mkst b o) = (Ok (Some tt), mkst b' o) /\ wf b' w h 24 /\
    forall px py, inside w h px py ->
      match top_layer (fun i => thick_ring 2 x y i) 1 (r - 1) px py with
      | Some i => mixture fn c1 c2 i r (pixel b' w h 24 px py) /\ between c1 c2 (pixel b' w h 24 px py)
      | None => pixel b' w h 24 px py = pixel b w h 24 px py
      end.
Proof.
  intros fn c1 c2 b w h o x y r H R1 R2 W X.
  destruct (C74_dichromic (fun i => dichromatic fn c1 c2 i r) b w h o x y r W) as (b' & E & W' & _ & R); [intros i Hi; apply C121_mixture; auto; lia|exact X|].
  exists b'. split; [exact E|]. split; [exact W'|]. intros px py I. specialize (R px py I). cbv beta in R.
  destruct (top_layer _ 1 (r - 1) px py) as [i|] eqn:TL; [|exact R]. rewrite R.
  assert (IR : 0 <= i <= r) by (apply top_layer_range in TL; lia).
  split; now apply C121_mixture.
Qed.
Example C121_ex : eases smoothersteplerp /\ unit3 (1, 1 # 2, 0)%Q /\
  rows (after (fillbackgroundwithdichromaticgrad (dichromatic lerp 0 16711935) 0) (blank 4 1 24)) 4 1 24 = [[0; 4194368; 8388736; 12517567]] /\
  rows (after (filledgradrect (lumgradient lerp (255, 0) (1, 1 # 2, 0)%Q) 0 0 3 0 0) (blank 4 1 24)) 4 1 24 = [[16744448; 12541952; 8404992; 4202496]] /\
  map (fun i => layercolor (0, 255) (1, 1 # 2, 0)%Q i 3) [0; 1; 2; 3] = [0; 5581312; 11162880; 16744192] /\
  map (fun i => ringcolor smoothersteplerp (0, 255) (1, 1 # 2, 0)%Q i 3) [0; 1; 2; 3] = [0; 3480064; 13198336; 16744192].
Proof.
  split; [apply C121_eases; do 2 right; now left|]. split; [repeat split; discriminate|]. repeat split; now vm_compute.
Qed.
Print Assumptions C121_eases.
Print Assumptions C121_mixture.
Print Assumptions C121_rectangle.
Print Assumptions C121_background.
Print Assumptions C121_second_colour_refuted.
Print Assumptions C121_brightness.
Print Assumptions C121_layers.
Print Assumptions C121_rings.
Print Assumptions C121_brightness_rectangle.
Print Assumptions C121_dichromic_circle.
