(** Properties C119-C123: single colours, mixtures, HSL values. *)
From Coq Require Import ZArith QArith Qround Qabs Qminmax List Bool Lia Lqa String.
From Verif Require Import PyBase PyFacts Spec SpecImage SpecShapes SpecEdges Bmp BmpFacts Raster PixelProofs Buffers Filters Exact SpecExact SpecColours CurveProofs Colours ColourProofs
  Files Wrappers WrapProofs Concrete DrawProofs3 PropDraw PropFilter PropWrap.
Import ListNotations.
Open Scope Z_scope.

Definition black : Z * Z * Z := (0, 0, 0).
Lemma lum1_brightest c : bytes3 c -> c <> black -> lum1 c = brightest c.
Proof.
  destruct c as [[r g] b]. unfold lum1, brightest, black. cbn [bytes3]. intros H N.
  destruct (Z.eq_dec (Z.max r (Z.max g b)) 0) as [E|E]; [|lia]. exfalso. apply N. f_equal; [f_equal|]; lia.
Qed.
Lemma each_weaken (P Q : Z -> Z -> Prop) c d : (forall v z, P v z -> Q v z) -> each P c d -> each Q c d.
Proof. destruct c as [[r g] b], d as [[x y] z]. cbn. intuition. Qed.
Lemma each_eq c d : each (fun v z => z = v) c d -> d = c.
Proof. destruct c as [[r g] b], d as [[x y] z]. cbn. intros (-> & -> & ->). reflexivity. Qed.
Lemma each_bytes (P : Z -> Z -> Prop) c d : (forall v z, P v z -> 0 <= z < 256) -> each P c d -> bytes3 d.
Proof. destruct c as [[r g] b], d as [[x y] z]. cbn. intuition eauto; eapply H; eauto. Qed.

Lemma scaled_facts c t f : bytes3 c -> 0 <= t < 256 -> RGBtoRGBfactorsandlum c = (f, lum1 c) ->
  let d := RGBfactors2RGB f (inject_Z t) in
  bytes3 d /\ (c = black -> d = black) /\ (c <> black -> t = brightest c -> d = c) /\
  (c <> black -> brightest d = t /\ each (fun v z => rounds (inject_Z v * (inject_Z t / inject_Z (brightest c))) z) c d).
Proof.
  intros H T E d. pose proof (scaled_each c (inject_Z t) H f E) as S. fold d in S.
  assert (L1 : 0 < lum1 c) by (unfold lum1; lia). pose proof (lum1_pos c) as LQ.
  assert (R : forall v z, 0 <= v <= lum1 c -> rounds (inject_Z v * (inject_Z t / inject_Z (lum1 c))) z -> 0 <= z <= t).
  { intros v z V [N _]. assert (A : (0 <= inject_Z v <= inject_Z (lum1 c))%Q) by (split; [apply (le_inject 0)|apply le_inject]; lia). assert (B : (0 <= inject_Z t)%Q) by (apply (le_inject 0); lia).
    apply (nearest_between _ z 0 t N). change (inject_Z 0) with 0%Q.
    assert (Q : (inject_Z v * (inject_Z t / inject_Z (lum1 c)) == inject_Z t * (inject_Z v / inject_Z (lum1 c)))%Q) by (field; lra). rewrite Q.
    assert (G : (0 <= inject_Z v / inject_Z (lum1 c) <= 1)%Q) by (split; [apply Qle_shift_div_l; lra|apply Qle_shift_div_r; lra]). nra. }
  assert (F : rounds (inject_Z (lum1 c) * (inject_Z t / inject_Z (lum1 c))) t).
  { assert (Q : (inject_Z (lum1 c) * (inject_Z t / inject_Z (lum1 c)) == inject_Z t)%Q) by (field; lra).
    split; [unfold nearest; rewrite Q; lra|]. rewrite Q. intros [?|?]; lra. }
  assert (Z0 : forall z, rounds (inject_Z 0 * (inject_Z t / inject_Z (lum1 c))) z -> z = 0).
  { intros z Hz. pose proof (R 0 z ltac:(lia) Hz). destruct Hz as [N _]. unfold nearest in N. change (inject_Z 0) with 0%Q in N.
    assert (A : (inject_Z z < inject_Z 1)%Q) by (change (inject_Z 1) with 1%Q; lra). apply inject_lt in A. lia. }
  pose proof (byte_lum c H) as BL. clearbody d.
  split; [|split; [|split]].
  - destruct c as [[r g] b], d as [[x y] z]. cbn [each bytes3] in *. destruct S as (S1 & S2 & S3), BL as (B1 & B2 & B3).
    pose proof (R _ _ B1 S1). pose proof (R _ _ B2 S2). pose proof (R _ _ B3 S3). lia.
  - intros ->. destruct d as [[x y] z]. cbn [each black] in S. destruct S as (S1 & S2 & S3). apply Z0 in S1, S2, S3. now subst.
  - intros N TE. rewrite <- (lum1_brightest c H N) in TE. rewrite TE in S.
    apply each_eq. eapply each_weaken; [|exact S]. cbn. intros v z Hz. apply (rounds_unique _ _ _ _ (Qeq_refl _) Hz).
    assert (Q : (inject_Z v * (inject_Z (lum1 c) / inject_Z (lum1 c)) == inject_Z v)%Q) by (field; lra).
    split; [unfold nearest; rewrite Q; lra|]. rewrite Q. intros [?|?]; lra.
  - intros N. pose proof (lum1_brightest c H N) as LE.
    assert (BD : brightest d = t).
    { destruct c as [[r g] b], d as [[x y] z]. cbn [each] in *. destruct S as (S1 & S2 & S3), BL as (B1 & B2 & B3).
      pose proof (R _ _ B1 S1). pose proof (R _ _ B2 S2). pose proof (R _ _ B3 S3).
      assert (M : r = lum1 (r, g, b) \/ g = lum1 (r, g, b) \/ b = lum1 (r, g, b)) by (rewrite LE; unfold brightest; lia).
      unfold brightest at 1. destruct M as [M|[M|M]].
      - rewrite M in S1 at 1. pose proof (rounds_unique _ _ _ _ (Qeq_refl _) S1 F). lia.
      - rewrite M in S2 at 1. pose proof (rounds_unique _ _ _ _ (Qeq_refl _) S2 F). lia.
      - rewrite M in S3 at 1. pose proof (rounds_unique _ _ _ _ (Qeq_refl _) S3 F). lia. }
    split; [exact BD|]. rewrite <- LE. exact S.
Qed.

(** * C119 *)
(** brightnessadjust(rgb, p): every component is multiplied by 1 + p / 100, rounded and cut
    off at 0 and 255. *)
Theorem C119_brightness : forall p c, bytes3 c ->
  bytes3 (brightnessadjust p c) /\
  each (fun v z => exists n, rounds (inject_Z v * (1 + p / 100)) n /\ z = clamped 0 255 n) c (brightnessadjust p c).
Proof.
  intros p c H. pose proof (brightness_each p c H) as E. split.
  - eapply each_bytes; [|exact E]. cbn. intros v z ->. unfold clamped. lia.
  - eapply each_weaken; [|exact E]. cbn. intros v z ->. eexists. split; [apply rounds_qround|reflexivity].
Qed.
(** 0 changes nothing; more is never darker, whatever the colour; brighter colours stay
    brighter. *)
Theorem C119_brightness_order : forall p q c d, bytes3 c -> bytes3 d -> each Z.le c d -> (-100 <= p <= q)%Q ->
  brightnessadjust 0 c = c /\ each Z.le (brightnessadjust p c) (brightnessadjust q d).
Proof.
  intros p q c d Hc Hd L R. split.
  - apply each_eq. pose proof (brightness_each 0 c Hc) as E. destruct c as [[r g] b], (brightnessadjust 0 (r, g, b)) as [[x y] z]. cbn [each bytes3] in *.
    destruct E as (-> & -> & ->).
    assert (K : forall v, qround (inject_Z v * (1 + 0 / 100)) = v) by (intros v; apply nearest_integer; field).
    rewrite !K. unfold clamped. lia.
  - pose proof (brightness_each p c Hc) as E. pose proof (brightness_each q d Hd) as F.
    destruct c as [[r g] b], d as [[r' g'] b'], (brightnessadjust p (r, g, b)) as [[x y] z], (brightnessadjust q (r', g', b')) as [[x' y'] z'].
    cbn [each bytes3] in *. destruct E as (-> & -> & ->), F as (-> & -> & ->), L as (L1 & L2 & L3).
    assert (K : forall v v', 0 <= v <= v' -> clamped 0 255 (qround (inject_Z v * (1 + p / 100))) <= clamped 0 255 (qround (inject_Z v' * (1 + q / 100)))).
    { intros v v' V. enough (qround (inject_Z v * (1 + p / 100)) <= qround (inject_Z v' * (1 + q / 100))) by (unfold clamped; lia).
      apply qround_le. pose proof (le_inject 0 v ltac:(lia)) as A. pose proof (le_inject v v' ltac:(lia)) as B. change (inject_Z 0) with 0%Q in A.
      assert (P1 : (p / 100 == p * (1 # 100))%Q) by reflexivity. assert (P2 : (q / 100 == q * (1 # 100))%Q) by reflexivity. rewrite P1, P2. nra. }
    repeat split; apply K; lia.
Qed.
Lemma clamped_le x y : x <= y -> clamped 0 255 x <= clamped 0 255 y.
Proof. unfold clamped. lia. Qed.
Lemma clamped_range x : 0 <= clamped 0 255 x < 256.
Proof. unfold clamped. lia. Qed.
Lemma clamped_min x y : clamped 0 255 (Z.min x y) = Z.min (clamped 0 255 x) (clamped 0 255 y).
Proof. destruct (Z.le_ge_cases x y) as [L|L]; pose proof (clamped_le _ _ L); [rewrite !Z.min_l|rewrite !Z.min_r]; auto. Qed.
Lemma clamped_max x y : clamped 0 255 (Z.max x y) = Z.max (clamped 0 255 x) (clamped 0 255 y).
Proof. destruct (Z.le_ge_cases x y) as [L|L]; pose proof (clamped_le _ _ L); [rewrite !Z.max_r|rewrite !Z.max_l]; auto. Qed.
Lemma clamped_within lo hi x : 0 <= lo < 256 -> 0 <= hi < 256 -> 0 <= clamped lo hi x < 256.
Proof. unfold clamped. lia. Qed.
(** thresholdadjust(rgb, [l0, l1]): the brightest component is brought into the range, the
    others keep their proportion to it; black stays black. *)
Theorem C119_threshold : forall l0 l1 c, bytes3 c ->
  let lo := clamped 0 255 (Z.min l0 l1) in let hi := clamped 0 255 (Z.max l0 l1) in
  let d := thresholdadjust (inject_Z l0, inject_Z l1) c in
  bytes3 d /\ (c = black -> d = black) /\ (lo <= brightest c <= hi -> d = c) /\
  (c <> black -> brightest d = clamped lo hi (brightest c) /\
     each (fun v z => rounds (inject_Z v * (inject_Z (brightest d) / inject_Z (brightest c))) z) c d).
Proof.
  intros l0 l1 c H lo hi d.
  assert (E : exists f, RGBtoRGBfactorsandlum c = (f, lum1 c) /\ d = RGBfactors2RGB f (inject_Z (clamped lo hi (lum1 c)))).
  { destruct (factors_lum c H) as (f & E & _). exists f. split; [exact E|]. unfold d, thresholdadjust. rewrite E. cbn [fst snd].
    rewrite !intsetminmax_clamped, !qround_Z. subst lo hi. rewrite clamped_min, clamped_max.
    generalize (clamped 0 255 l0) (clamped 0 255 l1). intros u v. destruct (Z.gtb_spec u v) as [G|G];
      rewrite setminmax_clamped by lia; [rewrite (Z.min_r u v), (Z.max_l u v) by lia|rewrite (Z.min_l u v), (Z.max_r u v) by lia]; reflexivity. }
  destruct E as (f & E & D). clearbody d.
  destruct (scaled_facts c (clamped lo hi (lum1 c)) f H (clamped_within lo hi _ (clamped_range _) (clamped_range _)) E) as (S1 & S2 & S3 & S4). rewrite <- D in *.
  assert (DB : c = black \/ c <> black) by (destruct c as [[r g] b]; unfold black; destruct (Z.eq_dec r 0), (Z.eq_dec g 0), (Z.eq_dec b 0); subst; (left; reflexivity) || (right; intros X; inversion X; lia)).
  split; [exact S1|]. split; [exact S2|]. split.
  - intros G. destruct DB as [B|N]; [now rewrite (S2 B)|]. apply (S3 N). rewrite (lum1_brightest c H N). clearbody lo hi. unfold clamped. lia.
  - intros N. destruct (S4 N) as (A & B). rewrite A in *. rewrite (lum1_brightest c H N) in *. split; [reflexivity|exact B].
Qed.
(** colorfilter(rgb, factors): every component is multiplied by its factor, rounded and cut
    off at 0 and 255. *)
Theorem C119_filter : forall fr fg fb r g b, exists x y z,
  colorfilter (fr, fg, fb) (r, g, b) = (clamped 0 255 x, clamped 0 255 y, clamped 0 255 z) /\
  rounds (inject_Z r * fr) x /\ rounds (inject_Z g * fg) y /\ rounds (inject_Z b * fb) z.
Proof. intros. do 3 eexists. cbn [colorfilter]. rewrite !intsetminmax_clamped. repeat split; apply rounds_qround. Qed.
(** gammacorrect(rgb, gamma): the brightest component m becomes the whole part of
    255 (m / 255) ^ gamma, the others keep their proportion to it; black stays black.  The
    power is any number from 0 to 1. *)
Theorem C119_gamma : forall pow c, bytes3 c -> (forall x, 0 <= x <= 1 -> 0 <= pow x <= 1)%Q ->
  let d := gammacorrect pow c in
  bytes3 d /\ (c = black -> d = black) /\
  (c <> black ->
     (inject_Z (brightest d) <= 255 * pow (inject_Z (brightest c) / 255) < inject_Z (brightest d) + 1)%Q /\
     each (fun v z => rounds (inject_Z v * (inject_Z (brightest d) / inject_Z (brightest c))) z) c d).
Proof.
  intros pow c H HP d. destruct (factors_lum c H) as (f & E & _). set (t := gammacorrectbyte pow (lum1 c)).
  pose proof (lum_pos c H) as LP. assert (L : 0 < lum1 c < 256) by (destruct c as [[r g] b]; unfold lum1, brightest; cbn [bytes3] in H; lia).
  assert (U : (0 <= inject_Z (lum1 c) / 255 <= 1)%Q).
  { pose proof (le_inject 0 (lum1 c) ltac:(lia)) as A. pose proof (le_inject (lum1 c) 255 ltac:(lia)) as B. change (inject_Z 0) with 0%Q in A. change (inject_Z 255) with 255%Q in B.
    split; [apply Qle_shift_div_l|apply Qle_shift_div_r]; lra. }
  pose proof (HP _ U) as PB.
  assert (T : 0 <= t < 256).
  { unfold t, gammacorrectbyte. enough (0 <= qtrunc (pow (inject_Z (lum1 c) / 255) * 255)%Q <= 255) by lia. apply qtrunc_bounds; [lia| |]; [change (inject_Z 0) with 0%Q|change (inject_Z 255) with 255%Q]; lra. }
  assert (D : d = RGBfactors2RGB f (inject_Z t)).
  { unfold d, gammacorrect. rewrite E. fold t. destruct (scaled_facts c t f H T E) as (S1 & _).
    destruct (RGBfactors2RGB f (inject_Z t)) as [[x y] z]. cbn [setminmax3 bytes3] in *. rewrite !setminmax_clamped by lia. unfold clamped. f_equal; [f_equal|]; lia. }
  destruct (scaled_facts c t f H T E) as (S1 & S2 & S3 & S4). rewrite <- D in *. clearbody d.
  split; [exact S1|]. split; [exact S2|]. intros N. destruct (S4 N) as (A & B). rewrite A. split; [|exact B].
  rewrite <- (lum1_brightest c H N). unfold t, gammacorrectbyte.
  pose proof (qtrunc_nonneg (pow (inject_Z (lum1 c) / 255) * 255)%Q ltac:(lra)). lra.
Qed.
Example C119_ex :
  brightnessadjust 50 (100, 200, 3) = (150, 255, 4) /\ brightnessadjust (-50) (100, 201, 3) = (50, 100, 2) /\
  thresholdadjust (inject_Z 0, inject_Z 100) (200, 100, 3) = (100, 50, 2) /\
  colorfilter (1, 1 # 2, 2)%Q (200, 101, 200) = (200, 50, 255) /\
  gammacorrect (fun x => x * x)%Q (200, 100, 3) = (156, 78, 2).
Proof. vm_compute. repeat split. Qed.
Print Assumptions C119_brightness.
Print Assumptions C119_brightness_order.
Print Assumptions C119_threshold.
Print Assumptions C119_filter.
Print Assumptions C119_gamma.

(** * C120 *)
(** Files: the only file that changed is [dst]; it holds a bitmap of the same size and depth,
    and the colours shown before and after are related by [P]. *)
Definition recoloured (W W' : world) (dst : string) (b : list Z) (w h bits : Z) (P : Z -> Z * Z * Z -> Z * Z * Z -> Prop) : Prop :=
  exists c, only_file W W' dst c /\ wf c w h bits /\
    forall x y, inside w h x y -> P x (shown b w h bits x y) (shown c w h bits x y).
Lemma shown_bytes b w h bits x y : wf b w h bits -> bytes3 (shown b w h bits x y).
Proof.
  intros Wb. unfold shown. destruct (Z.eqb_spec bits 24) as [->|N].
  - pose proof (pixel_range b w h 24 x y Wb). unfold rgb_of, bytes3. lia.
  - pose proof (pal_entry_ok b w h bits (pixel b w h bits x y) Wb) as (A & B & C). unfold pal_entry in *. cbn [fst snd] in *. unfold byte in *. cbn [bytes3]. auto.
Qed.
Lemma recolour_pal W W' dst b c w h bits (f : Z * Z * Z -> Z * Z * Z) (P : Z -> Z * Z * Z -> Z * Z * Z -> Prop) : wf b w h bits -> bits <> 24 ->
  only_file W W' dst c -> wf c w h bits -> (forall i, 0 <= i < 2 ^ bits -> pal_entry c i = f (pal_entry b i)) ->
  (forall x y, inside w h x y -> pixel c w h bits x y = pixel b w h bits x y) -> (forall x u, bytes3 u -> P x u (f u)) ->
  recoloured W W' dst b w h bits P.
Proof.
  intros Wb N O Wc E F HP. exists c. split; [exact O|]. split; [exact Wc|]. intros x y I. pose proof (shown_bytes b w h bits x y Wb) as B.
  unfold shown in *. rewrite (proj2 (Z.eqb_neq bits 24) N) in *. rewrite (F x y I), E by (apply (pixel_range b w h bits x y Wb)). apply HP. exact B.
Qed.
Lemma recolour_px W W' dst b w h (sel : Z -> bool) (f : Z * Z * Z -> Z * Z * Z) (P : Z -> Z * Z * Z -> Z * Z * Z -> Prop) : wf b w h 24 ->
  saved_repainted W W' dst b w h 24 (fun x y => if sel x then rgb24 (f (rgb_of (pixel b w h 24 x y))) else pixel b w h 24 x y) ->
  (forall x u, bytes3 u -> sel x = true -> bytes3 (f u) /\ P x u (f u)) -> (forall x u, bytes3 u -> sel x = false -> P x u u) ->
  recoloured W W' dst b w h 24 P.
Proof.
  intros Wb (c & O & (Wc & _ & R) & _) H1 H2. exists c. split; [exact O|]. split; [exact Wc|]. intros x y I. pose proof (shown_bytes b w h 24 x y Wb) as B.
  unfold shown in *. cbn [Z.eqb Pos.eqb] in *. rewrite (R x y I). set (u := rgb_of (pixel b w h 24 x y)) in *. destruct (sel x) eqn:S.
  - destruct (H1 x u B S) as (C & D). destruct (f u) as [[r g] bl]. rewrite rgb_of24; [exact D|..]; unfold byte; cbn [bytes3] in C; lia.
  - exact (H2 x u B S).
Qed.
Definition anything (c : Z * Z * Z) : Z * Z * Z := c.

(** adjustbrightness2file gives the same colours at every depth. *)
Theorem C120_brightness : forall src dst W b w h bits p, files W src = Some b -> wf b w h bits -> bits <> 24 \/ 0 < w /\ 0 < h ->
  exists W', adjustbrightness2file (brightnessadjust p) (brightbyte p) src dst W = (Ok tt, W') /\
    recoloured W W' dst b w h bits (fun _ =>
      each (fun v z => exists n, rounds (inject_Z v * (1 + p / 100)) n /\ z = clamped 0 255 n)).
Proof.
  intros src dst W b w h bits p Hf Wb Hs. destruct (Z.eq_dec bits 24) as [->|N].
  - destruct (C85_pixels src dst W b w h (brightnessadjust p) (brightbyte p) (fun _ _ v => v) (fun _ v => v) (fun v => v) (fun v => v) (fun v => v) 0 0 Hf Wb) with
      (act := adjustbrightness2file (brightnessadjust p) (brightbyte p)) (sel := fun _ : Z => true)
      (f := fun '(r, gr, bl) => (Z.max 0 (Z.min 255 (brightbyte p r)), Z.max 0 (Z.min 255 (brightbyte p gr)), Z.max 0 (Z.min 255 (brightbyte p bl))))
      as (W' & E & S); try lia; auto.
    { right. left. reflexivity. }
    exists W'. split; [exact E|].
    apply (recolour_px W W' dst b w h (fun _ => true) (fun '(r, gr, bl) => (Z.max 0 (Z.min 255 (brightbyte p r)), Z.max 0 (Z.min 255 (brightbyte p gr)), Z.max 0 (Z.min 255 (brightbyte p bl))))); [exact Wb|exact S| |discriminate].
    intros x [[r g] bl] B _. split; [cbn [bytes3]; lia|]. cbn [each]. unfold brightbyte. repeat split; eexists; (split; [apply rounds_qround|reflexivity]).
  - destruct (C85_palette src dst W b w h bits (brightnessadjust p) (brightbyte p) (fun _ _ v => v) (fun _ v => v) (fun v => v) (fun v => v) (fun v => v) 0 0
      (adjustbrightness2file (brightnessadjust p) (brightbyte p)) (brightnessadjust p) Hf Wb N) as (c & W' & E & O & _ & Wc & P1 & P2 & _).
    { right. left. reflexivity. }
    { intros r gr bl B1 B2 B3. destruct (C119_brightness p (r, gr, bl)) as [X _]; [cbn [bytes3]; auto|]. destruct (brightnessadjust p (r, gr, bl)) as [[? ?] ?]. exact X. }
    exists W'. split; [exact E|]. eapply recolour_pal; eauto. intros _ u B. apply (C119_brightness p u B).
Qed.
(** colorfilter2file with factors from 0 to 1 gives the same colours at every depth, except
    that it leaves out the last column of 24-bit images. *)
Theorem C120_filter : forall src dst W b w h bits fr fg fb, files W src = Some b -> wf b w h bits -> bits <> 24 \/ 0 < w /\ 0 < h -> unit3 (fr, fg, fb) ->
  exists W', colorfilter2file (colorfilter (fr, fg, fb)) (filterbyte fr) (filterbyte fg) (filterbyte fb) src dst W = (Ok tt, W') /\
    recoloured W W' dst b w h bits (fun x u v =>
      if (bits =? 24) && (x =? w - 1) then v = u
      else let '(r, g, bl) := u in let '(r', g', bl') := v in
        rounds (inject_Z r * fr) r' /\ rounds (inject_Z g * fg) g' /\ rounds (inject_Z bl * fb) bl').
Proof.
  intros src dst W b w h bits fr fg fb Hf Wb Hs (Ur & Ug & Ub).
  assert (FB : forall f v, (0 <= f <= 1)%Q -> 0 <= v < 256 -> 0 <= filterbyte f v < 256).
  { intros f v F V. unfold filterbyte. enough (0 <= qround (inject_Z v * f) <= 255) by lia.
    pose proof (le_inject 0 v ltac:(lia)) as A. pose proof (le_inject v 255 ltac:(lia)) as B. change (inject_Z 0) with 0%Q in A. change (inject_Z 255) with 255%Q in B.
    apply qround_bounds; [change (inject_Z 0) with 0%Q|change (inject_Z 255) with 255%Q]; nra. }
  assert (CF : forall u, bytes3 u -> bytes3 (colorfilter (fr, fg, fb) u) /\
    let '(r, g, bl) := u in let '(r', g', bl') := colorfilter (fr, fg, fb) u in rounds (inject_Z r * fr) r' /\ rounds (inject_Z g * fg) g' /\ rounds (inject_Z bl * fb) bl').
  { intros [[r g] bl] (B1 & B2 & B3). pose proof (FB fr r Ur B1) as X1. pose proof (FB fg g Ug B2) as X2. pose proof (FB fb bl Ub B3) as X3. unfold filterbyte in *.
    cbn [colorfilter]. rewrite !intsetminmax_clamped. unfold clamped. rewrite !Z.min_r, !Z.max_r by lia. cbn [bytes3]. split; [lia|]. repeat split; apply rounds_qround. }
  destruct (Z.eq_dec bits 24) as [->|N].
  - destruct (C85_pixels src dst W b w h (colorfilter (fr, fg, fb)) (fun v => v) (fun _ _ v => v) (fun _ v => v) (filterbyte fr) (filterbyte fg) (filterbyte fb) 0 0 Hf Wb) with
      (act := colorfilter2file (colorfilter (fr, fg, fb)) (filterbyte fr) (filterbyte fg) (filterbyte fb)) (sel := fun x : Z => x <? w - 1)
      (f := fun '(r, gr, bl) => (filterbyte fr r, filterbyte fg gr, filterbyte fb bl))
      as (W' & E & S); try lia; auto.
    { right. right. left. reflexivity. }
    exists W'. split; [exact E|]. cbn [Z.eqb Pos.eqb andb].
    destruct S as (c & O & (Wc & HH & R) & CC). assert (Wx : recoloured W W' dst b w h 24 (fun x u v => if x <? w - 1 then
       let '(r, g, bl) := u in let '(r', g', bl') := v in rounds (inject_Z r * fr) r' /\ rounds (inject_Z g * fg) g' /\ rounds (inject_Z bl * fb) bl' else v = u)).
    { apply (recolour_px W W' dst b w h (fun x : Z => x <? w - 1) (fun '(r, gr, bl) => (filterbyte fr r, filterbyte fg gr, filterbyte fb bl))); [exact Wb|exists c; split; [exact O|]; split; [split; [exact Wc|split; [exact HH|exact R]]|exact CC]| |].
      - intros x [[r g] bl] (B1 & B2 & B3) Sx. split; [cbn [bytes3]; auto|]. rewrite Sx. unfold filterbyte. repeat split; apply rounds_qround.
      - intros x u _ Sx. now rewrite Sx. }
    destruct Wx as (c' & O' & Wc' & R'). exists c'. split; [exact O'|]. split; [exact Wc'|]. intros x y I. specialize (R' x y I).
    destruct (Z.eqb_spec x (w - 1)) as [->|NX]; [now rewrite Z.ltb_irrefl in R'|]. rewrite (proj2 (Z.ltb_lt x (w - 1))) in R' by (unfold inside in I; lia). exact R'.
  - destruct (C85_palette src dst W b w h bits (colorfilter (fr, fg, fb)) (fun v => v) (fun _ _ v => v) (fun _ v => v) (filterbyte fr) (filterbyte fg) (filterbyte fb) 0 0
      (colorfilter2file (colorfilter (fr, fg, fb)) (filterbyte fr) (filterbyte fg) (filterbyte fb)) (colorfilter (fr, fg, fb)) Hf Wb N) as (c & W' & E & O & _ & Wc & P1 & P2 & _).
    { right. right. right. left. reflexivity. }
    { intros r gr bl B1 B2 B3. apply (CF (r, gr, bl)). cbn [bytes3]. auto. }
    exists W'. split; [exact E|]. eapply recolour_pal; eauto. intros x u B. rewrite (proj2 (Z.eqb_neq bits 24) N). cbn [andb]. apply (CF u B).
Qed.
Lemma black_dec (c : Z * Z * Z) : c = black \/ c <> black.
Proof. destruct c as [[r g] b]; unfold black; destruct (Z.eq_dec r 0), (Z.eq_dec g 0), (Z.eq_dec b 0); subst; (left; reflexivity) || (right; intros X; inversion X; lia). Qed.
Lemma brightest_pos c : bytes3 c -> c <> black -> 0 < brightest c < 256.
Proof. intros H N. rewrite <- (lum1_brightest c H N). unfold lum1. destruct c as [[r g] b]. cbn [brightest bytes3] in *. lia. Qed.
Lemma trunc_scaled t l v : 0 <= t < 256 -> 0 <= v <= l -> 0 < l ->
  0 <= thresholdbyte t l v < 256 /\ close (inject_Z v * (inject_Z t / inject_Z l)) (thresholdbyte t l v).
Proof.
  intros T V L. unfold thresholdbyte. pose proof (lt_inject 0 l L) as LQ. change (inject_Z 0) with 0%Q in LQ.
  pose proof (le_inject 0 v ltac:(lia)) as A. pose proof (le_inject v l ltac:(lia)) as B. pose proof (le_inject 0 t ltac:(lia)) as C. pose proof (le_inject t 255 ltac:(lia)) as D.
  change (inject_Z 0) with 0%Q in *. change (inject_Z 255) with 255%Q in *.
  assert (Q : (inject_Z t / inject_Z l * inject_Z v == inject_Z t * (inject_Z v / inject_Z l))%Q) by (field; lra).
  assert (G : (0 <= inject_Z v / inject_Z l <= 1)%Q) by (split; [apply Qle_shift_div_l; lra|apply Qle_shift_div_r; lra]).
  assert (N : (0 <= inject_Z t / inject_Z l * inject_Z v <= 255)%Q) by (rewrite Q; nra). split.
  - enough (0 <= qtrunc (inject_Z t / inject_Z l * inject_Z v) <= 255) by lia. apply qtrunc_bounds; [lia| |]; [change (inject_Z 0) with 0%Q|change (inject_Z 255) with 255%Q]; lra.
  - pose proof (qtrunc_close _ (proj1 N)) as K. unfold close in *. assert (Q' : (inject_Z v * (inject_Z t / inject_Z l) == inject_Z t / inject_Z l * inject_Z v)%Q) by ring. rewrite Q'. exact K.
Qed.
(** thresholdadjust2file: the colours are in proportion, up to 1, at every depth; with a
    palette they are rounded. *)
Theorem C120_threshold : forall src dst W b w h bits l0 l1, files W src = Some b -> wf b w h bits -> bits <> 24 \/ 0 < w /\ 0 < h ->
  0 <= l0 < 256 -> 0 <= l1 < 256 ->
  exists W', thresholdadjust2file (thresholdadjust (inject_Z l0, inject_Z l1)) thresholdbyte l0 l1 src dst W = (Ok tt, W') /\
    recoloured W W' dst b w h bits (fun _ u v =>
      let t := clamped (Z.min l0 l1) (Z.max l0 l1) (brightest u) in
      (u = black \/ t = brightest u -> v = u) /\
      (u <> black -> each (fun a z => close (inject_Z a * (inject_Z t / inject_Z (brightest u))) z) u v) /\
      (u <> black -> bits <> 24 -> each (fun a z => rounds (inject_Z a * (inject_Z t / inject_Z (brightest u))) z) u v)).
Proof.
  intros src dst W b w h bits l0 l1 Hf Wb Hs H0 H1.
  destruct (Z.eq_dec bits 24) as [->|N].
  - pose (f := fun '(r, gr, bl) =>
          let lum := Z.max r (Z.max gr bl) in
          let t := Z.max (Z.min (l0 mod 256) (l1 mod 256)) (Z.min (Z.max (l0 mod 256) (l1 mod 256)) lum) in
          if (lum =? 0) || (t =? lum) then (r, gr, bl) else (thresholdbyte t lum r, thresholdbyte t lum gr, thresholdbyte t lum bl)).
    destruct (C85_pixels src dst W b w h (thresholdadjust (inject_Z l0, inject_Z l1)) (fun v => v) thresholdbyte (fun _ v => v) (fun v => v) (fun v => v) (fun v => v) l0 l1 Hf Wb) with
      (act := thresholdadjust2file (thresholdadjust (inject_Z l0, inject_Z l1)) thresholdbyte l0 l1) (sel := fun _ : Z => true) (f := f)
      as (W' & E & S); try lia; auto.
    { intros t lum v T V L. apply trunc_scaled; lia. }
    { do 4 right. left. reflexivity. }
    exists W'. split; [exact E|]. apply (recolour_px W W' dst b w h (fun _ => true) f); [exact Wb|exact S| |discriminate].
    intros x [[r g] bl] B _. unfold f. rewrite (Z.mod_small l0), (Z.mod_small l1) by lia. cbn [brightest]. set (L := Z.max r (Z.max g bl)) in *. cbv zeta. fold (clamped (Z.min l0 l1) (Z.max l0 l1) L).
    set (t := clamped (Z.min l0 l1) (Z.max l0 l1) L) in *. cbn [bytes3] in B.
    assert (T : 0 <= t < 256) by (unfold t, clamped; lia).
    assert (X : forall a, 0 < L -> 0 <= a <= L -> t = L -> close (inject_Z a * (inject_Z t / inject_Z L)) a).
    { intros a HL HA ->. pose proof (lt_inject 0 L HL) as LQ. change (inject_Z 0) with 0%Q in LQ. assert (Q : (inject_Z a * (inject_Z L / inject_Z L) == inject_Z a)%Q) by (field; lra). unfold close. rewrite Q. lra. }
    destruct (Z.eqb_spec L 0) as [L0|L0]; cbn [orb].
    + split; [cbn [bytes3]; auto|]. split; [auto|]. assert (r = 0 /\ g = 0 /\ bl = 0) as (-> & -> & ->) by lia. split; intros Q; now contradiction Q.
    + destruct (Z.eqb_spec t L) as [TL|TL].
      * split; [cbn [bytes3]; auto|]. split; [auto|]. split; [|now intros _ Q]. intros _. cbn [each]. repeat split; apply X; lia.
      * assert (K : forall a, 0 <= a <= L -> 0 <= thresholdbyte t L a < 256 /\ close (inject_Z a * (inject_Z t / inject_Z L)) (thresholdbyte t L a)) by (intros; apply trunc_scaled; lia).
        destruct (K r ltac:(lia)) as (K1 & K1'), (K g ltac:(lia)) as (K2 & K2'), (K bl ltac:(lia)) as (K3 & K3').
        split; [cbn [bytes3]; auto|]. split; [|split; [cbn [each]; auto|now intros _ Q]]. intros [Q|Q]; [inversion Q; lia|contradiction].
  - destruct (C85_palette src dst W b w h bits (thresholdadjust (inject_Z l0, inject_Z l1)) (fun v => v) thresholdbyte (fun _ v => v) (fun v => v) (fun v => v) (fun v => v) l0 l1
      (thresholdadjust2file (thresholdadjust (inject_Z l0, inject_Z l1)) thresholdbyte l0 l1) (thresholdadjust (inject_Z l0, inject_Z l1)) Hf Wb N) as (c & W' & E & O & _ & Wc & P1 & P2 & _).
    { right. right. left. reflexivity. }
    { intros r gr bl B1 B2 B3. apply (C119_threshold l0 l1 (r, gr, bl)). cbn [bytes3]. auto. }
    exists W'. split; [exact E|]. eapply recolour_pal; eauto. intros x u B. cbv zeta. destruct (C119_threshold l0 l1 u B) as (_ & T1 & T2 & T3).
    assert (CL : clamped 0 255 (Z.min l0 l1) = Z.min l0 l1 /\ clamped 0 255 (Z.max l0 l1) = Z.max l0 l1) by (unfold clamped; lia). destruct CL as [CL1 CL2]. rewrite CL1, CL2 in *.
    assert (K : u <> black -> each (fun a z => rounds (inject_Z a * (inject_Z (clamped (Z.min l0 l1) (Z.max l0 l1) (brightest u)) / inject_Z (brightest u))) z) u (thresholdadjust (inject_Z l0, inject_Z l1) u)).
    { intros NB. destruct (T3 NB) as (A & R). now rewrite <- A. }
    split; [|split].
    + intros [Q|Q]; [now rewrite Q, (T1 eq_refl) in * || (rewrite (T1 Q); auto)|]. apply T2. unfold clamped in Q. lia.
    + intros NB. eapply each_weaken; [|exact (K NB)]. intros v z. apply rounds_close.
    + intros NB _. exact (K NB).
Qed.
(** gammaadj2file likewise; [m] is the whole part of 255 (m / 255) ^ gamma. *)
Theorem C120_gamma : forall src dst W b w h bits pow, files W src = Some b -> wf b w h bits -> bits <> 24 \/ 0 < w /\ 0 < h ->
  (forall x, 0 <= x <= 1 -> 0 <= pow x <= 1)%Q ->
  exists W', gammaadj2file (gammacorrect pow) (gammabyte pow) src dst W = (Ok tt, W') /\
    recoloured W W' dst b w h bits (fun _ u v =>
      (u = black -> v = black) /\
      (u <> black -> exists m, (inject_Z m <= 255 * pow (inject_Z (brightest u) / 255) < inject_Z m + 1)%Q /\
         each (fun a z => close (inject_Z a * (inject_Z m / inject_Z (brightest u))) z) u v /\
         (bits <> 24 -> each (fun a z => rounds (inject_Z a * (inject_Z m / inject_Z (brightest u))) z) u v))).
Proof.
  intros src dst W b w h bits pow Hf Wb Hs HP.
  destruct (Z.eq_dec bits 24) as [->|N].
  - pose (f := fun '(r, gr, bl) => let lum := Z.max 1 (Z.max r (Z.max gr bl)) in (gammabyte pow lum r mod 256, gammabyte pow lum gr mod 256, gammabyte pow lum bl mod 256)).
    destruct (C85_pixels src dst W b w h (gammacorrect pow) (fun v => v) (fun _ _ v => v) (gammabyte pow) (fun v => v) (fun v => v) (fun v => v) 0 0 Hf Wb) with
      (act := gammaadj2file (gammacorrect pow) (gammabyte pow)) (sel := fun _ : Z => true) (f := f)
      as (W' & E & S); try lia; auto.
    { do 3 right. left. reflexivity. }
    exists W'. split; [exact E|]. apply (recolour_px W W' dst b w h (fun _ => true) f); [exact Wb|exact S| |discriminate].
    intros x u B _.
    assert (L : 0 < lum1 u < 256) by (destruct u as [[r g] bl]; unfold lum1, brightest; cbn [bytes3] in B; lia).
    assert (U : (0 <= inject_Z (lum1 u) / 255 <= 1)%Q).
    { pose proof (le_inject 0 (lum1 u) ltac:(lia)) as A. pose proof (le_inject (lum1 u) 255 ltac:(lia)) as C. change (inject_Z 0) with 0%Q in A. change (inject_Z 255) with 255%Q in C.
      split; [apply Qle_shift_div_l|apply Qle_shift_div_r]; lra. }
    pose proof (HP _ U) as PB. set (m := gammacorrectbyte pow (lum1 u)).
    assert (M : 0 <= m < 256).
    { unfold m, gammacorrectbyte. enough (0 <= qtrunc (pow (inject_Z (lum1 u) / 255) * 255)%Q <= 255) by lia. apply qtrunc_bounds; [lia| |]; [change (inject_Z 0) with 0%Q|change (inject_Z 255) with 255%Q]; lra. }
    assert (MB : (inject_Z m <= 255 * pow (inject_Z (lum1 u) / 255) < inject_Z m + 1)%Q).
    { unfold m, gammacorrectbyte. pose proof (qtrunc_nonneg (pow (inject_Z (lum1 u) / 255) * 255)%Q ltac:(lra)). lra. }
    assert (K : forall a, 0 <= a <= lum1 u -> 0 <= gammabyte pow (lum1 u) a < 256 /\ close (inject_Z a * (inject_Z m / inject_Z (lum1 u))) (gammabyte pow (lum1 u) a)).
    { intros a HA. assert (Q : gammabyte pow (lum1 u) a = thresholdbyte m (lum1 u) a).
      { unfold gammabyte, thresholdbyte. fold m. pose proof (lum1_pos u) as LQ. pose proof (le_inject 0 a ltac:(lia)) as A1. pose proof (le_inject 0 m ltac:(lia)) as A2. change (inject_Z 0) with 0%Q in *.
        assert (G : (0 <= inject_Z m / inject_Z (lum1 u))%Q) by (apply Qle_shift_div_l; lra).
        apply qtrunc_unique; [nra|]. assert (Q : (inject_Z a * (inject_Z m / inject_Z (lum1 u)) == inject_Z m / inject_Z (lum1 u) * inject_Z a)%Q) by ring. rewrite Q. apply qtrunc_nonneg. nra. }
      rewrite Q. apply trunc_scaled; lia. }
    pose proof (byte_lum u B) as BL. unfold f.
    destruct u as [[r g] bl]. cbv zeta. change (Z.max 1 (Z.max r (Z.max g bl))) with (lum1 (r, g, bl)). destruct BL as (B1 & B2 & B3).
    destruct (K r B1) as (K1 & K1'), (K g B2) as (K2 & K2'), (K bl B3) as (K3 & K3'). rewrite !Z.mod_small by lia.
    split; [cbn [bytes3]; auto|]. split.
    + intros Q. inversion Q; subst r g bl. unfold close in K1'. change (inject_Z 0) with 0%Q in K1'.
      assert (Z0 : gammabyte pow (lum1 (0, 0, 0)) 0 = 0). { unfold gammabyte. change (inject_Z 0) with 0%Q. apply qtrunc_unique; rewrite Qmult_0_l; [lra|change (inject_Z 0) with 0%Q; lra]. }
      now rewrite Z0.
    + intros NB. rewrite <- (lum1_brightest _ B NB). exists m. split; [exact MB|]. split; [cbn [each]; auto|]. intros Q. now contradiction Q.
  - destruct (C85_palette src dst W b w h bits (gammacorrect pow) (fun v => v) (fun _ _ v => v) (gammabyte pow) (fun v => v) (fun v => v) (fun v => v) 0 0
      (gammaadj2file (gammacorrect pow) (gammabyte pow)) (gammacorrect pow) Hf Wb N) as (c & W' & E & O & _ & Wc & P1 & P2 & _).
    { do 4 right. left. reflexivity. }
    { intros r gr bl B1 B2 B3. apply (C119_gamma pow (r, gr, bl)); [cbn [bytes3]; auto|exact HP]. }
    exists W'. split; [exact E|]. eapply recolour_pal; eauto. intros x u B. destruct (C119_gamma pow u B HP) as (_ & T1 & T2).
    split; [exact T1|]. intros NB. destruct (T2 NB) as (A & R). eexists. split; [exact A|]. split; [|intros _; exact R].
    eapply each_weaken; [|exact R]. intros v z. apply rounds_close.
Qed.
(** monochrome2file: all three components become the mean, rounded with a palette and
    rounded down in 24-bit images. *)
Theorem C120_monochrome : forall src dst W b w h bits, files W src = Some b -> wf b w h bits -> bits <> 24 \/ 0 < w /\ 0 < h ->
  exists W', monochrome2file src dst W = (Ok tt, W') /\
    recoloured W W' dst b w h bits (fun _ u v =>
      let '(r, g, bl) := u in exists m, v = (m, m, m) /\ close (inject_Z (r + g + bl) / 3) m /\
        (bits <> 24 -> rounds (inject_Z (r + g + bl) / 3) m) /\ (bits = 24 -> m = (r + g + bl) / 3)).
Proof.
  intros src dst W b w h bits Hf Wb Hs.
  assert (T : forall s, (inject_Z s / 3 == inject_Z s * (1 # 3))%Q) by (intros; field).
  destruct (Z.eq_dec bits 24) as [->|N].
  - destruct (C85_pixels src dst W b w h (fun c => c) (fun v => v) (fun _ _ v => v) (fun _ v => v) (fun v => v) (fun v => v) (fun v => v) 0 0 Hf Wb) with
      (act := monochrome2file) (sel := fun _ : Z => true) (f := fun '(r, gr, bl) => let m := (r + gr + bl) / 3 in (m, m, m))
      as (W' & E & S); try lia; auto.
    { left. reflexivity. }
    exists W'. split; [exact E|]. apply (recolour_px W W' dst b w h (fun _ => true) (fun '(r, gr, bl) => let m := (r + gr + bl) / 3 in (m, m, m))); [exact Wb|exact S| |discriminate].
    intros x [[r g] bl] B _. cbv zeta. cbn [bytes3] in *. set (s := r + g + bl) in *. pose proof (Z_div_mod_eq_full s 3). pose proof (Z.mod_pos_bound s 3 ltac:(lia)).
    split; [lia|]. exists (s / 3). split; [reflexivity|]. split; [|split; [now intros Q|reflexivity]].
    unfold close. rewrite T. assert (Q : (inject_Z s == 3 * inject_Z (s / 3) + inject_Z (s mod 3))%Q) by (rewrite H at 1; rewrite inject_Z_plus, inject_Z_mult; reflexivity).
    pose proof (le_inject 0 (s mod 3) ltac:(lia)) as A1. pose proof (le_inject (s mod 3) 2 ltac:(lia)) as A2. change (inject_Z 0) with 0%Q in A1. change (inject_Z 2) with 2%Q in A2. rewrite Q. lra.
  - assert (R : forall r g bl, bytes3 (r, g, bl) -> let '(x, y, z) := monochrome (r, g, bl) in bytes3 (x, y, z) /\ y = x /\ z = x /\ rounds (inject_Z (r + g + bl) / 3) x).
    { intros r g bl B. cbn [monochrome bytes3] in *. set (s := r + g + bl) in *. set (m := (2 * s + 3) / 6). pose proof (Z_div_mod_eq_full (2 * s + 3) 6) as DM. fold m in DM. pose proof (Z.mod_pos_bound (2 * s + 3) 6 ltac:(lia)) as MB.
      set (k := (2 * s + 3) mod 6) in *.
      split; [lia|]. split; [reflexivity|]. split; [reflexivity|].
      assert (Q : (2 * inject_Z s + 3 == 6 * inject_Z m + inject_Z k)%Q).
      { transitivity (inject_Z (2 * s + 3)); [rewrite inject_Z_plus, inject_Z_mult; reflexivity|]. rewrite DM. rewrite inject_Z_plus, inject_Z_mult. reflexivity. }
      pose proof (le_inject 1 k ltac:(lia)) as A1. pose proof (le_inject k 5 ltac:(lia)) as A2. change (inject_Z 1) with 1%Q in A1. change (inject_Z 5) with 5%Q in A2.
      assert (P : (inject_Z s / 3 == inject_Z m + inject_Z k * (1 # 6) - (1 # 2))%Q) by (rewrite T; lra).
      split; [unfold nearest; rewrite P; lra|]. rewrite P. intros [Y|Y]; lra. }
    destruct (C85_palette src dst W b w h bits (fun c => c) (fun v => v) (fun _ _ v => v) (fun _ v => v) (fun v => v) (fun v => v) (fun v => v) 0 0
      monochrome2file monochrome Hf Wb N) as (c & W' & E & O & _ & Wc & P1 & P2 & _).
    { left. reflexivity. }
    { intros r gr bl B1 B2 B3. pose proof (R r gr bl ltac:(cbn [bytes3]; auto)) as K. destruct (monochrome (r, gr, bl)) as [[? ?] ?]. apply K. }
    exists W'. split; [exact E|]. eapply recolour_pal; eauto. intros x [[r g] bl] B. pose proof (R r g bl B) as K. destruct (monochrome (r, g, bl)) as [[x1 x2] x3].
    destruct K as (_ & -> & -> & K). exists x1. split; [reflexivity|]. split; [now apply rounds_close|]. split; [auto|intros Q; contradiction].
Qed.
(** The depth makes a difference: the same colour is rounded in a palette and cut off in a
    24-bit image, and too large factors are cut off at 255 in a palette but raise an
    exception in a 24-bit image. *)
Theorem C120_depth_refuted :
  ~ (forall l0 l1 r g b, bytes3 (r, g, b) -> 0 <= l0 < 256 -> 0 <= l1 < 256 ->
       let '(x, y, z) := thresholdadjust (inject_Z l0, inject_Z l1) (r, g, b) in
       applythresholdadjtoBGRbuf thresholdbyte l0 l1 [b; g; r] = Ok [z; y; x]) /\
  colorfilter (2, 2, 2)%Q (200, 10, 10) = (255, 20, 20) /\
  colorfiltertoBGRbuf (filterbyte 2) (filterbyte 2) (filterbyte 2) [10; 10; 200; 10; 10; 10] = Err OverflowError.
Proof.
  split; [|vm_compute; split; reflexivity]. intros H. specialize (H 0 100 200 3 0). vm_compute in H.
  assert (B : (0 <= 200 < 256 /\ 0 <= 3 < 256 /\ 0 <= 0 < 256)) by lia. specialize (H B ltac:(split; [discriminate|reflexivity]) ltac:(split; [discriminate|reflexivity])). discriminate.
Qed.
Example C120_ex : wf (sample 3 2 4) 3 2 4 /\ wf (sample 3 2 24) 3 2 24 /\ unit3 (1, 1 # 2, 0)%Q /\
  (forall x, 0 <= x <= 1 -> 0 <= x * x <= 1)%Q /\
  brightnessadjust 50 (1, 7, 200) = (2, 10, 255) /\ brightbyte 50 7 = 10.
Proof.
  split; [concrete_wf|]. split; [concrete_wf|]. split; [cbn; lra|]. split; [intros; nra|]. vm_compute. split; reflexivity.
Qed.
Print Assumptions C120_brightness.
Print Assumptions C120_filter.
Print Assumptions C120_threshold.
Print Assumptions C120_gamma.
Print Assumptions C120_monochrome.
Print Assumptions C120_depth_refuted.
