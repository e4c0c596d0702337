(** Properties C87-C95: computed palettes, fractals, attractors, Hilbert's and Koch's curves. *)
From Coq Require Import ZArith String List Bool Lia.
From Verif Require Import PyBase PyFacts Spec SpecShapes Palette Bmp BmpFacts Raster PixelProofs HeaderProofs PlotList
  Region Geometry Draw Circle Shapes ShapeProofs ShapeProofs2 VertProofs Files FileProofs Wrappers WrapProofs
  Fractal FractProofs FractProofs2 FractProofs3 FractProofs4 FractProofs5 Concrete PropFiles PropDraw PropShapes.
Import ListNotations.
Open Scope Z_scope.
Open Scope py_scope.

(** * C87 *)
(** The three palette functions store the computed palette, return it, and change
    nothing else.  [byte3 p]: the three components of p are bytes. *)
Theorem C87_monochrome : forall rnd b w h bits o, wf b w h bits -> bits <> 24 ->
  (forall c, 0 <= c < 256 -> byte3 (rnd c)) ->
  exists b' pal, setBMP2monochrome rnd (mkst b o) = (Ok pal, mkst b' o) /\ wf b' w h bits /\ getallRGBpal b' = Ok pal /\
    (forall i, 0 <= i < 2 ^ bits -> pal_entry b' i = rnd (i * (255 / (2 ^ bits - 1)))) /\
    (forall i, i < 54 \/ data_off bits <= i -> getz b' i = getz b i) /\
    (forall x y, inside w h x y -> pixel b' w h bits x y = pixel b w h bits x y).
Proof.
  intros rnd b w h bits o W N H. destruct (mono_run b w h bits o rnd W N H) as (b' & E & W' & G & F & P).
  eexists b', _. split; [exact E|]. split; [exact W'|]. split; [exact G|]. split; [|split; [intros; apply F; tauto|exact P]].
  intros i Hi. rewrite (nthpal_entry _ _ _ _ _ i W' N G Hi). now rewrite nthpal_map.
Qed.
Theorem C87_inverse : forall rnd mult shift b w h bits o, wf b w h bits -> bits <> 24 ->
  (forall c, 0 <= c < 256 -> byte3 (rnd c)) ->
  exists b' pal, setBMP2invshiftedmonochrome rnd mult shift (mkst b o) = (Ok (RGB2BGRAlist pal), mkst b' o) /\
    wf b' w h bits /\ getallRGBpal b' = Ok pal /\
    (forall i, 0 <= i < 2 ^ bits -> pal_entry b' i = rnd (((255 - i * (255 / (2 ^ bits - 1))) * mult + shift) mod 256)) /\
    (forall i, i < 54 \/ data_off bits <= i -> getz b' i = getz b i) /\
    (forall x y, inside w h x y -> pixel b' w h bits x y = pixel b w h bits x y).
Proof.
  intros rnd mult shift b w h bits o W N H. destruct (invshift_run b w h bits o rnd mult shift W N H) as (b' & E & W' & G & F & P).
  eexists b', _. split; [exact E|]. split; [exact W'|]. split; [exact G|]. split; [|split; [exact F|exact P]].
  intros i Hi. rewrite (nthpal_entry _ _ _ _ _ i W' N G Hi). now rewrite nthpal_map.
Qed.
(** [mix i n] is the colour i / n of the way from the first to the second colour: the
    entries step through them with stride 3, so that every colour has exactly one entry. *)
Theorem C87_dichromatic : forall mix c1 b w h bits o, wf b w h bits -> bits <> 24 -> 0 <= c1 < 2 ^ 24 ->
  (forall i, 0 <= i < 2 ^ bits -> byte3 (mix i (2 ^ bits))) ->
  exists b' pal, setBMP2dichromaticpal mix c1 (mkst b o) = (Ok (RGB2BGRAlist pal), mkst b' o) /\
    wf b' w h bits /\ getallRGBpal b' = Ok pal /\
    (forall i, 0 <= i < 2 ^ bits -> pal_entry b' ((3 * (2 ^ bits - i)) mod 2 ^ bits) = mix i (2 ^ bits)) /\
    (forall i, i < 54 \/ data_off bits <= i -> getz b' i = getz b i) /\
    (forall x y, inside w h x y -> pixel b' w h bits x y = pixel b w h bits x y).
Proof. intros mix c1 b w h bits o. apply dichro_run. Qed.
Theorem C87_refused : forall rnd mult shift b w h o, wf b w h 24 ->
  setBMP2monochrome rnd (mkst b o) = (Err ValueError, mkst b o) /\
  setBMP2invshiftedmonochrome rnd mult shift (mkst b o) = (Err ValueError, mkst b o).
Proof.
  intros rnd mult shift b w h o W. split; [eapply mono_24; eauto|].
  unfold setBMP2invshiftedmonochrome. rewrite (bind_ok _ _ _ _ _ (wf_rclr _ _ _ _ _ W)). reflexivity.
Qed.
Example C87_case :
  let rnd := fun c => (c, c / 2, 0) in
  let mix := fun i n => (i * 10, 255 - i * 10, 7) in
  (forall c, 0 <= c < 256 -> byte3 (rnd c)) /\ (forall i, 0 <= i < 16 -> byte3 (mix i 16)) /\
  wf (sample 5 2 4) 5 2 4 /\
  map (pal_entry (after (setBMP2monochrome rnd) (sample 5 2 4))) [0; 1; 15] = [(0, 0, 0); (17, 8, 0); (255, 127, 0)] /\
  map (pal_entry (after (setBMP2invshiftedmonochrome rnd 20 0) (sample 5 2 4))) [0; 1; 15] = [(236, 118, 0); (152, 76, 0); (0, 0, 0)] /\
  map (pal_entry (after (setBMP2dichromaticpal mix 255) (sample 5 2 4))) [0; 13; 3] = [(0, 255, 7); (10, 245, 7); (150, 105, 7)].
Proof.
  cbv zeta. split; [intros c Hc; unfold byte3, byte; assert (0 <= c / 2 < 256) by (split; [apply Z.div_pos|apply Z.div_lt_upper_bound]; lia); lia|].
  split; [intros i Hi; unfold byte3, byte; lia|]. split; [concrete_wf|].
  split; [vm_compute; reflexivity|]. split; vm_compute; reflexivity.
Qed.
Print Assumptions C87_monochrome.
Print Assumptions C87_inverse.
Print Assumptions C87_dichromatic.
Print Assumptions C87_refused.

(** * C88 *)
(** The colour number stored for the value v of a fractal. *)
Definition fractal_colour (f : factors) (bits v : Z) : Z :=
  match f with
  | Three _ mix => if bits =? 24 then mix (((255 - v) * 20) mod 256) else v mod 2 ^ bits
  | _ => if bits =? 1 then v mod 2 else (2 ^ bits - 1 - v) mod 2 ^ bits
  end.
(** Three factors for 24 bits, giving a colour; values of 8-bit fractals are bytes. *)
Definition fractal_fits (f : factors) (bits v : Z) : Prop :=
  match f with
  | Three _ mix => (bits = 24 -> 0 <= mix (((255 - v) * 20) mod 256) < 2 ^ 24) /\ (bits = 8 -> 0 <= v < 256)
  | _ => bits <> 24
  end.
Lemma fits_fok f w h bits v : valid_depth bits -> fractal_fits f bits v -> fok f w h bits v /\ fcolor f bits v = fractal_colour f bits v.
Proof.
  intros D H. unfold fok, fcolor, fractal_colour, fractal_fits in *.
  destruct f as [rnd mix|mix c1|]; cbn [three] in *; destruct D as [-> | [-> | [-> | ->]]]; cbn [Z.eqb Pos.eqb] in *;
    try contradiction; repeat split; intros; try discriminate; try lia; auto; try apply H; auto.
Qed.
(** Exactly the pixels of the rectangle (without its last column and row) are painted,
    each with the colour of its value. *)
Theorem C88_painted : forall val v f b w h bits o x1 y1 x2 y2, wf b w h bits -> x1 <> x2 -> y1 <> y2 ->
  (forall x y, Z.min x1 x2 <= x < Z.max x1 x2 -> Z.min y1 y2 <= y < Z.max y1 y2 ->
     val x y = Ok (v x y) /\ fractal_fits f bits (v x y)) ->
  (bits = 8 -> (exists rnd mix, f = Three rnd mix) ->
     0 <= Z.min x1 x2 /\ Z.max x1 x2 <= w /\ 0 <= Z.min y1 y2 /\ Z.max y1 y2 <= h) ->
  exists b', plotmultifractal val f x1 y1 x2 y2 (mkst b o) = (Ok tt, mkst b' o) /\
    repainted b b' w h bits (fun x y =>
      if ((Z.min x1 x2 <=? x) && (x <? Z.max x1 x2)) && ((Z.min y1 y2 <=? y) && (y <? Z.max y1 y2))
      then fractal_colour f bits (v x y) else pixel b w h bits x y).
Proof.
  intros val v f b w h bits o x1 y1 x2 y2 W Hx Hy Hv H8. pose proof (wf_depth _ _ _ _ W) as D.
  assert (Hb : forall x y, half_box x1 y1 x2 y2 x y = true -> Z.min x1 x2 <= x < Z.max x1 x2 /\ Z.min y1 y2 <= y < Z.max y1 y2).
  { intros x y H. unfold half_box in H. rewrite !andb_true_iff, !Z.leb_le, !Z.ltb_lt in H. exact H. }
  destruct (fractal_run val v f b w h bits o x1 y1 x2 y2 W Hx Hy) as (b' & E & R).
  { intros x y H. destruct (Hb x y H) as [A B]. destruct (Hv x y A B) as [Ev F]. split; [exact Ev|]. now apply fits_fok. }
  { intros E8 T. apply H8; auto. destruct f as [rnd mix| |]; try discriminate. eauto. }
  exists b'. split; [exact E|]. eapply repainted_ext; [|exact R]. intros x y _. cbn beta. fold (half_box x1 y1 x2 y2 x y).
  destruct (half_box x1 y1 x2 y2 x y) eqn:H; [|reflexivity]. destruct (Hb x y H) as [A B].
  exact (proj2 (fits_fok f w h bits (v x y) D (proj2 (Hv x y A B)))).
Qed.
(** An empty rectangle is refused. *)
Theorem C88_empty : forall val f b w h bits o x1 y1 x2 y2, wf b w h bits -> x1 = x2 \/ y1 = y2 ->
  plotmultifractal val f x1 y1 x2 y2 (mkst b o) = (Err ZeroDivisionError, mkst b o).
Proof. intros. now apply fractal_empty with (w := w) (h := h) (bits := bits). Qed.
(** A value above 255 stops an 8-bit fractal; 24-bit bitmaps need three factors; an
    8-bit fractal that leaves the image paints other pixels. *)
Theorem C88_limits_refuted : exists f,
  outcome (plotmultifractal (fun x y => Ok 256) f 0 0 2 2) (sample 4 4 8) = Err OverflowError /\
  outcome (plotmultifractal (fun x y => Ok 3) Others 0 0 2 2) (sample24 4 4) = Err ValueError /\
  rows (after (plotmultifractal (fun x y => Ok 9) f 3 1 5 2) (blank 4 3 8)) 4 3 8 =
    [[9; 0; 0; 0]; [0; 0; 0; 9]; [0; 0; 0; 0]] /\
  wf (sample 4 4 8) 4 4 8 /\ wf (sample24 4 4) 4 4 24 /\ wf (blank 4 3 8) 4 3 8.
Proof.
  exists (Three (fun c => (c, c, c)) (fun c => c)). split; [vm_compute; reflexivity|]. split; [vm_compute; reflexivity|].
  split; [vm_compute; reflexivity|]. split; [concrete_wf|]. split; concrete_wf.
Qed.
Example C88_case :
  let f := Three (fun c => (c, c, c)) (fun c => c) in
  wf (sample 4 3 8) 4 3 8 /\ (forall x y, 0 <= x < 4 -> 0 <= y < 3 -> fractal_fits f 8 (x * y)) /\
  rows (after (plotmultifractal (fun x y => Ok (x * y)) f 4 3 1 1) (blank 4 3 8)) 4 3 8 = [[0; 0; 0; 0]; [0; 1; 2; 3]; [0; 2; 4; 6]] /\
  rows (after (plotmultifractal (fun x y => Ok (x * y)) f 4 3 1 1) (blank 4 3 24)) 4 3 24 =
    [[0; 0; 0; 0]; [0; 216; 196; 176]; [0; 196; 156; 116]].
Proof.
  cbv zeta. split; [concrete_wf|]. split; [intros x y Hx Hy; split; [discriminate|nia]|]. split; vm_compute; reflexivity.
Qed.
Print Assumptions C88_painted.
Print Assumptions C88_empty.
Print Assumptions C88_limits_refuted.

(** * C89 *)
(** For the orbit z0, z1 = step z0, ...: the value is the number of the first step
    whose result is out, or maxiter. *)
Theorem C89_first_escape : forall (S : Type) (step : S -> res S) (out : S -> bool) (orbit : Z -> S) maxiter,
  (forall k, 0 <= k < maxiter -> step (orbit k) = Ok (orbit (k + 1))) ->
  (forall k, 0 <= k < maxiter -> (forall j, 0 <= j < k -> out (orbit (j + 1)) = false) -> out (orbit (k + 1)) = true ->
     escapetime step out (orbit 0) maxiter = Ok k) /\
  (0 <= maxiter -> (forall k, 0 <= k < maxiter -> out (orbit (k + 1)) = false) ->
     escapetime step out (orbit 0) maxiter = Ok maxiter).
Proof.
  intros S step out orbit maxiter Hs. unfold escapetime. split.
  - intros k Hk Hl Ho.
    destruct (escape_spec step out (fun _ i => Ok i) (Z.to_nat maxiter) 0 (orbit 0) maxiter orbit) as [A _]; auto.
    { intros j Hj. cbn. apply Hs. lia. }
    apply (A k); auto; lia.
  - intros Hm Hl.
    destruct (escape_spec step out (fun _ i => Ok i) (Z.to_nat maxiter) 0 (orbit 0) maxiter orbit) as [_ B]; auto.
    { intros j Hj. cbn. apply Hs. lia. }
    apply B. intros j Hj. apply Hl. lia.
Qed.
(** Biomorphs: the loop ends at the first large coordinate; the number of the step
    counts only if both are large. *)
Theorem C89_biomorph : forall (S : Type) (step : S -> res S) (re im : S -> bool) (orbit : Z -> S) maxiter,
  (forall k, 0 <= k < maxiter -> step (orbit k) = Ok (orbit (k + 1))) ->
  (forall k, 0 <= k < maxiter -> (forall j, 0 <= j < k -> re (orbit (j + 1)) = false /\ im (orbit (j + 1)) = false) ->
     re (orbit (k + 1)) = true \/ im (orbit (k + 1)) = true ->
     biomorphfunc step re im (orbit 0) maxiter = Ok (if re (orbit (k + 1)) && im (orbit (k + 1)) then k else maxiter)) /\
  (0 <= maxiter -> (forall k, 0 <= k < maxiter -> re (orbit (k + 1)) = false /\ im (orbit (k + 1)) = false) ->
     biomorphfunc step re im (orbit 0) maxiter = Ok maxiter).
Proof.
  intros S step re im orbit maxiter Hs. unfold biomorphfunc. split.
  - intros k Hk Hl Ho.
    destruct (escape_spec step (fun z => re z || im z) (fun z i => if re z && im z then Ok i else Ok maxiter)
                (Z.to_nat maxiter) 0 (orbit 0) maxiter orbit) as [A _]; auto.
    { intros j Hj. cbn. apply Hs. lia. }
    cbn [Z.add] in A. rewrite (A k); auto; [|lia| |].
    + destruct (re (orbit (k + 1)) && im (orbit (k + 1))); reflexivity.
    + intros j Hj. destruct (Hl j Hj) as [-> ->]. reflexivity.
    + now apply orb_true_iff.
  - intros Hm Hl.
    destruct (escape_spec step (fun z => re z || im z) (fun z i => if re z && im z then Ok i else Ok maxiter)
                (Z.to_nat maxiter) 0 (orbit 0) maxiter orbit) as [_ B]; auto.
    { intros j Hj. cbn. apply Hs. lia. }
    apply B. intros j Hj. cbn [Z.add]. destruct (Hl j ltac:(lia)) as [-> ->]. reflexivity.
Qed.
(** Every function with a limit maxiter stays between 0 and maxiter, so that with
    maxiter below 256 the value fits into a byte. *)
Theorem C89_range : forall maxiter r, 0 <= maxiter ->
  (forall (S : Type) (step : S -> res S) out z, escapetime step out z maxiter = Ok r -> 0 <= r <= maxiter) /\
  (forall (S : Type) (step : S -> res S) out z lim, limitedescape step out z lim maxiter = Ok r -> 0 <= r <= maxiter) /\
  (forall (S : Type) (step : S -> res S) re im z, biomorphfunc step re im z maxiter = Ok r -> 0 <= r <= maxiter) /\
  (forall (S : Type) (step : S -> res S) out size z, multibiomorphvariant step out size z maxiter = Ok r -> 0 <= r <= maxiter) /\
  (forall v, modvalue v maxiter = Ok r -> 0 <= r < maxiter) /\
  (forall P Q d, xorfn P Q d maxiter = Ok r -> 0 <= r < maxiter) /\
  (forall P Q d, xordivfn P Q d maxiter = Ok r -> 0 <= r < maxiter).
Proof.
  intros maxiter r Hm.
  assert (Pm : forall v a, pymod v maxiter = Ok a -> 0 <= a < maxiter).
  { intros v a. unfold pymod. destruct (Z.eqb_spec maxiter 0); [discriminate|]. intros H. injection H as <-. apply Z.mod_pos_bound. lia. }
  split; [|split; [|split; [|split; [|split; [|split]]]]].
  - intros S step out z E. eapply (escape_range step out (fun _ i => Ok i) (fun v => 0 <= v <= maxiter)); [..|exact E]; try lia.
    intros z' k v Hk H. injection H as <-. lia.
  - intros S step out z lim E. eapply (escape_range step out (fun _ i => pymod i maxiter) (fun v => 0 <= v <= maxiter)); [..|exact E]; try lia.
    intros z' k v Hk H. apply Pm in H. lia.
  - intros S step re im z E.
    eapply (escape_range step _ (fun z i => if re z && im z then Ok i else Ok maxiter) (fun v => 0 <= v <= maxiter)); [..|exact E]; try lia.
    intros z' k v Hk H. destruct (re z' && im z'); injection H as <-; lia.
  - intros S step out size z E.
    eapply (escape_range step out (fun z _ => pymod (size z) maxiter) (fun v => 0 <= v <= maxiter)); [..|exact E]; try lia.
    intros z' k v Hk H. apply Pm in H. lia.
  - intros v E. now apply Pm in E.
  - intros P Q d E. unfold xorfn in E. destruct (pymod (Z.lxor P Q) d); cbn [rbind] in E; [|discriminate]. now apply Pm in E.
  - intros P Q d E. unfold xordivfn in E. destruct (d =? 0); [discriminate|]. now apply Pm in E.
Qed.
Example C89_case :
  escapetime (fun z => Ok (2 * z)) (fun z => 100 <? z) 3 255 = Ok 5 /\
  escapetime (fun z => Ok (- z)) (fun z => 100 <? z) 3 255 = Ok 255 /\
  biomorphfunc (fun z => Ok (2 * z)) (fun z => 100 <? z) (fun z => 10 <? z) 3 255 = Ok 255 /\
  biomorphfunc (fun z => Ok (100 * z)) (fun z => 100 <? z) (fun z => 10 <? z) 3 255 = Ok 0.
Proof. split; [vm_compute; reflexivity|]. split; [vm_compute; reflexivity|]. split; vm_compute; reflexivity. Qed.
Print Assumptions C89_first_escape.
Print Assumptions C89_biomorph.
Print Assumptions C89_range.
