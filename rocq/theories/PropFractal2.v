(** Properties C90-C95: fractals in files, Newton's fractal, iterated functions, flowers,
    attractors, Hilbert's and Koch's curves. *)
From Coq Require Import ZArith String List Bool Lia.
From Verif Require Import PyBase PyFacts Spec SpecShapes Palette Bmp BmpFacts Raster PixelProofs HeaderProofs PlotList
  Region Geometry Draw Circle Shapes ShapeProofs ShapeProofs2 VertProofs Files FileProofs Wrappers WrapProofs
  Fractal FractProofs FractProofs2 FractProofs3 FractProofs4 FractProofs5 Concrete PropFiles PropDraw PropShapes PropFractal.
Import ListNotations.
Open Scope string_scope.
Open Scope list_scope.
Open Scope Z_scope.
Open Scope py_scope.

(** * C90 *)
(** The palette the factors stand for. *)
Definition palette_of (f : factors) (bits : Z) (b : list Z) : Prop :=
  match f with
  | Three rnd _ => forall i, 0 <= i < 2 ^ bits ->
      pal_entry b i = rnd (((255 - i * (255 / (2 ^ bits - 1))) * 20) mod 256)
  | Two mix _ => forall i, 0 <= i < 2 ^ bits -> pal_entry b ((3 * (2 ^ bits - i)) mod 2 ^ bits) = mix i (2 ^ bits)
  | Others => exists pal, getdefaultbitpal bits = Ok pal /\ forall i, 0 <= i < 2 ^ bits -> pal_entry b i = nth (Z.to_nat i) pal (0, 0, 0)
  end.
Definition palette_bytes (f : factors) (bits : Z) : Prop :=
  match f with
  | Three rnd _ => forall c, 0 <= c < 256 -> byte3 (rnd c)
  | Two mix c1 => 0 <= c1 < 2 ^ 24 /\ forall i, 0 <= i < 2 ^ bits -> byte3 (mix i (2 ^ bits))
  | Others => True
  end.
Lemma palette_shown f bits b : factors_shown f bits b -> palette_of f bits b.
Proof. destruct f; auto. Qed.
(** One file is written: a bitmap of the size and depth asked for, with the palette of
    the factors, every pixel in the colour of its value. *)
Theorem C90_saved : forall val v f file W w h bits,
  valid_depth bits -> 0 < w < 2 ^ 24 -> 0 < h < 2 ^ 24 -> (bits <> 24 -> palette_bytes f bits) ->
  (forall x y, inside w h x y -> val x y = Ok (v x y) /\ fractal_fits f bits (v x y)) ->
  exists b W', savefractal2file val f file w h bits W = (Ok tt, W') /\
    files W' file = Some b /\ (forall n, n <> file -> files W' n = files W n) /\ con W' = con W ++ [Mtext; Mdone] /\
    wf b w h bits /\ (bits <> 24 -> palette_of f bits b) /\
    forall x y, inside w h x y -> pixel b w h bits x y = fractal_colour f bits (v x y).
Proof.
  intros val v f file W w h bits Hd Hw Hh Hf Hv.
  destruct (savefractal_run val v f file W w h bits Hd Hw Hh Hf) as (b & W' & E & (O1 & O2) & C & Wb & S & P).
  { intros x y Hi. destruct (Hv x y Hi) as [A B]. split; [exact A|]. now apply fits_fok. }
  exists b, W'. split; [exact E|]. split; [exact O1|]. split; [exact O2|]. split; [exact C|]. split; [exact Wb|].
  split; [intros N; apply palette_shown; auto|]. intros x y Hi. rewrite P by exact Hi. apply (fits_fok f w h); auto. now apply Hv.
Qed.
(** Three factors that are mixed alike for palettes and for 24-bit colours: the 8-bit
    and the 24-bit file show the same picture. *)
Theorem C90_same_picture : forall val v rnd mix file8 file24 W w h, 0 < w < 2 ^ 24 -> 0 < h < 2 ^ 24 ->
  (forall c, 0 <= c < 256 -> byte3 (rnd c) /\ mix c = rgb24 (rnd c)) ->
  (forall x y, inside w h x y -> val x y = Ok (v x y) /\ 0 <= v x y < 256) -> file8 <> file24 ->
  exists b8 b24 W1 W2,
    savefractal2file val (Three rnd mix) file8 w h 8 W = (Ok tt, W1) /\
    savefractal2file val (Three rnd mix) file24 w h 24 W1 = (Ok tt, W2) /\
    files W2 file8 = Some b8 /\ files W2 file24 = Some b24 /\
    forall x y, inside w h x y -> pixel b24 w h 24 x y = rgb24 (pal_entry b8 (pixel b8 w h 8 x y)).
Proof.
  intros val v rnd mix file8 file24 W w h Hw Hh Hr Hv Hn.
  destruct (C90_saved val v (Three rnd mix) file8 W w h 8) as (b8 & W1 & E1 & F1 & O1 & _ & Wb8 & S8 & P8); auto.
  { unfold valid_depth; auto. } { intros _ c Hc. now apply Hr. }
  { intros x y Hi. destruct (Hv x y Hi) as [A B]. split; [exact A|]. split; [discriminate|auto]. }
  destruct (C90_saved val v (Three rnd mix) file24 W1 w h 24) as (b24 & W2 & E2 & F2 & O2 & _ & Wb24 & _ & P24); auto.
  { unfold valid_depth; auto. } { intros N; contradiction. }
  { intros x y Hi. destruct (Hv x y Hi) as [A B]. split; [exact A|]. split; [|discriminate]. intros _.
    assert (H : 0 <= ((255 - v x y) * 20) mod 256 < 256) by (apply Z.mod_pos_bound; lia).
    destruct (Hr _ H) as [Hb ->]. destruct (rnd _) as [[r g] bl]. unfold byte3, byte in Hb. cbn [rgb24].
    change (2 ^ 24) with 16777216. lia. }
  exists b8, b24, W1, W2. split; [exact E1|]. split; [exact E2|]. split; [now rewrite O2|]. split; [exact F2|].
  intros x y Hi. rewrite P24, P8 by exact Hi. cbn [fractal_colour Z.eqb Pos.eqb]. destruct (Hv x y Hi) as [_ B].
  change (2 ^ 8) with 256. rewrite (Z.mod_small (v x y) 256) by lia.
  specialize (S8 ltac:(discriminate)). cbn [palette_of] in S8. change (2 ^ 8) with 256 in S8. rewrite S8 by lia.
  change (255 / (256 - 1)) with 1. rewrite Z.mul_1_r. apply Hr. apply Z.mod_pos_bound. lia.
Qed.
Example C90_case :
  let f := Three (fun c => (c, 0, c)) (fun c => c + 65536 * c) in
  let r := savefractal2file (fun x y => Ok (x + y)) f "m.bmp" 3 2 8 (mkw nofiles []) in
  fst r = Ok tt /\
  match files (snd r) "m.bmp" with
  | Some b => rows b 3 2 8 = [[0; 1; 2]; [1; 2; 3]] /\ map (pal_entry b) [0; 1; 3] = [(236, 0, 236); (216, 0, 216); (176, 0, 176)]
  | None => False end.
Proof. cbv zeta. split; [vm_compute; reflexivity|]. vm_compute. split; reflexivity. Qed.
Print Assumptions C90_saved.
Print Assumptions C90_same_picture.

(** * C91 *)
(** Newton's fractal: the roots found (no two of them near each other, each one the
    root of some pixel) get the factors in the order in which they were found; a pixel
    takes the factor of the first root near its own.  Too few factors stop a 24-bit
    fractal. *)
Theorem C91_newton : forall (R : Type) (near : R -> R -> bool) val v n mix b w h bits o x1 y1 x2 y2,
  wf b w h bits -> x1 <> x2 -> y1 <> y2 ->
  (bits = 24 -> forall k l, 0 <= k < n -> 0 <= l < 256 -> 0 <= mix k l < 2 ^ 24) ->
  (forall x y rt c, v x y = Some (rt, c) -> near rt rt = true) ->
  (forall x y, Z.min x1 x2 <= x < Z.max x1 x2 -> Z.min y1 y2 <= y < Z.max y1 y2 -> val x y = Ok (v x y)) ->
  exists rts : list R,
    (forall i j d, (i < j < length rts)%nat -> near (nth i rts d) (nth j rts d) = false) /\
    (forall r, In r rts -> exists x y c, Z.min x1 x2 <= x < Z.max x1 x2 /\ Z.min y1 y2 <= y < Z.max y1 y2 /\ v x y = Some (r, c)) /\
    (bits <> 24 \/ zlen rts <= n ->
       exists b', newtonsfractal near val n mix x1 y1 x2 y2 (mkst b o) = (Ok rts, mkst b' o) /\
         wf b' w h bits /\ same_header b b' bits /\
         (forall x y rt c, inside w h x y -> Z.min x1 x2 <= x < Z.max x1 x2 -> Z.min y1 y2 <= y < Z.max y1 y2 ->
            v x y = Some (rt, c) ->
            exists k, (k < length rts)%nat /\ near (nth k rts rt) rt = true /\
              (forall j, (j < k)%nat -> near (nth j rts rt) rt = false) /\
              pixel b' w h bits x y =
                if bits =? 24 then mix (Z.of_nat k) (((255 - c) * 20) mod 256) else 2 ^ bits - 1 - c mod 2 ^ bits) /\
         (forall x y, inside w h x y ->
            ~ (Z.min x1 x2 <= x < Z.max x1 x2 /\ Z.min y1 y2 <= y < Z.max y1 y2) \/ v x y = None ->
            pixel b' w h bits x y = pixel b w h bits x y)) /\
    (bits = 24 -> 0 <= n < zlen rts -> exists s', newtonsfractal near val n mix x1 y1 x2 y2 (mkst b o) = (Err IndexError, s')).
Proof.
  intros R near val v n mix b w h bits o x1 y1 x2 y2 W Hx Hy Hm Hr Hv.
  assert (Hb : forall x y, half_box x1 y1 x2 y2 x y = true <-> Z.min x1 x2 <= x < Z.max x1 x2 /\ Z.min y1 y2 <= y < Z.max y1 y2).
  { intros x y. unfold half_box. rewrite !andb_true_iff, !Z.leb_le, !Z.ltb_lt. reflexivity. }
  destruct (newton_run near val v n mix w h bits Hm Hr b o x1 y1 x2 y2 W Hx Hy) as (rts & D & F & N & G & X).
  { intros x y H. apply Hb in H. now apply Hv. }
  exists rts. split; [exact D|].
  split. { intros r Hi. destruct (F r Hi) as (x & y & c & A & B). apply Hb in A. exists x, y, c. tauto. }
  split; [|exact X].
  intros Hz. destruct (G Hz) as (b' & E & Rp). exists b'. split; [exact E|]. split; [apply Rp|]. split; [apply Rp|]. split.
  - intros x y rt c Hi H1 H2 Ev. assert (Hbx : half_box x1 y1 x2 y2 x y = true) by (apply Hb; auto).
    destruct (N x y rt c Hbx Ev) as (k & Ek). destruct (nearroot_some near rt rts k rt Ek) as (A & B & C).
    exists k. split; [exact A|]. split; [exact B|]. split; [exact C|].
    rewrite (proj2 (proj2 Rp)) by exact Hi. rewrite Hbx. unfold ncol. rewrite Ev, Ek. reflexivity.
  - intros x y Hi Hor. rewrite (proj2 (proj2 Rp)) by exact Hi. destruct (half_box x1 y1 x2 y2 x y) eqn:H; [|reflexivity].
    destruct Hor as [Q|Q]; [apply Hb in H; contradiction|]. unfold ncol. now rewrite Q.
Qed.
(** Saved to a file, for palette depths only with other numbers of factors than 2 and 3. *)
Theorem C91_saved : forall (R : Type) (near : R -> R -> bool) val v n mix file W w h bits,
  valid_depth bits -> 0 < w < 2 ^ 24 -> 0 < h < 2 ^ 24 ->
  (bits <> 24 -> n <> 2 /\ n <> 3) ->
  (bits = 24 -> forall k l, 0 <= k < n -> 0 <= l < 256 -> 0 <= mix k l < 2 ^ 24) ->
  (forall x y rt c, v x y = Some (rt, c) -> near rt rt = true) ->
  (forall x y, inside w h x y -> val x y = Ok (v x y)) ->
  exists rts : list R,
    (forall i j d, (i < j < length rts)%nat -> near (nth i rts d) (nth j rts d) = false) /\
    (bits <> 24 \/ zlen rts <= n ->
       exists b W', savenewtonsfractal2file near val n mix file w h bits W = (Ok tt, W') /\
         files W' file = Some b /\ (forall m, m <> file -> files W' m = files W m) /\ wf b w h bits /\
         forall x y, inside w h x y ->
           match v x y with
           | None => pixel b w h bits x y = 0
           | Some (rt, c) => exists k, (k < length rts)%nat /\ near (nth k rts rt) rt = true /\
               (forall j, (j < k)%nat -> near (nth j rts rt) rt = false) /\
               pixel b w h bits x y = if bits =? 24 then mix (Z.of_nat k) (((255 - c) * 20) mod 256) else 2 ^ bits - 1 - c mod 2 ^ bits
           end).
Proof.
  intros R near val v n mix file W w h bits Hd Hw Hh Hn Hm Hr Hv.
  destruct (newBMP_wf w h bits Hd ltac:(lia) ltac:(lia)) as (b0 & E0 & W0 & P0 & _).
  destruct (C91_newton R near val v n mix b0 w h bits (con W ++ [Mtext]) 0 0 w h W0 ltac:(lia) ltac:(lia) Hm Hr) as (rts & D & _ & G & _).
  { intros x y H1 H2. apply Hv. unfold inside. lia. }
  exists rts. split; [exact D|]. intros Hz. destruct (G Hz) as (b & E & Wb & _ & P1 & P2).
  unfold savenewtonsfractal2file. rewrite timer_run. unfold fbind at 1, flift at 1. rewrite E0.
  replace ((bits <? 24) && ((n =? 3) || (n =? 2))) with false.
  2:{ symmetry. apply andb_false_iff. destruct (Z.eq_dec bits 24) as [->|N]; [left; reflexivity|right].
      destruct (Hn N). apply orb_false_iff. rewrite !Z.eqb_neq. auto. }
  unfold fbind, fret, callM. cbn [con files]. rewrite E. cbn [con files mem out snd]. unfold saveBMP. cbn [files con].
  eexists b, _. split; [reflexivity|]. cbn [files]. split; [apply fput_same|]. split; [intros m Hm'; now apply fput_other|].
  split; [exact Wb|]. intros x y Hi. destruct (v x y) as [[rt c]|] eqn:Ev.
  - apply P1; auto; unfold inside in Hi; lia.
  - rewrite P2 by auto. now apply P0.
Qed.
(** With two or three factors and a palette depth nothing is written. *)
Theorem C91_palette_refuted : forall (R : Type) (near : R -> R -> bool) val n mix file W w h bits,
  valid_depth bits -> bits <> 24 -> 0 <= w < 2 ^ 24 -> 0 <= h < 2 ^ 24 -> n = 2 \/ n = 3 ->
  exists W', savenewtonsfractal2file near val n mix file w h bits W = (Err TypeError, W') /\ forall m, files W' m = files W m.
Proof.
  intros R near val n mix file W w h bits Hd Hb Hw Hh Hn. destruct (newBMP_wf w h bits Hd Hw Hh) as (b0 & E0 & _).
  unfold savenewtonsfractal2file. rewrite timer_run. unfold fbind at 1, flift at 1. rewrite E0.
  replace ((bits <? 24) && ((n =? 3) || (n =? 2))) with true.
  2:{ symmetry. rewrite andb_true_iff, orb_true_iff, !Z.eqb_eq, Z.ltb_lt. split; [|lia]. destruct Hd as [-> | [-> | [-> | ->]]]; lia. }
  unfold fbind, fraise. eexists. split; [reflexivity|]. reflexivity.
Qed.
Example C91_case :
  let near := fun a b => Z.abs (a - b) <? 5 in
  let v := fun x y => if x =? 1 then None else Some (10 * x + y, y) in
  let mix := fun k l => l + 1000 * (k + 1) in
  wf (blank 4 2 24) 4 2 24 /\ (forall x y rt c, v x y = Some (rt, c) -> near rt rt = true) /\
  outcome (newtonsfractal near (fun x y => Ok (v x y)) 3 mix 0 0 4 2) (blank 4 2 24) = Ok [0; 20; 30] /\
  rows (after (newtonsfractal near (fun x y => Ok (v x y)) 3 mix 0 0 4 2) (blank 4 2 24)) 4 2 24 =
    [[1236; 0; 2236; 3236]; [1216; 0; 2216; 3216]] /\
  outcome (newtonsfractal near (fun x y => Ok (v x y)) 2 mix 0 0 4 2) (blank 4 2 24) = Err IndexError.
Proof.
  cbv zeta. split; [concrete_wf|]. split; [intros x y rt c _; rewrite Z.sub_diag; reflexivity|].
  split; [vm_compute; reflexivity|]. split; vm_compute; reflexivity.
Qed.
Print Assumptions C91_newton.
Print Assumptions C91_saved.
Print Assumptions C91_palette_refuted.

(** * C92 *)
(** Points of iterated functions: those strictly inside the rectangle are drawn. *)
Theorem C92_ifs : forall pts b w h bits o x1 y1 x2 y2 c, wf b w h bits -> storable bits c ->
  exists b', IFS pts x1 y1 x2 y2 c (mkst b o) = (Ok tt, mkst b' o) /\
    repainted b b' w h bits (fun x y =>
      if existsb (fun p => (fst p =? x) && (snd p =? y)) pts &&
         (((Z.min x1 x2 <? x) && (x <? Z.max x1 x2)) && ((Z.min y1 y2 <? y) && (y <? Z.max y1 y2)))
      then reduce bits c else pixel b w h bits x y).
Proof. intros. now apply ifs_run. Qed.
Theorem C92_fern : forall pts b w h bits o x1 y1 x2 y2 c, wf b w h bits -> storable bits c ->
  (inside w h x1 y1 -> inside w h x2 y2 ->
   exists b', fern pts x1 y1 x2 y2 c (mkst b o) = (Ok (Some tt), mkst b' o) /\
    repainted b b' w h bits (fun x y =>
      if existsb (fun p => (fst p =? x) && (snd p =? y)) pts &&
         (((Z.min x1 x2 <? x) && (x <? Z.max x1 x2)) && ((Z.min y1 y2 <? y) && (y <? Z.max y1 y2)))
      then reduce bits c else pixel b w h bits x y)) /\
  (~ (inside w h x1 y1 /\ inside w h x2 y2) ->
   fern pts x1 y1 x2 y2 c (mkst b o) = (Ok None, mkst b (o ++ [Mregionoutofbounds]))).
Proof.
  intros pts b w h bits o x1 y1 x2 y2 c W Hs. split; intros H.
  - intros H2. unfold fern. rewrite (guard_true b w h bits) by auto.
    destruct (C92_ifs pts b w h bits o x1 y1 x2 y2 c W Hs) as (b' & E & R). exists b'. unfold withSome.
    rewrite (bind_ok _ _ _ _ _ E). split; [reflexivity|exact R].
  - unfold fern. now apply (guard_false b w h bits).
Qed.
(** Flowers: the points of the outline, with inverted colour numbers below 24 bits. *)
Theorem C92_flower : forall pts col b w h bits o, wf b w h bits ->
  (bits = 24 -> forall x y, In (x, y) pts -> 0 <= col x y < 2 ^ 24) ->
  exists b', plotflower pts col (mkst b o) = (Ok tt, mkst b' o) /\
    repainted b b' w h bits (fun x y =>
      if existsb (fun p => (fst p =? x) && (snd p =? y)) pts
      then (if bits =? 24 then col x y else 2 ^ bits - 1 - col x y mod 2 ^ bits) else pixel b w h bits x y).
Proof. intros. now apply flower_run. Qed.
(** Filled flowers: radii r, r-1, .. 3; the smallest radius that reaches a pixel decides. *)
Theorem C92_filledflower : forall pts col r b w h bits o, wf b w h bits ->
  (bits = 24 -> forall n x y, In (x, y) (pts n) -> 0 <= col n x y < 2 ^ 24) ->
  exists b', plotfilledflower pts col r (mkst b o) = (Ok tt, mkst b' o) /\
    repainted b b' w h bits (fun x y =>
      match find (fun n => existsb (fun p => (fst p =? x) && (snd p =? y)) (pts n)) (range 3 (r + 1)) with
      | Some n => if bits =? 24 then col n x y else 2 ^ bits - 1 - col n x y mod 2 ^ bits
      | None => pixel b w h bits x y
      end).
Proof.
  intros pts col r b w h bits o W Hc. unfold plotfilledflower. rewrite forM_map.
  set (k := Z.to_nat (r - 2)).
  assert (Er : range 0 (r - 2) = map Z.of_nat (seq 0 k)).
  { unfold range, k. rewrite Z.sub_0_r. apply map_ext. intros; lia. }
  assert (E3 : range 3 (r + 1) = map (fun i => 3 + Z.of_nat i) (seq 0 k)).
  { unfold range, k. do 2 f_equal. lia. }
  assert (K : forall m b, wf b w h bits -> (m <= k)%nat -> exists b',
    forM (map Z.of_nat (seq 0 m)) (fun i => plotflower (pts (r - i)) (col (r - i))) (mkst b o) = (Ok tt, mkst b' o) /\
    repainted b b' w h bits (fun x y =>
      match find (fun n => existsb (fun p => (fst p =? x) && (snd p =? y)) (pts n)) (map (fun i => r - Z.of_nat m + 1 + Z.of_nat i) (seq 0 m)) with
      | Some n => if bits =? 24 then col n x y else 2 ^ bits - 1 - col n x y mod 2 ^ bits
      | None => pixel b w h bits x y
      end)).
  { induction m as [|m IH]; intros b0 W0 Hm.
    - exists b0. split; [reflexivity|]. now apply repainted_refl.
    - destruct (IH b0 W0 ltac:(lia)) as (b1 & E1 & R1).
      destruct (C92_flower (pts (r - Z.of_nat m)) (col (r - Z.of_nat m)) b1 w h bits o (proj1 R1)) as (b2 & E2 & R2); [auto|].
      exists b2. rewrite seq_S, map_app. rewrite forM_app, (bind_ok _ _ _ _ _ E1). cbn [map Nat.add].
      rewrite forM_cons, (bind_ok _ _ _ _ _ E2). split; [reflexivity|].
      eapply repainted_ext; [|eapply repainted_trans; [exact R1|exact R2]]. intros x y Hi. cbn beta.
      rewrite (proj2 (proj2 R1)) by exact Hi.
      change (seq 0 m ++ [m]) with (seq 0 m ++ [(0 + m)%nat]). rewrite <- (seq_S m 0). cbn [seq map find].
      replace (r - Z.of_nat (S m) + 1 + Z.of_nat 0) with (r - Z.of_nat m) by lia.
      destruct (existsb _ (pts (r - Z.of_nat m))); [reflexivity|]. rewrite <- seq_shift, map_map.
      rewrite (map_ext (fun i => r - Z.of_nat (S m) + 1 + Z.of_nat (S i)) (fun i => r - Z.of_nat m + 1 + Z.of_nat i)) by (intros; lia). reflexivity. }
  destruct (K k b W ltac:(lia)) as (b' & E & R). exists b'. rewrite Er. split; [exact E|].
  eapply repainted_ext; [|exact R]. intros x y _. cbn beta. rewrite E3.
  destruct (Z_le_dec 2 r) as [Hr|Hr].
  - rewrite (map_ext (fun i => r - Z.of_nat k + 1 + Z.of_nat i) (fun i => 3 + Z.of_nat i)); [reflexivity|]. intros i. unfold k. lia.
  - replace k with 0%nat by (unfold k; lia). reflexivity.
Qed.
Example C92_case :
  let ring := fun n => [(n, 1); (1, n)] in
  rows (after (IFS [(0, 1); (1, 1); (2, 2); (3, 1)] 3 3 0 0 5) (blank 4 4 8)) 4 4 8 = [[0; 0; 0; 0]; [0; 5; 0; 0]; [0; 0; 5; 0]; [0; 0; 0; 0]] /\
  outcome (fern [(1, 1)] 0 0 4 3 5) (blank 4 4 8) = Ok None /\
  rows (after (plotflower [(0, 1); (2, 0)] (fun x y => x)) (blank 4 2 8)) 4 2 8 = [[0; 0; 253; 0]; [255; 0; 0; 0]] /\
  rows (after (plotfilledflower ring (fun n x y => n) 4) (blank 5 5 24)) 5 5 24 =
    [[0; 0; 0; 0; 0]; [0; 0; 0; 3; 4]; [0; 0; 0; 0; 0]; [0; 3; 0; 0; 0]; [0; 4; 0; 0; 0]].
Proof. cbv zeta. split; [vm_compute; reflexivity|]. split; [vm_compute; reflexivity|]. split; vm_compute; reflexivity. Qed.
Print Assumptions C92_ifs.
Print Assumptions C92_fern.
Print Assumptions C92_flower.
Print Assumptions C92_filledflower.

(** * C93 *)
(** How many points of the orbit fall on a pixel. *)
Definition count_at (cells : list (Z * Z)) (x y : Z) : Z := zlen (filter (fun p => (fst p =? x) && (snd p =? y)) cells).
(** Attractors: a new bitmap that shows how often the orbit meets each pixel, scaled
    from the smallest count to the largest one. *)
Theorem C93_attractor : forall scale cells w h bits W, valid_depth bits -> 0 < w < 2 ^ 24 -> 0 < h < 2 ^ 24 ->
  (forall x y, In (x, y) cells -> inside w h x y) ->
  exists lo hi, (exists x y, inside w h x y /\ count_at cells x y = lo) /\ (exists x y, inside w h x y /\ count_at cells x y = hi) /\
    (forall x y, inside w h x y -> lo <= count_at cells x y <= hi) /\
    (lo < hi -> (bits = 24 -> forall v, 0 <= v <= hi - lo -> 0 <= scale (2 ^ 24) (hi - lo) v < 2 ^ 24) ->
       exists b, plotattractor scale cells w h bits W = (Ok b, W) /\ wf b w h bits /\
         forall x y, inside w h x y -> pixel b w h bits x y = reduce bits (scale (2 ^ bits) (hi - lo) (count_at cells x y - lo))) /\
    (lo = hi -> plotattractor scale cells w h bits W = (Err ZeroDivisionError, W)).
Proof.
  intros scale cells w h bits W Hd Hw Hh Hc.
  assert (Hok : cells_ok cells w h). { intros x y H. apply Hc in H. exact H. }
  destruct (attractor_run scale cells w h bits W Hd Hw Hh Hok) as (lo & hi & A & B & C & D & E).
  exists lo, hi. auto 8.
Qed.
Theorem C93_saved : forall scale cells file w h bits W, valid_depth bits -> 0 < w < 2 ^ 24 -> 0 < h < 2 ^ 24 ->
  (forall x y, In (x, y) cells -> inside w h x y) ->
  exists lo hi, (exists x y, inside w h x y /\ count_at cells x y = lo) /\ (exists x y, inside w h x y /\ count_at cells x y = hi) /\
    (forall x y, inside w h x y -> lo <= count_at cells x y <= hi) /\
    (lo < hi -> (bits = 24 -> forall v, 0 <= v <= hi - lo -> 0 <= scale (2 ^ 24) (hi - lo) v < 2 ^ 24) ->
       exists b W', saveattractor2file scale cells file w h bits W = (Ok tt, W') /\
         files W' file = Some b /\ (forall n, n <> file -> files W' n = files W n) /\ wf b w h bits /\
         forall x y, inside w h x y -> pixel b w h bits x y = reduce bits (scale (2 ^ bits) (hi - lo) (count_at cells x y - lo))) /\
    (lo = hi -> exists W', saveattractor2file scale cells file w h bits W = (Err ZeroDivisionError, W') /\ forall n, files W' n = files W n).
Proof.
  intros scale cells file w h bits W Hd Hw Hh Hc. set (W1 := mkw (files W) (con W ++ [Mtext])).
  destruct (C93_attractor scale cells w h bits W1 Hd Hw Hh Hc) as (lo & hi & A & B & C & D & E).
  exists lo, hi. split; [exact A|]. split; [exact B|]. split; [exact C|].
  unfold saveattractor2file. rewrite timer_run. fold W1. split.
  - intros Hlt Hs. destruct (D Hlt Hs) as (b & Eb & Wb & P). unfold fbind. rewrite Eb. unfold saveBMP. cbn [files con].
    eexists b, _. split; [reflexivity|]. cbn [files]. split; [apply fput_same|]. split; [intros m Hm; rewrite fput_other by exact Hm; reflexivity|]. auto.
  - intros He. unfold fbind. rewrite (E He). eexists. split; [reflexivity|]. reflexivity.
Qed.
(** A point outside the image stops the drawing. *)
Theorem C93_outside : forall scale cells w h bits W x y, In (x, y) cells -> ~ inside w h x y ->
  plotattractor scale cells w h bits W = (Err IndexError, W).
Proof.
  intros scale cells w h bits W x y Hi Hn. unfold plotattractor, fbind, flift. rewrite hist_outside; [reflexivity|].
  intros H. apply Hn. exact (H x y Hi).
Qed.
Example C93_case :
  let scale := fun m d v => v * (m - 1) / d in
  let cells := [(0, 0); (1, 1); (0, 0); (2, 1); (0, 0); (1, 1)] in
  (forall x y, In (x, y) cells -> inside 3 2 x y) /\
  match plotattractor scale cells 3 2 8 (mkw nofiles []) with
  | (Ok b, _) => rows b 3 2 8 = [[255; 0; 0]; [0; 170; 85]]
  | _ => False end.
Proof.
  cbv zeta. split; [|vm_compute; reflexivity].
  intros x y H. cbn [In] in H. unfold inside. repeat (destruct H as [H|H]; [inversion H; lia|]). destruct H.
Qed.
Print Assumptions C93_attractor.
Print Assumptions C93_saved.
Print Assumptions C93_outside.

(** * C94 *)
(** Hilbert's curve of order n visits every cell of a 2^n x 2^n grid once and goes from
    cell to neighbouring cell; its vertices are the centres of the cells, rounded. *)
Definition hilbert_walk (n : nat) (cells : list (Z * Z)) : Prop :=
  NoDup cells /\ (forall a b, In (a, b) cells <-> 0 <= a < 2 ^ Z.of_nat n /\ 0 <= b < 2 ^ Z.of_nat n) /\
  (forall p q, In (p, q) (edges cells) -> Z.abs (fst p - fst q) + Z.abs (snd p - snd q) = 1) /\
  hd (1, 1) cells = (0, 0) /\ last cells (1, 1) = (0, 2 ^ Z.of_nat n - 1).
Lemma walk_edges l p q : walk l -> In (p, q) (edges l) -> beside p q.
Proof.
  induction l as [|a [|b l] IH]; intros H Hi; [destruct Hi|destruct Hi|]. cbn in Hi.
  destruct Hi as [E|Hi]; [inversion E; subst; apply H|]. apply IH; [apply H|exact Hi].
Qed.
Lemma hcells_hilbert n : hilbert_walk n (hcells n).
Proof.
  destruct (hcells_walk n) as (N & H & L & Wk). split; [apply hcells_nodup|]. split; [apply hcells_in|].
  split; [intros p q Hi; exact (walk_edges _ _ _ Wk Hi)|]. split.
  - destruct (hcells n); [contradiction|exact H].
  - now rewrite (last_indep _ _ (0, 0)).
Qed.
(** [centre n s a p]: p is nearest to the centre of cell a when 2^n cells fill 0..s *)
Definition centre (n : nat) (s a p : Z) : Prop := 2 * Z.abs (2 ^ (Z.of_nat n + 1) * p - (2 * a + 1) * s) <= 2 ^ (Z.of_nat n + 1).
Theorem C94_hilbert : forall n x y, exists cells col row, hilbert_walk n cells /\ length cells = (4 ^ n)%nat /\
  (forall a, centre n x a (col a)) /\ (forall b, centre n y b (row b)) /\
  hilbertvert (0, 0) (x, 0, 0, y) n = map (fun p => (col (fst p), row (snd p))) cells.
Proof.
  intros n x y. exists (hcells n), (fun a => roundunit n ((2 * a + 1) * x)), (fun b => roundunit n ((2 * b + 1) * y)).
  split; [apply hcells_hilbert|]. split; [apply hcells_length|].
  split; [intros a; apply roundunit_near|]. split; [intros b; apply roundunit_near|].
  unfold hilbertvert. cbn [fst snd]. rewrite hilbert_cells, map_map. apply map_ext. intros [a b]. cbn [fst snd].
  f_equal; f_equal; lia.
Qed.
(** The other orientation exchanges the width and the height: for images that are not
    square part of the curve lies outside. *)
Theorem C94_orientation : forall n x y, exists cells col row, hilbert_walk n cells /\
  (forall a, centre n x a (col a)) /\ (forall b, centre n y b (row b)) /\
  hilbertvert (0, 0) (0, x, y, 0) n = map (fun p => (row (snd p), col (fst p))) cells.
Proof.
  intros n x y. exists (hcells n), (fun a => roundunit n ((2 * a + 1) * x)), (fun b => roundunit n ((2 * b + 1) * y)).
  split; [apply hcells_hilbert|]. split; [intros a; apply roundunit_near|]. split; [intros b; apply roundunit_near|].
  unfold hilbertvert. cbn [fst snd]. rewrite hilbert_cells, map_map. apply map_ext. intros [a b]. cbn [fst snd].
  f_equal; f_equal; lia.
Qed.
Theorem C94_orientation_refuted : exists p, In p (hilbertvert (0, 0) (0, 40, 8, 0) 2) /\ ~ inside 41 9 (fst p) (snd p).
Proof. exists (3, 15). split; [vm_compute; tauto|]. unfold inside. cbn. lia. Qed.
Lemma centre_inside n s a p : 0 <= s -> 0 <= a < 2 ^ Z.of_nat n -> centre n s a p -> 0 <= p <= s.
Proof.
  unfold centre. rewrite pow_1. intros Hs Ha Hc. set (d := 2 ^ Z.of_nat n) in *.
  assert (0 < d) by (apply Z.pow_pos_nonneg; lia). clearbody d.
  assert (0 <= (2 * a + 1) * s <= (2 * d - 1) * s) by nia. split; [|].
  - destruct (Z_lt_dec p 0) as [Q|Q]; [|lia]. exfalso. assert (2 * d * p <= - (2 * d)) by nia. lia.
  - destruct (Z_lt_dec s p) as [Q|Q]; [|lia]. exfalso. assert (2 * d * (s + 1) <= 2 * d * p) by nia. lia.
Qed.
Lemma seg_axis w h u v x y : inside w h (fst u) (snd u) -> inside w h (fst v) (snd v) -> fst u = fst v \/ snd u = snd v ->
  seg_hit w h u v x y = in_box (fst u) (snd u) (fst v) (snd v) x y /\ seg_fits w h 24 u v.
Proof.
  destruct u as [x1 y1], v as [x2 y2]. cbn [fst snd]. unfold inside. intros H1 H2 Hax.
  assert (I : forall n a, 0 <= a < n -> into n a = a) by (intros; unfold into; lia).
  unfold seg_hit, seg_fits. cbn [fst snd]. rewrite !I by lia.
  assert (Dg : is_diagonal x1 y1 x2 y2 = false).
  { unfold is_diagonal. apply andb_false_iff. destruct (Z.eqb_spec x1 x2); [right; reflexivity|left]. apply Z.eqb_neq. lia. }
  split; [|split; [discriminate|rewrite Dg; discriminate]].
  unfold seg_points. rewrite Dg. unfold on_line. cbn zeta.
  destruct (in_box x1 y1 x2 y2 x y) eqn:E; [|reflexivity]. unfold in_box in E. rewrite !andb_true_iff, !Z.leb_le in E. cbn [andb].
  destruct Hax as [<-|<-]; rewrite Z.sub_diag; cbn [Z.sgn Z.abs].
  - destruct (Z.leb_spec (Z.abs (y2 - y1)) 0); apply Z.eqb_eq.
    + rewrite Zdiv_0_r. lia.
    + lia.
  - replace (0 <=? Z.abs (x2 - x1)) with true by (symmetry; apply Z.leb_le; lia). apply Z.eqb_eq. lia.
Qed.
(** The file: the segments between consecutive centres in the colour, everything else in
    the background colour (black unless it is positive). *)
Theorem C94_saved : forall file w h n c bg pen W, 0 < w < 2 ^ 24 -> 0 < h < 2 ^ 24 -> 0 <= c < 2 ^ 24 -> bg < 2 ^ 24 -> pen <= 1 ->
  exists cells col row b W', hilbert_walk n cells /\
    (forall a, centre n (w - 1) a (col a)) /\ (forall b, centre n (h - 1) b (row b)) /\
    savehilbertcurve2file file w h n 24 c bg pen 0 W = (Ok tt, W') /\
    files W' file = Some b /\ (forall m, m <> file -> files W' m = files W m) /\ wf b w h 24 /\
    forall x y, inside w h x y -> pixel b w h 24 x y =
      if existsb (fun e => in_box (col (fst (fst e))) (row (snd (fst e))) (col (fst (snd e))) (row (snd (snd e))) x y) (edges cells)
      then c else Z.max 0 bg.
Proof.
  intros file w h n c bg pen W Hw Hh Hc Hbg Hpen.
  destruct (C94_hilbert n (w - 1) (h - 1)) as (cells & col & row & Hwk & _ & Hcol & Hrow & Ev).
  destruct (newBMP_wf w h 24 ltac:(unfold valid_depth; auto) ltac:(lia) ltac:(lia)) as (b0 & E0 & W0 & P0 & _).
  set (o := con W ++ [Mtext]).
  assert (K : exists b1, (if bg >? 0 then _ <- filledrect 0 0 (w - 1) (h - 1) bg ;; ret tt else ret tt) (mkst b0 o) = (Ok tt, mkst b1 o) /\
     repainted b0 b1 w h 24 (fun _ _ => Z.max 0 bg)).
  { destruct (Z.gtb_spec bg 0) as [Q|Q].
    - destruct (C22_filledrect24 b0 w h 0 0 (w - 1) (h - 1) bg o W0) as (b1 & E1 & R1); try (unfold inside; lia); try lia.
      exists b1. rewrite (bind_ok _ _ _ _ _ E1). split; [reflexivity|]. eapply repainted_ext; [|exact R1].
      intros x y Hi. cbn beta. unfold inside in Hi. replace (in_box 0 0 (w - 1) (h - 1) x y) with true; [lia|].
      symmetry. unfold in_box. rewrite !andb_true_iff, !Z.leb_le. lia.
    - exists b0. split; [reflexivity|]. eapply repainted_ext; [|now apply repainted_refl]. intros x y Hi. cbn beta.
      rewrite P0 by exact Hi. lia. }
  destruct K as (b1 & E1 & R1).
  set (vs := map (fun p => (col (fst p), row (snd p))) cells) in *.
  assert (Hed : forall l, edges (map (fun p => (col (fst p), row (snd p))) l) =
     map (fun e => ((col (fst (fst e)), row (snd (fst e))), (col (fst (snd e)), row (snd (snd e))))) (edges l)).
  { induction l as [|a [|a' l] IH]; [reflexivity|reflexivity|]. change (edges (a :: a' :: l)) with ((a, a') :: edges (a' :: l)).
    cbn [map] in IH |- *. rewrite <- IH. reflexivity. }
  assert (Hin : forall p q, In (p, q) (edges cells) -> In p cells /\ In q cells).
  { intros p q Hi. unfold edges in Hi. split; [eapply in_combine_l; eauto|]. apply in_combine_r in Hi.
    destruct cells; [destruct Hi|cbn; auto]. }
  destruct Hwk as (Hnd & Hall & Hadj & Hst). 
  assert (Hax : forall e x y, In e (edges cells) ->
     let u := (col (fst (fst e)), row (snd (fst e))) in let v := (col (fst (snd e)), row (snd (snd e))) in
     seg_hit w h u v x y = in_box (fst u) (snd u) (fst v) (snd v) x y /\ seg_fits w h 24 u v).
  { intros [[a b] [a' b']] x y Hi. cbn zeta. cbn [fst snd]. destruct (Hin _ _ Hi) as [I1 I2]. apply Hall in I1, I2.
    apply seg_axis; cbn [fst snd].
    - pose proof (centre_inside _ (w - 1) _ _ ltac:(lia) (proj1 I1) (Hcol a)). pose proof (centre_inside _ (h - 1) _ _ ltac:(lia) (proj2 I1) (Hrow b)).
      unfold inside. lia.
    - pose proof (centre_inside _ (w - 1) _ _ ltac:(lia) (proj1 I2) (Hcol a')). pose proof (centre_inside _ (h - 1) _ _ ltac:(lia) (proj2 I2) (Hrow b')).
      unfold inside. lia.
    - specialize (Hadj _ _ Hi). cbn [fst snd] in Hadj. assert (a = a' \/ b = b') as [-> | ->] by lia; auto. }
  destruct (C72_polyline b1 w h 24 o vs c pen (proj1 R1)) as (b2 & o2 & E2 & Q2 & R2); try lia.
  { unfold vs. rewrite Hed. apply Forall_forall. intros e He. apply in_map_iff in He. destruct He as (e0 & <- & He).
    cbn [fst snd]. apply (Hax e0 0 0 He). }
  rewrite (Q2 ltac:(discriminate)) in E2. clear Q2.
  exists cells, col, row. unfold savehilbertcurve2file. rewrite timer_run. fold o. unfold fbind at 1, flift at 1. rewrite E0.
  cbn zeta. cbn [Z.eqb]. unfold fbind, callM. cbn [con]. rewrite (bind_ok _ _ _ _ _ E1). rewrite Ev, E2. cbn [mem out snd files con].
  unfold saveBMP. cbn [files con]. eexists b2, _. split; [exact (conj Hnd (conj Hall (conj Hadj Hst)))|].
  split; [exact Hcol|]. split; [exact Hrow|]. split; [reflexivity|]. cbn [files]. split; [apply fput_same|].
  split; [intros m Hm; now apply fput_other|]. split; [apply R2|].
  intros x y Hi. rewrite (proj2 (proj2 R2)) by exact Hi. rewrite (proj2 (proj2 R1)) by exact Hi. unfold vs. rewrite Hed.
  replace (any_edge (seg_hit w h) _ x y) with
    (existsb (fun e => in_box (col (fst (fst e))) (row (snd (fst e))) (col (fst (snd e))) (row (snd (snd e))) x y) (edges cells)); [reflexivity|].
  apply eq_iff_eq_true. unfold any_edge. rewrite !existsb_exists. split.
  - intros (e & He & Hb). eexists. split; [apply in_map; exact He|]. cbn [fst snd]. now rewrite (proj1 (Hax e x y He)).
  - intros (e & He & Hb). apply in_map_iff in He. destruct He as (e0 & <- & He). exists e0. split; [exact He|].
    cbn [fst snd] in Hb. now rewrite (proj1 (Hax e0 x y He)) in Hb.
Qed.
Example C94_case :
  hilbertvert (0, 0) (8, 0, 0, 16) 1 = [(2, 4); (6, 4); (6, 12); (2, 12)] /\
  length (hilbertvert (0, 0) (64, 0, 0, 64) 3) = 64%nat /\
  match files (snd (savehilbertcurve2file "h" 5 5 1 24 7 1 1 0 (mkw nofiles []))) "h" with
  | Some b => rows b 5 5 24 = [[1; 1; 1; 1; 1]; [1; 7; 7; 7; 1]; [1; 1; 1; 7; 1]; [1; 7; 7; 7; 1]; [1; 1; 1; 1; 1]]
  | None => False end.
Proof. split; [vm_compute; reflexivity|]. split; vm_compute; reflexivity. Qed.
Print Assumptions C94_hilbert.
Print Assumptions C94_orientation.
Print Assumptions C94_orientation_refuted.
Print Assumptions C94_saved.

(** * C95 *)
(** Koch's curve of order n: 4^n + 1 points from u to v; at every level the three inner
    points of a segment are those [koch] gives for its ends. *)
Theorem C95_koch : forall (P : Type) (koch : P -> P -> P * P * P) (zero u v : P) n,
  let p := kochcurvevert koch zero u v n in
  length p = (4 ^ n + 1)%nat /\ nth 0 p zero = u /\ nth (4 ^ n) p zero = v /\
  forall k s, (k < n)%nat -> (s < 4 ^ k)%nat -> let q := (4 ^ (n - k - 1))%nat in
    koch (nth (s * (4 * q)) p zero) (nth ((s + 1) * (4 * q)) p zero) =
    (nth (s * (4 * q) + q) p zero, nth (s * (4 * q) + 2 * q) p zero, nth (s * (4 * q) + 3 * q) p zero).
Proof.
  intros P koch zero u v n. destruct (koch_ok koch zero u v n) as (A & B & C & D). cbn zeta.
  split; [exact A|]. split; [exact B|]. split; [exact C|]. intros k s Hk Hs.
  replace ((s + 1) * (4 * 4 ^ (n - k - 1)))%nat with (s * (4 * 4 ^ (n - k - 1)) + 4 * 4 ^ (n - k - 1))%nat by lia.
  now apply D.
Qed.
(** The snowflake: three curves over the sides of the triangle, end to end. *)
Theorem C95_snowflake : forall (P : Type) (koch : P -> P -> P * P * P) (zero a b c : P) n,
  let p := kochsnowflakevert koch zero a b c n in let m := (4 ^ n + 1)%nat in
  length p = (3 * m)%nat /\
  (forall i, (i < m)%nat -> nth i p zero = nth i (kochcurvevert koch zero a b n) zero /\
     nth (m + i) p zero = nth i (kochcurvevert koch zero b c n) zero /\
     nth (m + m + i) p zero = nth i (kochcurvevert koch zero c a n) zero).
Proof.
  intros P koch zero a b c n. cbn zeta.
  destruct (koch_ok koch zero a b n) as (A & _). destruct (koch_ok koch zero b c n) as (B & _). destruct (koch_ok koch zero c a n) as (C & _).
  unfold kochsnowflakevert. rewrite !app_length, A, B, C. split; [lia|]. intros i Hi.
  split; [now rewrite app_nth1 by lia|]. split.
  - rewrite app_nth2 by lia. rewrite app_nth1 by lia. f_equal. lia.
  - rewrite app_nth2 by lia. rewrite app_nth2 by lia. f_equal. lia.
Qed.
Example C95_case :
  kochcurvevert (fun u v => (u + (v - u) / 4, u + (v - u) / 2, u + 3 * (v - u) / 4)) 0 0 16 2 = range 0 17 /\
  kochcurvevert (fun u v => (10 * u + 1, 10 * u + 2, 10 * v + 3)) 0 5 7 1 = [5; 51; 52; 73; 7].
Proof. split; vm_compute; reflexivity. Qed.
Print Assumptions C95_koch.
Print Assumptions C95_snowflake.
