(** Properties C110-C112: visible sides, closed surfaces, surface plots. *)
From Coq Require Import ZArith List Bool Lia.
From Verif Require Import PyBase PyFacts Spec SpecShapes SpecSolids Bmp HeaderProofs IterProofs Geometry Fractal MathLib Solids SurfProofs SurfProofs2.
Import ListNotations.
Open Scope Z_scope.
Open Scope py_scope.

(** * C110 *)

(** the test of a side is the scalar product of its normal with its first vertex *)
Theorem C110_test : forall x1 y1 z1 x2 y2 z2 x3 y3 z3,
  let u := (x1, y1, z1) in let v := (x2, y2, z2) in let w := (x3, y3, z3) in
  surfacetest [x1; y1; z1] [x2; y2; z2] [x3; y3; z3] = Ok (- dot3 (normal u v w) u).
Proof. intros. exact (surfacetest_run u v w). Qed.
(** it does not depend on the vertex the side begins with; reversing the side reverses it *)
Theorem C110_order : forall x1 y1 z1 x2 y2 z2 x3 y3 z3,
  let p := [x1; y1; z1] in let q := [x2; y2; z2] in let r := [x3; y3; z3] in
  exists t, surfacetest p q r = Ok t /\ surfacetest q r p = Ok t /\ surfacetest r q p = Ok (- t).
Proof.
  intros. subst p q r. eexists. split; [reflexivity|]. split; cbn [surfacetest]; f_equal; ring.
Qed.
(** Exactly the sides with a test of at most 0 are kept, in their order, as the moved
    projected polygon and the normal. *)
Theorem C110_sides : forall (vs : list vec) ps tx ty sides, length ps = length vs ->
  (forall f, In f sides -> (3 <= length f)%nat /\ forall i, In i f -> 0 <= i < Z.of_nat (length vs)) ->
  exists kept, gensides (map (fun v => [fst (fst v); snd (fst v); snd v]) vs) ps (tx, ty) sides =
      Ok (map (map (fun i => (fst (nth (Z.to_nat i) ps (0, 0)) + tx, snd (nth (Z.to_nat i) ps (0, 0)) + ty))) (filter kept sides),
          map (fun f => match f with
                        | i :: j :: k :: _ => let at_ m := nth (Z.to_nat m) vs (0, 0, 0) in
                            let n := normal (at_ i) (at_ j) (at_ k) in [fst (fst n); snd (fst n); snd n]
                        | _ => [] end) (filter kept sides)) /\
    forall i j k t, let at_ m := nth (Z.to_nat m) vs (0, 0, 0) in
      kept (i :: j :: k :: t) = true <-> 0 <= dot3 (normal (at_ i) (at_ j) (at_ k)) (at_ i).
Proof.
  intros vs ps tx ty sides Hp Hs. exists (kept vs). split.
  - replace (map (fun v => [fst (fst v); snd (fst v); snd v]) vs) with (map listof vs) by (apply map_ext; intros ((a, b), c); reflexivity).
    rewrite gensides_run.
    + f_equal. f_equal. apply map_ext. intros [|i [|j [|k t]]]; cbn; try reflexivity. unfold vertex.
      now destruct (normal _ _ _) as ((a, b), c).
    + unfold zlen. now rewrite Hp.
    + intros f Hf. destruct (Hs f Hf) as [A B]. unfold zlen. split; [lia|exact B].
  - intros i j k t. cbn [kept]. unfold vertex. apply Z.leb_le.
Qed.
Theorem C110_index : forall vs ps t i j k r, item vs i = Err IndexError -> gensides vs ps t [i :: j :: k :: r] = Err IndexError.
Proof. intros. unfold gensides. cbn [fold_left rbind]. now rewrite H. Qed.
(** Of a solid with outward faces, turned and moved, the kept sides are those whose plane
    separates the solid from the viewer (at the origin), or contains the viewer. *)
Theorem C110_front : forall vs fs sr cr sp cp sy cy disp i j k t u v w, outward vs fs -> In (i :: j :: k :: t) fs ->
  nth_error vs (Z.to_nat i) = Some u -> nth_error vs (Z.to_nat j) = Some v -> nth_error vs (Z.to_nat k) = Some w ->
  0 < (sr * sr + cr * cr) * (sp * sp + cp * cp) * (sy * sy + cy * cy) ->
  let turn p := rotate ((sr, cr), (sp, cp), (sy, cy)) disp p in
  let n := normal (turn u) (turn v) (turn w) in
  (forall m z, nth_error vs m = Some z -> 0 <= dot3 n (minus3 (turn z) (turn u)) /\
     (dot3 n (minus3 (turn z) (turn u)) = 0 <-> In (Z.of_nat m) (i :: j :: k :: t))) /\
  exists s, surfacetest (let '(x, y, z) := turn u in [x; y; z]) (let '(x, y, z) := turn v in [x; y; z]) (let '(x, y, z) := turn w in [x; y; z]) = Ok s /\
    (s <= 0 <-> dot3 n (minus3 (0, 0, 0) (turn u)) <= 0).
Proof.
  intros vs fs sr cr sp cp sy cy disp i j k t u v w Ho Hf Eu Ev Ew Hk turn n.
  destruct (Ho _ Hf) as (i' & j' & k' & t' & u' & v' & w' & E & A & B & C & D). injection E as <- <- <- <-.
  rewrite Eu in A. rewrite Ev in B. rewrite Ew in C. injection A as <-. injection B as <-. injection C as <-. split.
  - intros m z Hz. destruct (D m z Hz) as [D1 D2].
    pose proof (rotate_normal ((sr, cr), (sp, cp), (sy, cy)) disp u v w z) as RN. unfold scale in RN. fold (turn u) (turn v) (turn w) (turn z) in RN. fold n in RN.
    rewrite RN. set (K := (sr * sr + cr * cr) * (sp * sp + cp * cp) * (sy * sy + cy * cy)) in *. set (d := dot3 (normal u v w) (minus3 z u)) in *.
    clearbody K d. split; [nia|]. rewrite <- D2. nia.
  - exists (- dot3 n (turn u)). split; [exact (surfacetest_run (turn u) (turn v) (turn w))|]. rewrite dot_minus. reflexivity.
Qed.
(** the hidden sides of the tetrahedron are kept, the visible ones left out: viewed from
    below, only the base is visible and only the base is missing *)
Theorem C110_tetrahedron_refuted : exists ps polys norms sides,
  sides = [[2; 1; 0]; [2; 3; 1]; [0; 3; 2]; [3; 0; 1]] /\ tetrahedra = sides /\
  gensides (map (fun p => match p with [x; y; z] => let '(a, b, c) := rotate ((0, 1), (0, 1), (0, 1)) (0, 0, 1000) (x, y, z) in [a; b; c] | _ => [] end)
    (tetrahedravert 10 14 12)) ps (0, 0) sides = Ok (polys, norms) /\ length polys = 3%nat /\
  (* the base [2; 1; 0] lies in the plane at distance 1000, the apex behind it at 1012 *)
  (forall poly, In poly polys -> In (nth 3 ps (0, 0)) poly).
Proof.
  exists [(0, 0); (1, 2); (3, 0); (2, 2)], [[(3, 0); (2, 2); (1, 2)]; [(0, 0); (2, 2); (3, 0)]; [(2, 2); (0, 0); (1, 2)]].
  eexists. eexists. split; [reflexivity|]. split; [reflexivity|]. split; [vm_compute; reflexivity|]. split; [reflexivity|].
  intros poly [<-|[<-|[<-|[]]]]; cbn; auto.
Qed.

(** a cube turned by an angle with tangent 3/4, viewed from the origin: three sides *)
Example C110_ex :
  gensides [[100; 20; 100]; [130; 60; 100]; [90; 90; 100]; [60; 50; 100]; [130; 60; 110]; [100; 20; 110]; [60; 50; 110]; [90; 90; 110]]
    [(0, 0); (1, 2); (3, 0); (2, 2); (4, 4); (5, 5); (6, 6); (7, 7)] (100, 0) cube =
  Ok ([[(101, 2); (103, 0); (102, 2); (100, 0)]; [(100, 0); (102, 2); (106, 6); (105, 5)]; [(103, 0); (107, 7); (106, 6); (102, 2)]],
      [[0; 0; 2500]; [300; 400; 0]; [400; -300; 0]]) /\
  map (fun p => match p with [x; y; z] => let '(a, b, c) := rotate ((3, 4), (0, 1), (0, 1)) (100, 20, 100) (x, y, z) in [a; b; c] | _ => [] end) (cubevert 10) =
    [[100; 20; 100]; [130; 60; 100]; [90; 90; 100]; [60; 50; 100]; [130; 60; 110]; [100; 20; 110]; [60; 50; 110]; [90; 90; 110]] /\
  0 < (3 * 3 + 4 * 4) * (0 * 0 + 1 * 1) * (0 * 0 + 1 * 1).
Proof. split; [vm_compute; reflexivity|]. split; [vm_compute; reflexivity|lia]. Qed.

(** * C111 *)

Lemma some_inj {A} (a b : A) : Some a = Some b -> a = b.
Proof. congruence. Qed.
Lemma ok_inj {A} (a b : A) : Ok a = Ok b -> a = b.
Proof. congruence. Qed.

(** the tables of faces have no border, and each edge belongs to two faces *)
Theorem C111_tables : forall fs, In fs [tetrahedra; cube; hexahedra; octahedra; decahedra; icosahedra] ->
  closed fs /\ simple fs.
Proof.
  intros fs H. cbn [In] in H. split; [apply closedb_sound|apply simpleb_sound];
    repeat (destruct H as [<-|H]; [vm_compute; reflexivity|]); destruct H.
Qed.
Theorem C111_cube : forall x, 0 < x -> exists vs, map (fun v => [fst (fst v); snd (fst v); snd v]) vs = cubevert x /\ outward vs cube.
Proof.
  intros x Hx. exists [(0, 0, 0); (0, x, 0); (x, x, 0); (x, 0, 0); (0, x, x); (0, 0, x); (x, 0, x); (x, x, x)]. split; [reflexivity|].
  intros f Hf. assert (P : 0 < x * x * x) by nia. cbn [cube In] in Hf.
  repeat (destruct Hf as [<-|Hf]; [do 7 eexists; split; [reflexivity|]; split; [reflexivity|]; split; [reflexivity|]; split; [reflexivity|];
    intros m z Hz; do 8 (destruct m as [|m]; [cbn [nth_error] in Hz; apply some_inj in Hz; subst z; cbv beta iota delta [dot3 normal cross3 minus3]; cbn [In Z.of_nat Pos.of_succ_nat Pos.succ];
      split; [lia|split; [intros K; try tauto; exfalso; lia|intros K; lia]]|]);
    destruct m; discriminate Hz|]).
  destruct Hf.
Qed.
Theorem C111_octahedron : forall x, 0 < x -> exists vs, map (fun v => [fst (fst v); snd (fst v); snd v]) vs = octahedravert x /\ outward vs octahedra.
Proof.
  intros x Hx. exists [(x, x, x); (0, 0, 0); (2 * x, 0, 0); (2 * x, 2 * x, 0); (0, 2 * x, 0); (x, x, - x)]. split; [reflexivity|].
  intros f Hf. assert (P : 0 < x * x * x) by nia. cbn [octahedra In] in Hf.
  repeat (destruct Hf as [<-|Hf]; [do 7 eexists; split; [reflexivity|]; split; [reflexivity|]; split; [reflexivity|]; split; [reflexivity|];
    intros m z Hz; do 6 (destruct m as [|m]; [cbn [nth_error] in Hz; apply some_inj in Hz; subst z; cbv beta iota delta [dot3 normal cross3 minus3]; cbn [In Z.of_nat Pos.of_succ_nat Pos.succ];
      split; [lia|split; [intros K; try tauto; exfalso; lia|intros K; lia]]|]);
    destruct m; discriminate Hz|]).
  destruct Hf.
Qed.
(** the faces of the tetrahedron and of the hexahedron are oriented inwards instead *)
Theorem C111_tetrahedron_refuted : forall h y z, 0 < h -> h < y -> 0 < z -> exists vs,
  map (fun v => [fst (fst v); snd (fst v); snd v]) vs = tetrahedravert h y z /\ inward vs tetrahedra.
Proof.
  intros h y q Hh Hy Hq. exists [(0, 0, 0); (h, y, 0); (2 * h, 0, 0); (h, h, q)]. split; [reflexivity|].
  intros f Hf. assert (Y : 0 < y) by lia. assert (P0 : 0 < h * q) by now apply Z.mul_pos_pos.
  assert (P1 : 0 < h * q * h) by now apply Z.mul_pos_pos. assert (P2 : 0 < h * q * (y - h)) by (apply Z.mul_pos_pos; lia). cbn [tetrahedra In] in Hf.
  repeat (destruct Hf as [<-|Hf]; [do 7 eexists; split; [reflexivity|]; split; [reflexivity|]; split; [reflexivity|]; split; [reflexivity|];
    intros m z Hz; do 4 (destruct m as [|m]; [cbn [nth_error] in Hz; apply some_inj in Hz; subst z; cbv beta iota delta [dot3 normal cross3 minus3]; cbn [In Z.of_nat Pos.of_succ_nat Pos.succ];
      split; [lia|split; [intros K; try tauto; exfalso; lia|intros K; lia]]|]);
    destruct m; discriminate Hz|]).
  destruct Hf.
Qed.
Theorem C111_hexahedron_refuted : forall h y z, 0 < h -> h < y -> 0 < z -> exists vs,
  map (fun v => [fst (fst v); snd (fst v); snd v]) vs = hexahedravert h y z /\ inward vs hexahedra.
Proof.
  intros h y q Hh Hy Hq. exists [(0, 0, 0); (h, y, 0); (2 * h, 0, 0); (h, h, q); (h, h, - q)]. split; [reflexivity|].
  intros f Hf. assert (Y : 0 < y) by lia. assert (P0 : 0 < h * q) by now apply Z.mul_pos_pos.
  assert (P1 : 0 < h * q * h) by now apply Z.mul_pos_pos. assert (P2 : 0 < h * q * (y - h)) by (apply Z.mul_pos_pos; lia). cbn [hexahedra In] in Hf.
  repeat (destruct Hf as [<-|Hf]; [do 7 eexists; split; [reflexivity|]; split; [reflexivity|]; split; [reflexivity|]; split; [reflexivity|];
    intros m z Hz; do 5 (destruct m as [|m]; [cbn [nth_error] in Hz; apply some_inj in Hz; subst z; cbv beta iota delta [dot3 normal cross3 minus3]; cbn [In Z.of_nat Pos.of_succ_nat Pos.succ];
      split; [lia|split; [intros K; try tauto; exfalso; lia|intros K; lia]]|]);
    destruct m; discriminate Hz|]).
  destruct Hf.
Qed.
(** ... and those of the sphere: with a step of 90 degrees *)
Theorem C111_sphere_refuted : forall r, 0 < r -> exists fs,
  genspheresurfaces (map snd (zlevelcoords [(0, 0, r); (r, 0, 0); (0, r, 0); (- r, 0, 0); (0, - r, 0); (0, 0, - r)])) = Ok fs /\ length fs = 8%nat /\
  inward [(0, 0, r); (r, 0, 0); (0, r, 0); (- r, 0, 0); (0, - r, 0); (0, 0, - r)] fs.
Proof.
  intros r Hr. exists [[0; 2; 1]; [5; 1; 2]; [0; 3; 2]; [5; 2; 3]; [0; 4; 3]; [5; 3; 4]; [0; 1; 4]; [5; 4; 1]]. split.
  - replace (map snd _) with [[0]; [1; 2; 3; 4]; [5]]; [reflexivity|].
    unfold zlevelcoords. cbn [fold_left fst snd]. unfold indexof, point3_eqb. cbn [fst snd].
    repeat (match goal with |- context [?a =? ?b] => first [replace (a =? b) with true by lia|replace (a =? b) with false by lia] end;
            cbn [andb addlevel app fst snd map]).
    reflexivity.
  - split; [reflexivity|]. intros f Hf. assert (P : 0 < r * r * r) by (repeat apply Z.mul_pos_pos; lia). cbn [In] in Hf.
    repeat (destruct Hf as [<-|Hf]; [do 7 eexists; split; [reflexivity|]; split; [reflexivity|]; split; [reflexivity|]; split; [reflexivity|];
    intros m z Hz; do 6 (destruct m as [|m]; [cbn [nth_error] in Hz; apply some_inj in Hz; subst z; cbv beta iota delta [dot3 normal cross3 minus3]; cbn [In Z.of_nat Pos.of_succ_nat Pos.succ];
      split; [lia|split; [intros K; try tauto; exfalso; lia|intros K; lia]]|]);
    destruct m; discriminate Hz|]).
    destruct Hf.
Qed.
(** Cylinders and cones with a step that divides 360: with the vertices a full turn apart
    at the same place, the surface has no border; it has these sides. *)
Theorem C111_cylinder : forall s n pos, 0 < s -> s * n = 360 -> (forall i, 0 <= i -> pos (i + 2 * n) = pos i) ->
  exists fs, cylindersurface s = Ok fs /\ closed (map (map pos) fs) /\ Z.of_nat (length fs) = n + 2 /\
    forall k, 1 <= k <= n -> In [2 * k + 2; 2 * k + 3; 2 * k + 1; 2 * k] fs.
Proof.
  intros s n pos Hs E Hp. destruct (cylinder_closed s n pos Hs E Hp) as (fs & R & C). exists fs. split; [exact R|]. split; [exact C|].
  rewrite (cylinder_run s n Hs E) in R. apply ok_inj in R; subst fs. split.
  - cbn [app length]. rewrite app_length, map_length. cbn [length]. unfold range. rewrite map_length, seq_length. nia.
  - intros k Hk. apply in_or_app. right. apply in_or_app. left. apply in_map_iff. exists k. split; [repeat (apply f_equal2; [lia|]); reflexivity|]. apply in_range. lia.
Qed.
Theorem C111_cone : forall s n pos, 0 < s -> s * n = 360 -> (forall i, 1 <= i -> pos (i + n) = pos i) ->
  exists fs, conesurface s = Ok fs /\ closed (map (map pos) fs) /\ Z.of_nat (length fs) = n + 1 /\
    forall k, 2 <= k <= n + 1 -> In [0; k + 1; k] fs.
Proof.
  intros s n pos Hs E Hp. destruct (cone_closed s n pos Hs E Hp) as (fs & R & C). exists fs. split; [exact R|]. split; [exact C|].
  rewrite (cone_run s n Hs E) in R. apply ok_inj in R; subst fs. split.
  - rewrite app_length, map_length. cbn [length]. unfold range. rewrite map_length, seq_length. nia.
  - intros k Hk. apply in_or_app. left. apply in_map_iff. exists k. split; [reflexivity|]. apply in_range. lia.
Qed.
Theorem C111_step_zero : cylindersurface 0 = Err ValueError /\ conesurface 0 = Err ValueError.
Proof. split; reflexivity. Qed.
(** a step that does not divide 360 leaves a hole; the place of vertex 2 k or 2 k + 1 is
    given by the angle 100 k, modulo a full turn *)
Theorem C111_cylinder_refuted : exists fs, cylindersurface 100 = Ok fs /\
  ~ closed (map (map (fun i => 2 * ((i / 2 * 100) mod 360) + i mod 2)) fs).
Proof. eexists. split; [vm_compute; reflexivity|]. intros C. specialize (C 200 0). vm_compute in C. discriminate C. Qed.
Theorem C111_sphere : forall north south t0 t1 rings n, rings <> [] -> (1 <= n)%nat -> (forall r, In r rings -> length r = n) ->
  exists fs, genspheresurfaces ((north :: t0) :: rings ++ [south :: t1]) = Ok fs /\ closed fs /\
    length fs = (n * (length rings + 1))%nat /\
    (forall i, (i < n)%nat -> let j := ((i + 1) mod n)%nat in
       In [north; nth j (hd [] rings) 0; nth i (hd [] rings) 0] fs /\ In [south; nth i (last rings []) 0; nth j (last rings []) 0] fs /\
       forall k, (S k < length rings)%nat -> let a := nth k rings [] in let b := nth (S k) rings [] in
         In [nth j b 0; nth i b 0; nth i a 0; nth j a 0] fs).
Proof.
  intros north south t0 t1 rings n N Hn Hr. exists (spherefaces north south (Z.of_nat n) rings).
  split; [apply sphere_run; auto; [lia|intros r H; unfold zlen; now rewrite (Hr r H)]|].
  split; [apply sphere_closed; auto; lia|].
  assert (L : forall {A B} (f : A -> list B) l c, (forall a, In a l -> length (f a) = c) -> length (List.concat (map f l)) = (length l * c)%nat).
  { clear. intros A B f l c H. induction l as [|a l IH]; [reflexivity|]. cbn [map List.concat length]. rewrite app_length, (H a (or_introl eq_refl)), IH by (intros; apply H; now right). reflexivity. }
  split.
  - unfold spherefaces. rewrite app_length.
    rewrite (L _ _ (fun i => [[north; rget (hd [] rings) (nxt (Z.of_nat n) i); rget (hd [] rings) i];
                              [south; rget (last rings []) i; rget (last rings []) (nxt (Z.of_nat n) i)]]) _ 2%nat) by reflexivity.
    rewrite (L _ _ _ _ n) by (intros; rewrite map_length; unfold range; rewrite map_length, seq_length; lia).
    unfold range. rewrite !map_length, !seq_length. destruct rings as [|r rings]; [contradiction|]. unfold zlen. cbn [length]. nia.
  - intros i Hi j. set (I := Z.of_nat i).
    assert (Ej : nxt (Z.of_nat n) I = Z.of_nat j).
    { unfold nxt, I, j. destruct (Z.eqb_spec (Z.of_nat i) (Z.of_nat n - 1)).
      - replace (i + 1)%nat with n by lia. now rewrite Nat.mod_same by lia.
      - rewrite Nat.mod_small by lia. lia. }
    assert (RI : forall r, rget r I = nth i r 0) by (intros; unfold rget, I; now rewrite Nat2Z.id).
    assert (RJ : forall r, rget r (nxt (Z.of_nat n) I) = nth j r 0) by (intros; unfold rget; now rewrite Ej, Nat2Z.id).
    assert (M : In I (range 0 (Z.of_nat n))) by (apply in_range; unfold I; lia).
    unfold spherefaces. split; [|split].
    + apply in_or_app. left. apply in_concat. eexists. split; [apply in_map_iff; exists I; split; [reflexivity|exact M]|]. left. now rewrite RI, RJ.
    + apply in_or_app. left. apply in_concat. eexists. split; [apply in_map_iff; exists I; split; [reflexivity|exact M]|]. right. left. now rewrite RI, RJ.
    + intros k Hk. apply in_or_app. right. apply in_concat. eexists.
      split; [apply in_map_iff; exists (Z.of_nat (S k)); split; [reflexivity|apply in_range; unfold zlen; lia]|].
      apply in_map_iff. exists I. split; [|exact M]. rewrite !RI, !RJ. rewrite Nat2Z.id.
      replace (Z.to_nat (Z.of_nat (S k) - 1)) with k by lia. reflexivity.
Qed.
Theorem C111_sphere_levels : forall l, genspheresurfaces [] = Err IndexError /\ genspheresurfaces [l] = Err IndexError.
Proof. intros [|a l]; split; reflexivity. Qed.
Example C111_ex :
  cylindersurface 120 = Ok [[8; 6; 4; 2; 0]; [4; 5; 3; 2]; [6; 7; 5; 4]; [8; 9; 7; 6]; [1; 3; 5; 7; 9]] /\
  conesurface 120 = Ok [[0; 3; 2]; [0; 4; 3]; [0; 5; 4]; [1; 2; 3; 4; 5]] /\
  (forall i, 0 <= i -> let pos i := 2 * ((i / 2 * 120) mod 360) + i mod 2 in pos (i + 2 * 3) = pos i) /\
  genspheresurfaces [[0]; [1; 4; 7]; [2; 5; 8]; [9]] =
    Ok [[0; 4; 1]; [9; 2; 5]; [0; 7; 4]; [9; 5; 8]; [0; 1; 7]; [9; 8; 2]; [5; 2; 1; 4]; [8; 5; 4; 7]; [2; 8; 7; 1]] /\
  runs cube 0 3 = 1%nat /\ runs cube 3 0 = 1%nat.
Proof.
  split; [reflexivity|]. split; [reflexivity|]. split.
  { intros i Hi. cbv beta zeta. change (2 * 3) with (3 * 2). rewrite Z.div_add, Z.mod_add by lia.
    replace ((i / 2 + 3) * 120) with (i / 2 * 120 + 1 * 360) by lia. now rewrite Z.mod_add by lia. }
  split; [reflexivity|]. split; reflexivity.
Qed.

(** * C112 *)

(** The vertices are the points of the graph over the grid, row by row, and the faces are
    the cells of the grid, each once. *)
Theorem C112_plot : forall x1 y1 x2 y2 step f m n, 0 < step -> 0 < m -> 0 <= n -> x2 - x1 = m * step -> y1 + (n - 1) * step < y2 <= y1 + n * step ->
  exists vs fs, surfplot3Dvertandsurface x1 y1 x2 y2 step f = Ok (vs, fs) /\ Z.of_nat (length vs) = n * m /\
    (forall r c, 0 <= r < n -> 0 <= c < m ->
       nth_error vs (Z.to_nat (r * m + c)) = Some (x1 + c * step, y1 + r * step, f (x1 + c * step) (y1 + r * step))) /\
    NoDup fs /\
    forall g, In g fs <-> exists r c, 0 <= r < n - 1 /\ 0 <= c < m - 1 /\
      g = [(r + 1) * m + c; (r + 1) * m + (c + 1); r * m + (c + 1); r * m + c].
Proof.
  intros x1 y1 x2 y2 step f m n Hs Hm Hn Ex Ey. eexists. eexists. split; [apply (surfplot_run x1 y1 x2 y2 step f m n); assumption|].
  assert (Hnm : 0 <= n * m) by nia.
  split; [unfold range; rewrite !map_length, seq_length; lia|]. split; [|split].
  - intros r c Hr Hc. assert (Hb : 0 <= r * m + c < n * m) by nia. unfold range. rewrite map_map.
    erewrite map_nth_error with (d := Z.to_nat (r * m + c)).
    + unfold gridpoint. rewrite Z.add_0_l, Z2Nat.id by lia. rewrite (Z.add_comm (r * m)), Z.div_add, Z.mod_add, Z.div_small, Z.mod_small by lia. reflexivity.
    + rewrite (nth_error_nth' _ 0%nat) by (rewrite seq_length; lia). rewrite seq_nth by lia. reflexivity.
  - assert (G : forall l, NoDup l -> NoDup (List.concat (map (fun i => if (i + m + 1 <=? n * m) && (i mod m <? m - 1) then [[i + m; i + m + 1; i + 1; i]] else []) l))).
    { induction l as [|i l IH]; intros D; [constructor|]. inversion D as [|? ? D1 D2]; subst. cbn [map List.concat].
      destruct ((i + m + 1 <=? n * m) && (i mod m <? m - 1)); [|exact (IH D2)]. cbn [app]. constructor; [|exact (IH D2)].
      intros K. apply in_concat in K. destruct K as (u & Hu & K). apply in_map_iff in Hu. destruct Hu as (k & <- & Hk).
      destruct ((k + m + 1 <=? n * m) && (k mod m <? m - 1)); [|destruct K]. destruct K as [K|[]]. injection K as _ _ _ K. subst k. contradiction. }
    apply G. unfold range. apply FinFun.Injective_map_NoDup; [intros a b K; lia|apply seq_NoDup].
  - intros g. rewrite in_concat. split.
    + intros (u & Hu & Hg). apply in_map_iff in Hu. destruct Hu as (i & <- & Hi). apply in_range in Hi.
      destruct ((i + m + 1 <=? n * m) && (i mod m <? m - 1)) eqn:B; [|destruct Hg]. destruct Hg as [<-|[]].
      apply andb_true_iff in B. destruct B as [B1 B2]. apply Z.leb_le in B1. apply Z.ltb_lt in B2.
      pose proof (Z.div_mod i m ltac:(lia)) as D. pose proof (Z.mod_pos_bound i m Hm) as Bd.
      exists (i / m), (i mod m). assert (0 <= i / m) by (apply Z.div_pos; lia).
      split; [split; [lia|nia]|]. split; [lia|]. repeat (apply f_equal2; [lia|]). reflexivity.
    + intros (r & c & Hr & Hc & ->). set (i := r * m + c).
      assert (Ei : i mod m = c) by (unfold i; rewrite Z.add_comm, Z.mod_add, Z.mod_small by lia; reflexivity).
      exists [[i + m; i + m + 1; i + 1; i]]. split.
      * apply in_map_iff. exists i. split.
        -- rewrite Ei. replace (i + m + 1 <=? n * m) with true by (symmetry; apply Z.leb_le; unfold i; nia).
           replace (c <? m - 1) with true by (symmetry; apply Z.ltb_lt; lia). reflexivity.
        -- apply in_range. unfold i. nia.
      * left. unfold i. repeat (apply f_equal2; [lia|]). reflexivity.
Qed.
(** The step must not be 0; one that exceeds the width is a division by 0. *)
Theorem C112_step_zero : forall x1 y1 x2 y2 f, surfplot3Dvertandsurface x1 y1 x2 y2 0 f = Err ValueError.
Proof. reflexivity. Qed.
Theorem C112_narrow : exists x1 y1 x2 y2 step f, x1 < x2 < x1 + step /\ y1 + step < y2 /\
  surfplot3Dvertandsurface x1 y1 x2 y2 step f = Err ZeroDivisionError.
Proof. exists 0, 0, 3, 9, 4, (fun x y => x + y). split; [lia|]. split; [lia|reflexivity]. Qed.
(** With a step that does not divide the width, faces join points that are not neighbours:
    here (0, 5) and (15, 5) are at the corners of one face of a plot in steps of 5. *)
Theorem C112_uneven_refuted : exists vs fs g, surfplot3Dvertandsurface 0 0 18 15 5 (fun x y => 0) = Ok (vs, fs) /\ In g fs /\
  exists i j, In i g /\ In j g /\ nth_error vs (Z.to_nat i) = Some (15, 0, 0) /\ nth_error vs (Z.to_nat j) = Some (0, 0, 0).
Proof.
  eexists. eexists. exists [3; 4; 1; 0]. split; [vm_compute; reflexivity|]. split; [cbn; auto|]. exists 3, 0.
  split; [cbn; auto|]. split; [cbn; auto|]. split; reflexivity.
Qed.
Example C112_ex : surfplot3Dvertandsurface 10 20 25 30 5 (fun x y => x * y) =
  Ok ([(10, 20, 200); (15, 20, 300); (20, 20, 400); (10, 25, 250); (15, 25, 375); (20, 25, 500)], [[3; 4; 1; 0]; [4; 5; 2; 1]]) /\
  25 - 10 = 3 * 5 /\ 20 + (2 - 1) * 5 < 30 <= 20 + 2 * 5.
Proof. split; [vm_compute; reflexivity|lia]. Qed.

Print Assumptions C110_test.
Print Assumptions C110_order.
Print Assumptions C110_sides.
Print Assumptions C110_index.
Print Assumptions C110_front.
Print Assumptions C110_tetrahedron_refuted.
Print Assumptions C111_tables.
Print Assumptions C111_cube.
Print Assumptions C111_octahedron.
Print Assumptions C111_tetrahedron_refuted.
Print Assumptions C111_hexahedron_refuted.
Print Assumptions C111_sphere_refuted.
Print Assumptions C111_cylinder.
Print Assumptions C111_cone.
Print Assumptions C111_step_zero.
Print Assumptions C111_cylinder_refuted.
Print Assumptions C111_sphere.
Print Assumptions C111_sphere_levels.
Print Assumptions C112_plot.
Print Assumptions C112_step_zero.
Print Assumptions C112_narrow.
Print Assumptions C112_uneven_refuted.
