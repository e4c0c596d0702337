(** Fractals in files, Newton's fractal, attractors (proofs). *)
From Coq Require Import ZArith String List Bool Lia.
From Verif Require Import PyBase PyFacts Spec Palette Bmp BmpFacts Raster PixelProofs HeaderProofs PalProofs PlotList
  Region Geometry Draw Circle Shapes ShapeProofs Files FileProofs Wrappers WrapProofs Fractal FractProofs FractProofs2.
Import ListNotations.
Open Scope Z_scope.
Open Scope py_scope.
Ltac Zify.zify_post_hook ::= Z.to_euclidean_division_equations.

(** what the palette of a new bitmap shows *)
Definition factors_ok (f : factors) (bits : Z) : Prop :=
  match f with
  | Three rnd _ => forall c, 0 <= c < 256 -> byte3 (rnd c)
  | Two mix c1 => 0 <= c1 < 2 ^ 24 /\ forall i, 0 <= i < 2 ^ bits -> byte3 (mix i (2 ^ bits))
  | Others => True
  end.
Definition factors_shown (f : factors) (bits : Z) (b : list Z) : Prop :=
  match f with
  | Three rnd _ => forall i, 0 <= i < 2 ^ bits ->
      pal_entry b i = rnd (((255 - i * (255 / (2 ^ bits - 1))) * 20) mod 256)
  | Two mix _ => forall i, 0 <= i < 2 ^ bits -> pal_entry b ((3 * (2 ^ bits - i)) mod 2 ^ bits) = mix i (2 ^ bits)
  | Others => exists pal, getdefaultbitpal bits = Ok pal /\ forall i, 0 <= i < 2 ^ bits -> pal_entry b i = nthpal pal i
  end.
Lemma nthpal_entry b w h bits pal i : wf b w h bits -> bits <> 24 -> getallRGBpal b = Ok pal -> 0 <= i < 2 ^ bits ->
  pal_entry b i = nthpal pal i.
Proof.
  intros W N G Hi. rewrite (getallRGBpal_ok _ _ _ _ W N) in G. injection G as G. rewrite <- G. unfold nthpal.
  rewrite (nth_indep _ _ (pal_entry b 0)).
  - rewrite map_nth. f_equal. unfold range. rewrite Z.sub_0_r. rewrite (nth_indep _ _ (0 + Z.of_nat 0)%Z) by (rewrite map_length, seq_length; lia).
    rewrite (map_nth (fun i : nat => 0 + Z.of_nat i)). rewrite seq_nth by lia. lia.
  - rewrite map_length. unfold range. rewrite map_length, seq_length. lia.
Qed.
Lemma nthpal_map (g : Z -> Z * Z * Z) n i : 0 <= i < n -> nthpal (map g (range 0 n)) i = g i.
Proof.
  intros Hi. unfold nthpal. rewrite (nth_indep _ _ (g 0)).
  - rewrite map_nth. f_equal. unfold range. rewrite Z.sub_0_r. rewrite (nth_indep _ _ (0 + Z.of_nat 0)%Z) by (rewrite map_length, seq_length; lia).
    rewrite (map_nth (fun i : nat => 0 + Z.of_nat i)). rewrite seq_nth by lia. lia.
  - rewrite map_length. unfold range. rewrite map_length, seq_length. lia.
Qed.

Lemma factorpal_run f b w h bits o : wf b w h bits -> bits <> 24 -> factors_ok f bits ->
  (exists pal, getdefaultbitpal bits = Ok pal /\ getallRGBpal b = Ok pal) ->
  exists b', factorpal f (mkst b o) = (Ok tt, mkst b' o) /\ wf b' w h bits /\ factors_shown f bits b' /\
    (forall i, i < 54 \/ data_off bits <= i -> getz b' i = getz b i) /\
    (forall x y, inside w h x y -> pixel b' w h bits x y = pixel b w h bits x y).
Proof.
  intros W N Hf (pal0 & D0 & G0). destruct f as [rnd mx|mix c1|]; cbn [factors_ok factorpal factors_shown] in *.
  - destruct (invshift_run b w h bits o rnd 20 0 W N Hf) as (b' & E & W' & G & F & P).
    exists b'. rewrite (bind_ok _ _ _ _ _ E). split; [reflexivity|]. split; [exact W'|]. split; [|auto].
    intros i Hi. rewrite (nthpal_entry _ _ _ _ _ i W' N G Hi), nthpal_map by exact Hi. now rewrite Z.add_0_r.
  - destruct Hf as [Hc Hm]. destruct (dichro_run b w h bits o mix c1 W N Hc Hm) as (b' & pal & E & W' & G & S & F & P).
    exists b'. rewrite (bind_ok _ _ _ _ _ E). auto.
  - exists b. split; [reflexivity|]. split; [exact W|]. split; [|auto]. exists pal0. split; [exact D0|].
    intros i Hi. now apply (nthpal_entry b w h bits).
Qed.

Lemma newpal_run x y bits f W : valid_depth bits -> 0 <= x < 2 ^ 24 -> 0 <= y < 2 ^ 24 -> (bits <> 24 -> factors_ok f bits) ->
  exists b, newBMPwithPAL x y bits f W = (Ok b, W) /\ wf b x y bits /\ (bits <> 24 -> factors_shown f bits b) /\
    (forall i j, inside x y i j -> pixel b x y bits i j = 0).
Proof.
  intros Hd Hx Hy Hf. destruct (newBMP_wf x y bits Hd Hx Hy) as (b & E & Wb & P & Pal & _).
  unfold newBMPwithPAL, fbind, flift. rewrite E. destruct (Z.ltb_spec bits 24) as [L|L].
  - assert (N : bits <> 24) by lia.
    destruct (factorpal_run f b x y bits (con W) Wb N (Hf N) (Pal N)) as (b' & E' & W' & S & F & P').
    exists b'. unfold callM. rewrite E'. cbn [files con mem out snd]. unfold fret. split; [destruct W; reflexivity|].
    split; [exact W'|]. split; [auto|]. intros i j Hi. rewrite P' by auto. now apply P.
  - exists b. split; [reflexivity|]. split; [exact Wb|]. split; [|exact P].
    intros N. exfalso. destruct Hd as [-> | [-> | [-> | ->]]]; lia.
Qed.

Lemma repainted_pal b b' w h bits g i : repainted b b' w h bits g -> bits <> 24 -> 0 <= i < 2 ^ bits ->
  pal_entry b' i = pal_entry b i.
Proof.
  intros R N Hi. destruct R as (W' & (L & H) & _).
  assert (D : data_off bits = 54 + 4 * 2 ^ bits).
  { unfold data_off. destruct (Z.eqb_spec bits 24); [contradiction|reflexivity]. }
  unfold pal_entry. rewrite !H by lia. reflexivity.
Qed.
Lemma shown_repainted f b b' w h bits g : repainted b b' w h bits g -> bits <> 24 -> factors_shown f bits b ->
  factors_shown f bits b'.
Proof.
  intros R N S. destruct f as [rnd mx|mix c1|]; cbn [factors_shown] in *.
  - intros i Hi. rewrite (repainted_pal _ _ _ _ _ _ i R N Hi). auto.
  - intros i Hi. rewrite (repainted_pal _ _ _ _ _ _ _ R N); [auto|]. apply Z.mod_pos_bound. lia.
  - destruct S as (pal & D & S). exists pal. split; [exact D|]. intros i Hi. rewrite (repainted_pal _ _ _ _ _ _ i R N Hi). auto.
Qed.

Lemma half_box_image w h x y : inside w h x y -> half_box 0 0 w h x y = true.
Proof. unfold inside, half_box. intros H. rewrite !andb_true_iff, !Z.leb_le, !Z.ltb_lt. lia. Qed.

Lemma savefractal_run val (v : Z -> Z -> Z) f file W w h bits :
  valid_depth bits -> 0 < w < 2 ^ 24 -> 0 < h < 2 ^ 24 -> (bits <> 24 -> factors_ok f bits) ->
  (forall x y, inside w h x y -> val x y = Ok (v x y) /\ fok f w h bits (v x y)) ->
  exists b W', savefractal2file val f file w h bits W = (Ok tt, W') /\ only_file W W' file b /\
    con W' = con W ++ [Mtext; Mdone] /\ wf b w h bits /\ (bits <> 24 -> factors_shown f bits b) /\
    forall x y, inside w h x y -> pixel b w h bits x y = fcolor f bits (v x y).
Proof.
  intros Hd Hw Hh Hf Hv. unfold savefractal2file. rewrite timer_run. set (W1 := mkw (files W) (con W ++ [Mtext])).
  destruct (newpal_run w h bits f W1 Hd ltac:(lia) ltac:(lia) Hf) as (b0 & E0 & W0 & S0 & P0).
  unfold fbind at 1. rewrite E0.
  destruct (fractal_run val v f b0 w h bits (con W1) 0 0 w h W0 ltac:(lia) ltac:(lia)) as (b & E & R).
  { intros x y Hb. apply Hv. unfold half_box in Hb. rewrite !andb_true_iff, !Z.leb_le, !Z.ltb_lt in Hb. unfold inside. lia. }
  { intros _ _. lia. }
  unfold fbind, callM. rewrite E. cbn [files con mem out snd]. unfold saveBMP. cbn [files con]. unfold W1. cbn [files con].
  eexists b, _. split; [reflexivity|]. split; [apply only_fput|]. cbn [con]. split; [rewrite <- app_assoc; reflexivity|].
  split; [apply R|]. split; [intros N; eapply shown_repainted; eauto|].
  intros x y Hi. rewrite (proj2 (proj2 R)) by exact Hi. now rewrite half_box_image.
Qed.

(** ** Newton's fractal *)
Section Newton.
  Context {R : Type} (near : R -> R -> bool) (val : Z -> Z -> res (option (R * Z))) (v : Z -> Z -> option (R * Z))
    (n : Z) (mix : Z -> Z -> Z) (w h bits : Z).
  Let step := fun roots p =>
    let '(x, y) := p in
    v <- lift (val x y) ;;
    match v with
    | None => ret roots
    | Some (rt, c) =>
        let '(roots, k) := match nearroot near rt roots with
                           | Some k => (roots, Z.of_nat k)
                           | None => (roots ++ [rt], zlen roots)
                           end in
        bb <- geti bmpcolorbits ;;
        (if bb =? 24 then
           if k <? n then plotxybit x y (mix k (((255 - c) * 20) mod 256)) else raise IndexError
         else plotxybit x y (2 ^ bits - 1 - c mod 2 ^ bits)) ;;;
        ret roots
    end.
  Definition distinct (rts : list R) : Prop :=
    forall i j d, (i < j < length rts)%nat -> near (nth i rts d) (nth j rts d) = false.
  Definition ncolor (k c : Z) : Z := if bits =? 24 then mix k (((255 - c) * 20) mod 256) else 2 ^ bits - 1 - c mod 2 ^ bits.
  Definition ncol (rts : list R) (b : list Z) (x y : Z) : Z :=
    match v x y with
    | None => pixel b w h bits x y
    | Some (rt, c) => match nearroot near rt rts with Some k => ncolor (Z.of_nat k) c | None => 0 end
    end.
  Context (Hmix : bits = 24 -> forall k l, 0 <= k < n -> 0 <= l < 256 -> 0 <= mix k l < 2 ^ 24).
  Context (Hrefl : forall x y rt c, v x y = Some (rt, c) -> near rt rt = true).

  Lemma nearroot_app rt l1 l2 k : nearroot near rt l1 = Some k -> nearroot near rt (l1 ++ l2) = Some k.
  Proof.
    revert k. induction l1 as [|t l IH]; intros k H; cbn [nearroot app] in *; [discriminate|].
    destruct (near t rt); [exact H|]. destruct (nearroot near rt l) as [k'|]; [|discriminate].
    now rewrite (IH k' eq_refl).
  Qed.
  Lemma nearroot_new rt l : nearroot near rt l = None -> near rt rt = true -> nearroot near rt (l ++ [rt]) = Some (length l).
  Proof.
    intros H Hr. induction l as [|t l IH]; cbn [nearroot app length] in *; [now rewrite Hr|].
    destruct (near t rt); [discriminate|]. destruct (nearroot near rt l); [discriminate|]. now rewrite IH.
  Qed.
  Lemma distinct_app rt l : distinct l -> nearroot near rt l = None -> distinct (l ++ [rt]).
  Proof.
    intros D H i j d Hij. rewrite app_length in Hij. cbn [length] in Hij.
    destruct (Nat.eq_dec j (length l)) as [->|N].
    - rewrite (app_nth2 l [rt] d (Nat.le_refl (length l))). rewrite Nat.sub_diag. cbn [nth]. rewrite app_nth1 by lia.
      apply (nearroot_none _ _ _ H), nth_In. lia.
    - rewrite !app_nth1 by lia. apply D. lia.
  Qed.
  Lemma ncolor_reduce k c : bits = 24 \/ bits = 1 \/ bits = 4 \/ bits = 8 -> reduce bits (ncolor k c) = ncolor k c.
  Proof.
    unfold reduce, ncolor. intros [-> | [-> | [-> | ->]]]; cbn [Z.eqb Pos.eqb]; auto.
    - change (2 ^ 1) with 2. destruct (Z.ltb_spec 0 (2 - 1 - c mod 2)); lia.
    - change (2 ^ 4) with 16. lia.
    - change (2 ^ 8) with 256. lia.
  Qed.

  Lemma newton_fold pts : (forall x y, In (x, y) pts -> val x y = Ok (v x y)) -> forall roots b o, wf b w h bits -> distinct roots ->
    exists ext, let rts := roots ++ ext in
      distinct rts /\ (forall r, In r ext -> exists x y c, In (x, y) pts /\ v x y = Some (r, c)) /\
      (forall x y rt c, In (x, y) pts -> v x y = Some (rt, c) -> exists k, nearroot near rt rts = Some k) /\
      (bits <> 24 \/ zlen rts <= n -> exists b', foldM step roots pts (mkst b o) = (Ok rts, mkst b' o) /\
         repainted b b' w h bits (fun x y => if pt_in pts x y then ncol rts b x y else pixel b w h bits x y)) /\
      (bits = 24 -> zlen roots <= n < zlen rts -> exists s', foldM step roots pts (mkst b o) = (Err IndexError, s')).
  Proof.
    induction pts as [|[x y] pts IH]; intros Hval roots b o W D.
    - exists []. cbn zeta. rewrite app_nil_r. split; [exact D|]. split; [intros r []|]. split; [intros ? ? ? ? []|]. split.
      + intros _. exists b. split; [reflexivity|]. now apply repainted_refl.
      + intros _ H. lia.
    - assert (Hval' : forall x y, In (x, y) pts -> val x y = Ok (v x y)) by (intros; apply Hval; cbn; auto).
      specialize (IH Hval').
      assert (Hn : forall rts, foldM step roots ((x, y) :: pts) (mkst b rts) =
                  (bind (step roots (x, y)) (fun a => foldM step a pts)) (mkst b rts)) by reflexivity.
      destruct (v x y) as [[rt c]|] eqn:Ev.
      2:{ (* no root here *)
        destruct (IH roots b o W D) as (ext & D1 & F1 & N1 & R1 & X1). exists ext. cbn zeta in *.
        assert (Es : step roots (x, y) (mkst b o) = (Ok roots, mkst b o)).
        { unfold step. rewrite (Hval x y) by (cbn; auto). rewrite Ev. reflexivity. }
        split; [exact D1|]. split. { intros r Hr. destruct (F1 r Hr) as (x0 & y0 & c0 & A & B). exists x0, y0, c0. cbn; auto. }
        split. { intros x0 y0 rt c [E|Hi] Hv; [inversion E; subst; congruence|eauto]. }
        split.
        - intros Hz. destruct (R1 Hz) as (b' & E & P). exists b'. rewrite Hn, (bind_ok _ _ _ _ _ Es). split; [exact E|].
          eapply repainted_ext; [|exact P]. intros x0 y0 _. cbn beta. unfold pt_in. cbn [existsb fst snd].
          destruct (Z.eqb_spec x x0) as [->|]; [destruct (Z.eqb_spec y y0) as [->|]|]; cbn [andb orb]; auto.
          unfold ncol. rewrite Ev. now destruct (existsb _ pts).
        - intros Hb Hz. rewrite Hn, (bind_ok _ _ _ _ _ Es). auto. }
      set (roots1 := match nearroot near rt roots with Some _ => roots | None => roots ++ [rt] end).
      set (k := match nearroot near rt roots with Some k => Z.of_nat k | None => zlen roots end).
      assert (D1 : distinct roots1).
      { unfold roots1. destruct (nearroot near rt roots) eqn:En; auto. now apply distinct_app. }
      assert (K1 : nearroot near rt roots1 = Some (Z.to_nat k)).
      { unfold roots1, k. destruct (nearroot near rt roots) eqn:En.
        - now rewrite Nat2Z.id.
        - rewrite (nearroot_new rt roots En (Hrefl _ _ _ _ Ev)). f_equal. unfold zlen. lia. }
      assert (Hk : 0 <= k < zlen roots1).
      { unfold k, roots1. destruct (nearroot near rt roots) as [q|] eqn:En.
        - destruct (nearroot_some near rt roots q rt En) as [Hq _]. unfold zlen. lia.
        - rewrite zlen_app. unfold zlen. cbn [length]. lia. }
      assert (Es : bits <> 24 \/ k < n -> exists b1, step roots (x, y) (mkst b o) = (Ok roots1, mkst b1 o) /\
          repainted b b1 w h bits (fun x' y' => if (x' =? x) && (y' =? y) then ncolor k c else pixel b w h bits x' y')).
      { intros Hor. pose proof (wf_depth _ _ _ _ W) as Dp.
        destruct (plot_any b w h bits o x y (ncolor k c) W) as (b1 & E & P).
        { intros Hb. unfold ncolor. replace (bits =? 24) with true by (symmetry; now apply Z.eqb_eq).
          apply Hmix; auto; [|apply Z.mod_pos_bound; lia]. destruct Hor as [Q|Q]; [contradiction|]. lia. }
        exists b1. unfold step. rewrite (Hval x y) by (cbn; auto). rewrite Ev.
        rewrite (bind_ok _ _ _ (Some (rt, c)) (mkst b o)) by reflexivity.
        replace (match nearroot near rt roots with Some k => (roots, Z.of_nat k) | None => (roots ++ [rt], zlen roots) end)
          with (roots1, k) by (unfold roots1, k; now destruct (nearroot near rt roots)).
        rewrite (bind_ok _ _ _ _ _ (wf_geti_bits _ _ _ _ W _)). split.
        - unfold ncolor in E. destruct (Z.eqb_spec bits 24) as [Hb|Hb].
          + destruct (Z.ltb_spec k n) as [Hl|Hl]; [|destruct Hor; [contradiction|lia]].
            rewrite (bind_ok _ _ _ _ _ E). reflexivity.
          + rewrite (bind_ok _ _ _ _ _ E). reflexivity.
        - rewrite (ncolor_reduce k c) in P by (clear - Dp; unfold valid_depth in Dp; tauto).
          exact P. }
      destruct (Z_lt_dec k n) as [Hkn|Hkn]; [|destruct (Z.eq_dec bits 24) as [Hb|Hb]].
      3:{ destruct (Es (or_introl Hb)) as (b1 & E1 & P1). (* IH below needs b1 *)
        destruct (IH roots1 b1 o (proj1 P1) D1) as (ext & D2 & F2 & N2 & R2 & X2).
        exists ((match nearroot near rt roots with Some _ => [] | None => [rt] end) ++ ext). cbn zeta in *.
        assert (Er : roots ++ ((match nearroot near rt roots with Some _ => [] | None => [rt] end) ++ ext) = roots1 ++ ext).
        { unfold roots1. destruct (nearroot near rt roots); [reflexivity|now rewrite app_assoc]. }
        rewrite Er. split; [exact D2|]. split.
        { intros r Hr. apply in_app_or in Hr. destruct Hr as [Hr|Hr].
          - destruct (nearroot near rt roots); [destruct Hr|]. destruct Hr as [<-|[]]. exists x, y, c. cbn; auto.
          - destruct (F2 r Hr) as (x0 & y0 & c0 & A & B). exists x0, y0, c0. cbn; auto. }
        split.
        { intros x0 y0 rt0 c0 [E|Hi] Hv; [|eauto]. inversion E; subst. rewrite Ev in Hv. inversion Hv; subst.
          eexists. apply nearroot_app. exact K1. }
        split; [|intros Q; contradiction].
        intros _. destruct (R2 (or_introl Hb)) as (b2 & E2 & P2). exists b2. rewrite Hn, (bind_ok _ _ _ _ _ E1). split; [exact E2|].
        eapply repainted_ext; [|eapply repainted_trans; [exact P1|exact P2]]. intros x0 y0 Hi. cbn beta.
        unfold pt_in. cbn [existsb fst snd].
        rewrite (proj2 (proj2 P1)) by exact Hi. rewrite (Z.eqb_sym x x0), (Z.eqb_sym y y0).
        unfold ncol. rewrite (proj2 (proj2 P1)) by exact Hi.
        destruct (Z.eqb_spec x0 x) as [->|]; [destruct (Z.eqb_spec y0 y) as [->|]|]; cbn [andb orb]; auto.
        rewrite Ev, (nearroot_app rt roots1 ext _ K1), Z2Nat.id by lia. now destruct (existsb _ pts). }
      + destruct (Es (or_intror Hkn)) as (b1 & E1 & P1).
        destruct (IH roots1 b1 o (proj1 P1) D1) as (ext & D2 & F2 & N2 & R2 & X2).
        exists ((match nearroot near rt roots with Some _ => [] | None => [rt] end) ++ ext). cbn zeta in *.
        assert (Er : roots ++ ((match nearroot near rt roots with Some _ => [] | None => [rt] end) ++ ext) = roots1 ++ ext).
        { unfold roots1. destruct (nearroot near rt roots); [reflexivity|now rewrite app_assoc]. }
        rewrite Er. split; [exact D2|]. split.
        { intros r Hr. apply in_app_or in Hr. destruct Hr as [Hr|Hr].
          - destruct (nearroot near rt roots); [destruct Hr|]. destruct Hr as [<-|[]]. exists x, y, c. cbn; auto.
          - destruct (F2 r Hr) as (x0 & y0 & c0 & A & B). exists x0, y0, c0. cbn; auto. }
        split.
        { intros x0 y0 rt0 c0 [E|Hi] Hv; [|eauto]. inversion E; subst. rewrite Ev in Hv. inversion Hv; subst.
          eexists. apply nearroot_app. exact K1. }
        split.
        * intros Hz. destruct (R2 Hz) as (b2 & E2 & P2). exists b2. rewrite Hn, (bind_ok _ _ _ _ _ E1). split; [exact E2|].
          eapply repainted_ext; [|eapply repainted_trans; [exact P1|exact P2]]. intros x0 y0 Hi. cbn beta.
          unfold pt_in. cbn [existsb fst snd].
          rewrite (proj2 (proj2 P1)) by exact Hi. rewrite (Z.eqb_sym x x0), (Z.eqb_sym y y0).
          unfold ncol. rewrite (proj2 (proj2 P1)) by exact Hi.
          destruct (Z.eqb_spec x0 x) as [->|]; [destruct (Z.eqb_spec y0 y) as [->|]|]; cbn [andb orb]; auto.
          rewrite Ev, (nearroot_app rt roots1 ext _ K1), Z2Nat.id by lia. now destruct (existsb _ pts).
        * intros Hb Hz. rewrite Hn, (bind_ok _ _ _ _ _ E1). apply X2; auto. split; [|lia].
          unfold roots1, k in *. destruct (nearroot near rt roots); [lia|]. rewrite zlen_app.
          change (zlen [rt]) with 1. lia.
      + (* too few factors: the fold stops here *)
        destruct (IH roots1 b o W D1) as (ext & D2 & F2 & N2 & _ & _).
        exists ((match nearroot near rt roots with Some _ => [] | None => [rt] end) ++ ext). cbn zeta in *.
        assert (Er : roots ++ ((match nearroot near rt roots with Some _ => [] | None => [rt] end) ++ ext) = roots1 ++ ext).
        { unfold roots1. destruct (nearroot near rt roots); [reflexivity|now rewrite app_assoc]. }
        rewrite Er. split; [exact D2|]. split.
        { intros r Hr. apply in_app_or in Hr. destruct Hr as [Hr|Hr].
          - destruct (nearroot near rt roots); [destruct Hr|]. destruct Hr as [<-|[]]. exists x, y, c. cbn; auto.
          - destruct (F2 r Hr) as (x0 & y0 & c0 & A & B). exists x0, y0, c0. cbn; auto. }
        split.
        { intros x0 y0 rt0 c0 [E|Hi] Hv; [|eauto]. inversion E; subst. rewrite Ev in Hv. inversion Hv; subst.
          eexists. apply nearroot_app. exact K1. }
        assert (n < zlen (roots1 ++ ext)). { rewrite zlen_app. pose proof (zlen_nonneg ext). lia. }
        split; [intros [Q|Q]; [contradiction|lia]|].
        intros _ _. exists (mkst b o). rewrite Hn. apply bind_err. unfold step.
        rewrite (Hval x y) by (cbn; auto). rewrite Ev. rewrite (bind_ok _ _ _ (Some (rt, c)) (mkst b o)) by reflexivity.
        replace (match nearroot near rt roots with Some k => (roots, Z.of_nat k) | None => (roots ++ [rt], zlen roots) end)
          with (roots1, k) by (unfold roots1, k; now destruct (nearroot near rt roots)).
        rewrite (bind_ok _ _ _ _ _ (wf_geti_bits _ _ _ _ W _)). rewrite (proj2 (Z.eqb_eq bits 24) Hb).
        destruct (Z.ltb_spec k n); [lia|]. reflexivity.
  Qed.

  Lemma newton_run b o x1 y1 x2 y2 : wf b w h bits -> x1 <> x2 -> y1 <> y2 ->
    (forall x y, half_box x1 y1 x2 y2 x y = true -> val x y = Ok (v x y)) ->
    exists rts, distinct rts /\
      (forall r, In r rts -> exists x y c, half_box x1 y1 x2 y2 x y = true /\ v x y = Some (r, c)) /\
      (forall x y rt c, half_box x1 y1 x2 y2 x y = true -> v x y = Some (rt, c) -> exists k, nearroot near rt rts = Some k) /\
      (bits <> 24 \/ zlen rts <= n ->
         exists b', newtonsfractal near val n mix x1 y1 x2 y2 (mkst b o) = (Ok rts, mkst b' o) /\
         repainted b b' w h bits (fun x y => if half_box x1 y1 x2 y2 x y then ncol rts b x y else pixel b w h bits x y)) /\
      (bits = 24 -> 0 <= n < zlen rts ->
         exists s', newtonsfractal near val n mix x1 y1 x2 y2 (mkst b o) = (Err IndexError, s')).
  Proof.
    intros W Hx Hy Hval. destruct (fractalpoints_spec x1 y1 x2 y2 Hx Hy) as (pts & Ep & Hp).
    assert (Hin : forall x y, In (x, y) pts <-> half_box x1 y1 x2 y2 x y = true).
    { intros x y. rewrite <- Hp, pt_in_iff. reflexivity. }
    destruct (newton_fold pts) with (roots := @nil R) (b := b) (o := o) as (rts & A & B & C & E & F); auto.
    { intros x y Hi. apply Hval. now apply Hin. }
    { intros i j d Hij. cbn in Hij. lia. }
    cbn [app] in *. exists rts. split; [exact A|].
    split. { intros r Hr. destruct (B r Hr) as (x & y & c & P & Q). exists x, y, c. split; [now apply Hin|exact Q]. }
    split. { intros x y rt c Hb. apply C. now apply Hin. }
    assert (Es : newtonsfractal near val n mix x1 y1 x2 y2 (mkst b o) = foldM step [] pts (mkst b o)).
    { unfold newtonsfractal. rewrite (bind_ok _ _ _ _ _ (run_rd _ _ _ _ (wf_rcolors _ _ _ _ W))). rewrite Ep.
      rewrite (bind_ok _ _ _ pts (mkst b o)) by reflexivity. reflexivity. }
    rewrite Es. split.
    - intros Hz. destruct (E Hz) as (b' & E' & R'). exists b'. split; [exact E'|]. eapply repainted_ext; [|exact R'].
      intros x y _. cbn beta. now rewrite Hp.
    - intros Hb Hz. apply F; auto.
  Qed.
End Newton.
