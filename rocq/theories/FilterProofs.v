(** 24-bit filters (proofs): buffers, then rectangles. *)
From Coq Require Import ZArith List Bool Lia.
From Verif Require Import PyBase PyFacts Spec Bmp BmpFacts PixelProofs Buffers Region Raster VertProofs RectProofs HorizProofs Filters.
Import ListNotations.
Open Scope Z_scope.
Open Scope py_scope.
Ltac Zify.zify_post_hook ::= Z.to_euclidean_division_equations.

(** ** one channel of a row of pixels *)
Lemma filteri_all f l : (forall i, f i = true) -> forall i, filteri_from f i l = l.
Proof. intros H. induction l; intros i; cbn [filteri_from]; auto. now rewrite H, IHl. Qed.
Lemma in_xslice_none s e k i : 0 < k -> stepcount s e k = 0 -> in_xslice s e k i = false.
Proof.
  intros Hk H. destruct (in_xslice s e k i) eqn:E; auto.
  apply in_xslice_spec in E; auto. destruct E as (j & Hj & _). lia.
Qed.

Section Chan.
  Variables (l : list Z) (c e m : Z).
  Hypothesis Hc : 0 <= c < 3.
  Hypothesis Hm : 0 <= m.
  Hypothesis He : 3 * (m - 1) + c < e <= 3 * m + c.
  Hypothesis He2 : 0 <= e <= zlen l.
  Hypothesis Hc2 : c <= zlen l.
  Lemma chan_count : stepcount c e 3 = m.
  Proof. apply stepcount_exact; lia. Qed.
  Lemma chan_len : zlen (py_xslice l c e 3) = m.
  Proof. rewrite zlen_xslice by lia. apply chan_count. Qed.
  Lemma chan_get i : 0 <= i < m -> getz (py_xslice l c e 3) i = getz l (3 * i + c).
  Proof. intros. rewrite getz_xslice by (rewrite ?chan_count; lia). f_equal. lia. Qed.
  Lemma chan_set v : zlen v = m -> bytes v -> bytes l ->
    exists l', py_xslice_set l c e 3 v = Ok l' /\ zlen l' = zlen l /\ bytes l' /\
      forall i, 0 <= i -> getz l' i = if (i mod 3 =? c) && (i <? 3 * m) then getz v (i / 3) else getz l i.
  Proof.
    intros Hv Bv Bl. pose proof chan_count as Cnt.
    destruct (Z.eqb_spec m 0) as [E0|N0].
    - exists l. split; [|repeat split; auto].
      + unfold py_xslice_set. change (3 =? 1) with false. cbv iota. rewrite !clampi_in by lia.
        replace (zlen v =? 0) with true by lia. cbn iota. f_equal. apply filteri_all. intros i.
        rewrite in_xslice_none by lia. reflexivity.
      + intros i Hi. rewrite E0. replace (i <? 3 * 0) with false by lia. rewrite andb_false_r. reflexivity.
    - destruct (py_xslice_set l c e 3 v) as [l'|x] eqn:E.
      2: { rewrite xslice_set_ok in E by lia. discriminate. }
      assert (G : forall i, 0 <= i -> getz l' i = if (i mod 3 =? c) && (i <? 3 * m) then getz v (i / 3) else getz l i).
      { intros i Hi. rewrite (getz_xslice_set l c e 3 v l' i) by (auto; lia).
        assert (Q : in_xslice c e 3 i = (i mod 3 =? c) && (i <? 3 * m)).
        { unfold in_xslice. clear - Hc He Hi. bcases; cbn [andb]; auto; lia. }
        rewrite Q. destruct ((i mod 3 =? c) && (i <? 3 * m)) eqn:Q2; auto. f_equal.
        apply andb_true_iff in Q2. destruct Q2 as [Q2 _]. apply Z.eqb_eq in Q2. lia. }
      exists l'. split; [reflexivity|]. split; [|split; [|exact G]].
      + apply (zlen_xslice_set l c e 3 v l'); auto; lia.
      + apply bytes_getz. intros i. destruct (Z.ltb_spec i 0); [rewrite getz_neg by lia; unfold byte; lia|].
        rewrite G by lia. destruct (_ && _); apply bytes_getz; auto.
  Qed.
End Chan.

(** ** functions on rows that work pixel by pixel; the last pixel of the row may
    be treated differently *)
Definition onbuf (f : list Z -> res (list Z)) (T : bool -> Z -> Z -> Z -> Z -> Z) : Prop :=
  forall v, bytes v -> zlen v mod 3 = 0 ->
    exists v', f v = Ok v' /\ bytes v' /\ zlen v' = zlen v /\
      forall i, 0 <= i < zlen v ->
        getz v' i = T (zlen v <=? 3 * (i / 3) + 3) (i mod 3)
                      (getz v (3 * (i / 3))) (getz v (3 * (i / 3) + 1)) (getz v (3 * (i / 3) + 2)).

Lemma zlen_means b : forall g r, zlen b = zlen g -> zlen b = zlen r -> zlen (means3 b g r) = zlen b.
Proof.
  induction b as [|a b IH]; intros g r H1 H2; [reflexivity|].
  destruct g as [|? g]; [rewrite zlen_cons, zlen_nil in H1; pose proof (zlen_nonneg b); lia|].
  destruct r as [|? r]; [rewrite zlen_cons, zlen_nil in H2; pose proof (zlen_nonneg b); lia|].
  cbn [means3]. rewrite !zlen_cons in *. rewrite IH; lia.
Qed.
Lemma getz_means b : forall g r i, zlen b = zlen g -> zlen b = zlen r -> 0 <= i < zlen b ->
  getz (means3 b g r) i = (getz b i + getz g i + getz r i) / 3.
Proof.
  induction b as [|a b IH]; intros g r i H1 H2 Hi; [unfold zlen in Hi; cbn in Hi; lia|].
  destruct g as [|? g]; [rewrite zlen_cons, zlen_nil in H1; pose proof (zlen_nonneg b); lia|].
  destruct r as [|? r]; [rewrite zlen_cons, zlen_nil in H2; pose proof (zlen_nonneg b); lia|].
  cbn [means3]. rewrite !zlen_cons in *. rewrite !getz_cons. destruct (Z.eqb_spec i 0); auto. apply IH; lia.
Qed.
Lemma bytes_zext l : (forall i, 0 <= i < zlen l -> byte (getz l i)) -> bytes l.
Proof.
  intros H. apply bytes_getz. intros i. destruct (Z.ltb_spec i 0); [rewrite getz_neg by lia; unfold byte; lia|].
  destruct (Z.ltb_spec i (zlen l)); [apply H; lia|]. rewrite getz_big by lia. unfold byte. lia.
Qed.

Definition Tmono (last : bool) (c b g r : Z) : Z := (b + g + r) / 3.
Lemma mono_onbuf : onbuf monochromefiltertoBGRbuf Tmono.
Proof.
  intros v Bv Hv. unfold monochromefiltertoBGRbuf.
  destruct (Z.eqb_spec (zlen v) 0) as [E0|N0].
  { apply zlen_0_nil in E0. subst v. exists []. repeat split; auto.
    intros i Hi. change (zlen []) with 0 in Hi. lia. }
  pose proof (zlen_nonneg v) as Hn. remember (zlen v / 3) as n eqn:En. assert (L : zlen v = 3 * n) by lia. clear Hv En.
  pose proof (chan_len v 0 (zlen v - 2) n ltac:(lia) ltac:(lia) ltac:(lia) ltac:(lia) ltac:(lia)) as L0.
  pose proof (chan_len v 1 (zlen v - 1) n ltac:(lia) ltac:(lia) ltac:(lia) ltac:(lia) ltac:(lia)) as L1.
  pose proof (chan_len v 2 (zlen v) n ltac:(lia) ltac:(lia) ltac:(lia) ltac:(lia) ltac:(lia)) as L2.
  pose proof (chan_get v 0 (zlen v - 2) n ltac:(lia) ltac:(lia) ltac:(lia) ltac:(lia) ltac:(lia)) as G0.
  pose proof (chan_get v 1 (zlen v - 1) n ltac:(lia) ltac:(lia) ltac:(lia) ltac:(lia) ltac:(lia)) as G1.
  pose proof (chan_get v 2 (zlen v) n ltac:(lia) ltac:(lia) ltac:(lia) ltac:(lia) ltac:(lia)) as G2.
  set (ms := means3 _ _ _).
  assert (Lm : zlen ms = n) by (unfold ms; rewrite zlen_means by lia; auto).
  assert (Gm : forall i, 0 <= i < n -> getz ms i = (getz v (3 * i) + getz v (3 * i + 1) + getz v (3 * i + 2)) / 3).
  { intros i Hi. unfold ms. rewrite getz_means by lia. rewrite G0, G1, G2 by lia. rewrite Z.add_0_r. reflexivity. }
  assert (Bm : bytes ms).
  { apply bytes_zext. intros i Hi. rewrite Gm by lia. pose proof (proj1 (bytes_getz v) Bv) as Hb.
    pose proof (Hb (3 * i)). pose proof (Hb (3 * i + 1)). pose proof (Hb (3 * i + 2)). unfold byte in *. lia. }
  clearbody ms. rewrite (py_array_ok ms Bm). cbn [rbind].
  destruct (chan_set v 0 (zlen v - 2) n ltac:(lia) ltac:(lia) ltac:(lia) ltac:(lia) ltac:(lia) ms Lm Bm Bv) as (a1 & E1 & A1 & A2 & A3).
  rewrite E1. cbn [rbind].
  destruct (chan_set a1 1 (zlen v - 1) n ltac:(lia) ltac:(lia) ltac:(lia) ltac:(lia) ltac:(lia) ms Lm Bm A2) as (a2 & E2 & C1 & C2 & C3).
  rewrite E2. cbn [rbind].
  destruct (chan_set a2 2 (zlen v) n ltac:(lia) ltac:(lia) ltac:(lia) ltac:(lia) ltac:(lia) ms Lm Bm C2) as (a3 & E3 & D1 & D2 & D3).
  exists a3. split; [exact E3|]. split; [exact D2|]. split; [lia|]. intros i Hi.
  rewrite D3, C3, A3 by lia. unfold Tmono. rewrite <- Gm by lia.
  assert (i mod 3 = 0 \/ i mod 3 = 1 \/ i mod 3 = 2) as Q by lia.
  replace (i <? 3 * n) with true by lia. rewrite !andb_true_r.
  destruct Q as [-> | [-> | ->]]; cbn [Z.eqb Pos.eqb]; reflexivity.
Qed.

Definition Tcolor (fr fg fb : Z -> Z) (last : bool) (c b g r : Z) : Z :=
  if last then (if c =? 0 then b else if c =? 1 then g else r)
  else (if c =? 0 then fb b else if c =? 1 then fg g else fr r).
Definition tobyte (f : Z -> Z) : Prop := forall v, byte v -> byte (f v).
Lemma bytes_map f v : tobyte f -> bytes v -> bytes (map f v).
Proof. intros Hf Hv. apply Forall_map. eapply Forall_impl; [|exact Hv]. exact Hf. Qed.
Lemma color_onbuf fr fg fb : tobyte fr -> tobyte fg -> tobyte fb -> onbuf (colorfiltertoBGRbuf fr fg fb) (Tcolor fr fg fb).
Proof.
  intros Hr Hg Hb v Bv Hv. unfold colorfiltertoBGRbuf.
  destruct (Z.eqb_spec (zlen v) 0) as [E0|N0].
  { apply zlen_0_nil in E0. subst v. exists []. repeat split; auto.
    intros i Hi. change (zlen []) with 0 in Hi. lia. }
  pose proof (zlen_nonneg v) as Hn. remember (zlen v / 3) as n eqn:En. assert (L : zlen v = 3 * n) by lia. clear Hv En.
  pose proof (chan_len v 0 (zlen v - 1 - 2) (n - 1) ltac:(lia) ltac:(lia) ltac:(lia) ltac:(lia) ltac:(lia)) as L0.
  pose proof (chan_len v 1 (zlen v - 1 - 1) (n - 1) ltac:(lia) ltac:(lia) ltac:(lia) ltac:(lia) ltac:(lia)) as L1.
  pose proof (chan_len v 2 (zlen v - 1) (n - 1) ltac:(lia) ltac:(lia) ltac:(lia) ltac:(lia) ltac:(lia)) as L2.
  pose proof (chan_get v 0 (zlen v - 1 - 2) (n - 1) ltac:(lia) ltac:(lia) ltac:(lia) ltac:(lia) ltac:(lia)) as G0.
  pose proof (chan_get v 1 (zlen v - 1 - 1) (n - 1) ltac:(lia) ltac:(lia) ltac:(lia) ltac:(lia) ltac:(lia)) as G1.
  pose proof (chan_get v 2 (zlen v - 1) (n - 1) ltac:(lia) ltac:(lia) ltac:(lia) ltac:(lia) ltac:(lia)) as G2.
  pose proof (bytes_xslice v 0 (zlen v - 1 - 2) 3 Bv) as B0. pose proof (bytes_xslice v 1 (zlen v - 1 - 1) 3 Bv) as B1.
  pose proof (bytes_xslice v 2 (zlen v - 1) 3 Bv) as B2.
  set (v0 := py_xslice v 0 (zlen v - 1 - 2) 3) in *. set (v1 := py_xslice v 1 (zlen v - 1 - 1) 3) in *.
  set (v2 := py_xslice v 2 (zlen v - 1) 3) in *. clearbody v0 v1 v2.
  apply (bytes_map fb) in B0; auto. apply (bytes_map fg) in B1; auto. apply (bytes_map fr) in B2; auto.
  rewrite !py_array_ok by auto. cbn [rbind].
  destruct (chan_set v 0 (zlen v - 1 - 2) (n - 1) ltac:(lia) ltac:(lia) ltac:(lia) ltac:(lia) ltac:(lia) (map fb v0) ltac:(rewrite zlen_map; auto) B0 Bv) as (a1 & E1 & A1 & A2 & A3).
  rewrite E1. cbn [rbind].
  destruct (chan_set a1 1 (zlen v - 1 - 1) (n - 1) ltac:(lia) ltac:(lia) ltac:(lia) ltac:(lia) ltac:(lia) (map fg v1) ltac:(rewrite zlen_map; auto) B1 A2) as (a2 & E2 & C1 & C2 & C3).
  rewrite E2. cbn [rbind].
  destruct (chan_set a2 2 (zlen v - 1) (n - 1) ltac:(lia) ltac:(lia) ltac:(lia) ltac:(lia) ltac:(lia) (map fr v2) ltac:(rewrite zlen_map; auto) B2 C2) as (a3 & E3 & D1 & D2 & D3).
  exists a3. split; [exact E3|]. split; [exact D2|]. split; [lia|]. intros i Hi.
  rewrite D3, C3, A3 by lia. unfold Tcolor.
  assert (Q : i mod 3 = 0 \/ i mod 3 = 1 \/ i mod 3 = 2) by lia.
  assert (QL : (i <? 3 * (n - 1)) = negb (zlen v <=? 3 * (i / 3) + 3)) by lia. rewrite QL.
  destruct (zlen v <=? 3 * (i / 3) + 3) eqn:QE; cbn [negb]; rewrite ?andb_false_r, ?andb_true_r.
  - destruct Q as [Q | [Q | Q]]; rewrite Q; cbn [Z.eqb Pos.eqb]; f_equal; lia.
  - destruct Q as [Q | [Q | Q]]; rewrite Q; cbn [Z.eqb Pos.eqb]; rewrite getz_map by lia; rewrite ?G0, ?G1, ?G2 by lia; do 2 f_equal; lia.
Qed.

Definition Tbright (g : Z -> Z) (last : bool) (c b gg r : Z) : Z :=
  Z.max 0 (Z.min 255 (g (if c =? 0 then b else if c =? 1 then gg else r))).
Lemma setminmax_spec v : setminmax v 0 255 = Z.max 0 (Z.min 255 v).
Proof. unfold setminmax. cbv zeta. destruct (Z.gtb_spec v 255); [|destruct (Z.ltb_spec v 0); lia]. cbn. lia. Qed.
Lemma chan_sel v i : 0 <= i -> (if i mod 3 =? 0 then getz v (3 * (i / 3)) else if i mod 3 =? 1 then getz v (3 * (i / 3) + 1) else getz v (3 * (i / 3) + 2)) = getz v i.
Proof.
  intros Hi. assert (Q : i mod 3 = 0 \/ i mod 3 = 1 \/ i mod 3 = 2) by lia.
  destruct Q as [Q | [Q | Q]]; rewrite Q; cbn [Z.eqb Pos.eqb]; f_equal; lia.
Qed.
Lemma bright_bytes g : tobyte (fun v => setminmax (g v) 0 255).
Proof. intros v _. cbn beta. rewrite setminmax_spec. unfold byte. lia. Qed.
Lemma bright_onbuf g : onbuf (applybrightnessadjtoBGRbuf g) (Tbright g).
Proof.
  intros v Bv Hv. unfold applybrightnessadjtoBGRbuf.
  rewrite py_array_ok by (apply bytes_map; auto using bright_bytes).
  eexists. split; [reflexivity|]. split; [apply bytes_map; auto using bright_bytes|]. split; [apply zlen_map|].
  intros i Hi. rewrite getz_map by lia. unfold Tbright. rewrite chan_sel by lia. apply setminmax_spec.
Qed.

(** ** loops over the pixels of a row *)
Lemma maxbyte_run v i : 0 <= i -> i + 3 <= zlen v ->
  maxbyte v i = Ok (Z.max (Z.max (getz v i) (getz v (i + 1))) (getz v (i + 2))).
Proof.
  intros Hi Hl. unfold maxbyte.
  assert (E : py_slice v i (i + 3) = [getz v i; getz v (i + 1); getz v (i + 2)]).
  { apply list_ext.
    - rewrite zlen_slice by lia. unfold zlen. cbn. lia.
    - intros j Hj. rewrite zlen_slice in Hj by lia. rewrite getz_slice by lia.
      assert (j = 0 \/ j = 1 \/ j = 2) as [-> | [-> | ->]] by lia; rewrite ?Z.add_0_r; reflexivity. }
  rewrite E. reflexivity.
Qed.

Section Every.
  Variable f : Z -> list Z -> res (list Z).
  Variable T : Z -> Z -> Z -> Z -> Z.
  Hypothesis Hf : forall v j, bytes v -> 0 <= j -> 3 * j + 3 <= zlen v ->
    exists v', f (3 * j) v = Ok v' /\ bytes v' /\ zlen v' = zlen v /\
      forall i, 0 <= i -> getz v' i =
        if i / 3 =? j then T (i mod 3) (getz v (3 * j)) (getz v (3 * j + 1)) (getz v (3 * j + 2)) else getz v i.
  Lemma every_steps v : bytes v -> forall n k : nat, zlen v = 3 * Z.of_nat n -> (k <= n)%nat ->
    exists v', fold_left (fun r i => let! buf := r in f i buf) (map (fun i => 0 + i * 3) (range 0 (Z.of_nat k))) (Ok v) = Ok v' /\
      bytes v' /\ zlen v' = zlen v /\
      forall i, 0 <= i -> getz v' i =
        if i / 3 <? Z.of_nat k then T (i mod 3) (getz v (3 * (i / 3))) (getz v (3 * (i / 3) + 1)) (getz v (3 * (i / 3) + 2)) else getz v i.
  Proof.
    intros Bv n. induction k as [|k IH]; intros Hn Hk.
    - exists v. repeat split; auto. intros i Hi. change (Z.of_nat 0) with 0. destruct (Z.ltb_spec (i / 3) 0); [lia|reflexivity].
    - destruct (IH Hn ltac:(lia)) as (v1 & E1 & B1 & L1 & G1).
      replace (Z.of_nat (S k)) with (Z.of_nat k + 1) by lia.
      rewrite range_snoc by lia. rewrite map_app, fold_left_app, E1. cbn [map fold_left rbind].
      destruct (Hf v1 (Z.of_nat k) B1 ltac:(lia) ltac:(lia)) as (v2 & E2 & B2 & L2 & G2).
      replace (0 + Z.of_nat k * 3) with (3 * Z.of_nat k) by lia.
      exists v2. split; [exact E2|]. split; [exact B2|]. split; [lia|].
      intros i Hi. rewrite G2 by lia. destruct (Z.eqb_spec (i / 3) (Z.of_nat k)) as [E|N].
      + replace (i / 3 <? Z.of_nat k + 1) with true by lia. rewrite E. rewrite !G1 by lia.
        replace (3 * Z.of_nat k / 3) with (Z.of_nat k) by lia.
        replace ((3 * Z.of_nat k + 1) / 3) with (Z.of_nat k) by lia.
        replace ((3 * Z.of_nat k + 2) / 3) with (Z.of_nat k) by lia.
        rewrite Z.ltb_irrefl. reflexivity.
      + rewrite G1 by lia. replace (i / 3 <? Z.of_nat k + 1) with (i / 3 <? Z.of_nat k) by lia. reflexivity.
  Qed.
  Lemma every_onbuf : onbuf (everypixel f) (fun _ => T).
  Proof.
    intros v Bv Hv. pose proof (zlen_nonneg v). unfold everypixel, range_step.
    assert (C : stepcount 0 (zlen v) 3 = zlen v / 3) by (apply stepcount_exact; lia). rewrite C.
    destruct (every_steps v Bv (Z.to_nat (zlen v / 3)) (Z.to_nat (zlen v / 3)) ltac:(lia) ltac:(lia)) as (v' & E & B & L & G).
    rewrite Z2Nat.id in E, G by lia. exists v'. split; [exact E|]. split; [exact B|]. split; [exact L|].
    intros i Hi. rewrite G by lia. replace (i / 3 <? zlen v / 3) with true by lia. reflexivity.
  Qed.
End Every.

(** three stores *)
Lemma set3_run v j (F : Z -> Z) : bytes v -> 0 <= j -> 3 * j + 3 <= zlen v -> (forall i, 3 * j <= i < 3 * j + 3 -> byte (F (getz v i))) ->
  exists v', (let! a := py_get v (3 * j) in
              let! v := py_set v (3 * j) (F a) in
              let! a := py_get v (3 * j + 1) in
              let! v := py_set v (3 * j + 1) (F a) in
              let! a := py_get v (3 * j + 2) in
              py_set v (3 * j + 2) (F a)) = Ok v' /\ bytes v' /\ zlen v' = zlen v /\
    forall i, 0 <= i -> getz v' i = if i / 3 =? j then F (getz v i) else getz v i.
Proof.
  intros Bv Hj Hl HF.
  rewrite (py_get_in v (3 * j)) by lia. cbn [rbind].
  rewrite (py_set_in v (3 * j)) by (try lia; apply HF; lia). cbn [rbind].
  rewrite (py_get_in _ (3 * j + 1)) by (rewrite zlen_upd; lia). cbn [rbind]. rewrite getz_upd by lia.
  replace (3 * j + 1 =? 3 * j) with false by lia.
  rewrite (py_set_in _ (3 * j + 1)) by (rewrite ?zlen_upd; try lia; apply HF; lia). cbn [rbind].
  rewrite (py_get_in _ (3 * j + 2)) by (rewrite !zlen_upd; lia). cbn [rbind]. rewrite !getz_upd by (rewrite ?zlen_upd; lia).
  replace (3 * j + 2 =? 3 * j) with false by lia. replace (3 * j + 2 =? 3 * j + 1) with false by lia.
  rewrite (py_set_in _ (3 * j + 2)) by (rewrite ?zlen_upd; try lia; apply HF; lia).
  eexists. split; [reflexivity|]. split; [|split].
  - apply bytes_upd; [apply bytes_upd; [apply bytes_upd|]|]; auto; apply HF; lia.
  - now rewrite !zlen_upd.
  - intros i Hi. rewrite !getz_upd by (rewrite ?zlen_upd; lia).
    destruct (Z.eqb_spec (i / 3) j).
    + assert (i = 3 * j \/ i = 3 * j + 1 \/ i = 3 * j + 2) as [-> | [-> | ->]] by lia; bcases; auto; lia.
    + replace (i =? 3 * j + 2) with false by lia. replace (i =? 3 * j + 1) with false by lia.
      replace (i =? 3 * j) with false by lia. reflexivity.
Qed.

Definition sel (c b g r : Z) : Z := if c =? 0 then b else if c =? 1 then g else r.
Definition max3 (b g r : Z) : Z := Z.max (Z.max b g) r.
Definition Tgamma (g : Z -> Z -> Z) (c b gg r : Z) : Z :=
  (g (Z.max 1 (max3 b gg r)) (sel c b gg r)) mod 256.
Lemma land255 v : Z.land v 255 = v mod 256.
Proof. change 255 with (Z.ones 8). rewrite Z.land_ones by lia. reflexivity. Qed.
Lemma sel_get v i j : 0 <= i -> i / 3 = j -> sel (i mod 3) (getz v (3 * j)) (getz v (3 * j + 1)) (getz v (3 * j + 2)) = getz v i.
Proof. intros Hi <-. unfold sel. now apply chan_sel. Qed.
Lemma gamma_onbuf g : onbuf (gammaBGRbuf g) (fun _ => Tgamma g).
Proof.
  apply every_onbuf. intros v j Bv Hj Hl. rewrite maxbyte_run by lia. cbn [rbind].
  fold (max3 (getz v (3 * j)) (getz v (3 * j + 1)) (getz v (3 * j + 2))).
  assert (M0 : 0 <= max3 (getz v (3 * j)) (getz v (3 * j + 1)) (getz v (3 * j + 2))).
  { pose proof (proj1 (bytes_getz v) Bv (3 * j)) as Hb. unfold byte in Hb. unfold max3. clear - Hb. lia. }
  set (lum := max3 _ _ _) in *.
  assert (EL : (if lum =? 0 then 1 else lum) = Z.max 1 lum) by (clear - M0; destruct (Z.eqb_spec lum 0); lia).
  rewrite EL. set (lm := Z.max 1 lum).
  destruct (set3_run v j (fun a => Z.land (g lm a) 255) Bv Hj Hl) as (v' & E & B & L & G).
  { intros i _. cbn beta. rewrite land255. unfold byte. lia. }
  exists v'. split; [exact E|]. split; [exact B|]. split; [exact L|].
  intros i Hi. rewrite G by lia. destruct (Z.eqb_spec (i / 3) j) as [E2|]; auto.
  unfold Tgamma. rewrite (sel_get v i j) by auto. fold lum. fold lm. apply land255.
Qed.

(** which limit the brightest channel is moved to *)
Definition target (l0 l1 lum : Z) : option Z :=
  let lo := Z.min (l0 mod 256) (l1 mod 256) in let hi := Z.max (l0 mod 256) (l1 mod 256) in
  if lum <=? 0 then None else if hi <? lum then Some hi else if lum <? lo then Some lo else None.
Definition Tthresh (g : Z -> Z -> Z -> Z) (l0 l1 c b gg r : Z) : Z :=
  match target l0 l1 (max3 b gg r) with
  | None => sel c b gg r
  | Some t => g t (max3 b gg r) (sel c b gg r)
  end.
Lemma max3_le b g r c : 0 <= c < 3 -> sel c b g r <= max3 b g r.
Proof.
  intros Hc. unfold sel, max3. destruct (Z.eqb_spec c 0); [lia|]. destruct (Z.eqb_spec c 1); lia.
Qed.
Lemma thresh_onbuf g l0 l1 : (forall t lum v, byte t -> 0 <= v <= lum -> 0 < lum < 256 -> byte (g t lum v)) ->
  onbuf (applythresholdadjtoBGRbuf g l0 l1) (fun _ => Tthresh g l0 l1).
Proof.
  intros Hg. unfold applythresholdadjtoBGRbuf. rewrite !land255.
  assert (ES : swapif (l0 mod 256) (l1 mod 256) (l0 mod 256 >? l1 mod 256) =
               (Z.min (l0 mod 256) (l1 mod 256), Z.max (l0 mod 256) (l1 mod 256))).
  { unfold swapif. set (a := l0 mod 256). set (b := l1 mod 256). clearbody a b. clear.
    destruct (Z.gtb_spec a b); f_equal; lia. }
  rewrite ES. unfold Tthresh, target.
  assert (Blo : byte (Z.min (l0 mod 256) (l1 mod 256))).
  { unfold byte. assert (0 <= l0 mod 256 < 256) by lia. assert (0 <= l1 mod 256 < 256) by lia.
    set (a := l0 mod 256) in *. set (b := l1 mod 256) in *. clearbody a b. clear - H H0. lia. }
  assert (Bhi : byte (Z.max (l0 mod 256) (l1 mod 256))).
  { unfold byte. assert (0 <= l0 mod 256 < 256) by lia. assert (0 <= l1 mod 256 < 256) by lia.
    set (a := l0 mod 256) in *. set (b := l1 mod 256) in *. clearbody a b. clear - H H0. lia. }
  set (lo := Z.min _ _) in *. set (hi := Z.max _ _) in *. clearbody lo hi. clear ES.
  cbv beta iota. apply every_onbuf.
  intros v j Bv Hj Hl. rewrite maxbyte_run by lia. cbn [rbind].
  fold (max3 (getz v (3 * j)) (getz v (3 * j + 1)) (getz v (3 * j + 2))).
  pose proof (proj1 (bytes_getz v) Bv) as Hb.
  assert (ML : max3 (getz v (3 * j)) (getz v (3 * j + 1)) (getz v (3 * j + 2)) < 256).
  { pose proof (Hb (3 * j)) as H1. pose proof (Hb (3 * j + 1)) as H2. pose proof (Hb (3 * j + 2)) as H3. unfold byte in *.
    unfold max3. clear - H1 H2 H3. lia. }
  assert (MX : forall i, 3 * j <= i < 3 * j + 3 -> 0 <= getz v i <= max3 (getz v (3 * j)) (getz v (3 * j + 1)) (getz v (3 * j + 2))).
  { intros i Hi. split; [apply Hb|]. rewrite <- (sel_get v i j) by lia. apply max3_le. lia. }
  set (lum := max3 _ _ _) in *. rewrite !Z.gtb_ltb.
  replace (lum <=? 0) with (negb (0 <? lum)) by (clear; lia).
  destruct (Z.ltb_spec 0 lum) as [L0|L0]; cbn [negb].
  2: { exists v. repeat split; auto. intros i Hi. destruct (Z.eqb_spec (i / 3) j) as [E|]; auto.
       fold lum. replace (0 <? lum) with false by (clear - L0; lia). cbn [negb]. symmetry. now apply sel_get. }
  assert (Step : forall t, byte t -> exists v', (let! a := py_get v (3 * j) in
              let! v := py_set v (3 * j) (g t lum a) in
              let! a := py_get v (3 * j + 1) in
              let! v := py_set v (3 * j + 1) (g t lum a) in
              let! a := py_get v (3 * j + 2) in
              py_set v (3 * j + 2) (g t lum a)) = Ok v' /\ bytes v' /\ zlen v' = zlen v /\
      forall i, 0 <= i -> getz v' i = if i / 3 =? j then g t lum (sel (i mod 3) (getz v (3 * j)) (getz v (3 * j + 1)) (getz v (3 * j + 2))) else getz v i).
  { intros t Ht. destruct (set3_run v j (fun a => g t lum a) Bv Hj Hl) as (v' & E & B & L & G).
    { intros i Hi. apply Hg; auto. }
    exists v'. split; [exact E|]. split; [exact B|]. split; [exact L|]. intros i Hi. rewrite G by lia.
    destruct (Z.eqb_spec (i / 3) j) as [E2|]; auto. now rewrite (sel_get v i j). }
  destruct (Z.ltb_spec hi lum) as [L1|L1].
  { destruct (Step hi Bhi) as (v' & E & B & L & G). exists v'. split; [exact E|]. split; [exact B|]. split; [exact L|].
    intros i Hi. rewrite G by lia. fold lum. replace (0 <? lum) with true by (clear - L0; lia).
    replace (hi <? lum) with true by (clear - L1; lia). reflexivity. }
  destruct (Z.ltb_spec lum lo) as [L2|L2].
  { destruct (Step lo Blo) as (v' & E & B & L & G). exists v'. split; [exact E|]. split; [exact B|]. split; [exact L|].
    intros i Hi. rewrite G by lia. fold lum. replace (0 <? lum) with true by (clear - L0; lia).
    replace (hi <? lum) with false by (clear - L1; lia). replace (lum <? lo) with true by (clear - L2; lia). reflexivity. }
  exists v. repeat split; auto. intros i Hi. destruct (Z.eqb_spec (i / 3) j) as [E|]; auto.
  fold lum. replace (0 <? lum) with true by (clear - L0; lia).
  replace (hi <? lum) with false by (clear - L1; lia). replace (lum <? lo) with false by (clear - L2; lia).
  cbn [negb]. symmetry. now apply sel_get.
Qed.

(** ** rectangles *)
(** the pixel a pixelwise function makes of pixel p *)
Definition Tpix (T : bool -> Z -> Z -> Z -> Z -> Z) (last : bool) (p : Z) : Z :=
  let b := p mod 256 in let g := p / 256 mod 256 in let r := p / 65536 in
  T last 0 b g r + 256 * T last 1 b g r + 65536 * T last 2 b g r.

Lemma guard24_true {A} b w h o x1 y1 x2 y2 (f : M A) : wf b w h 24 ->
  inside w h x1 y1 -> inside w h x2 y2 ->
  func24bitonlyandentirerectinboundary x1 y1 x2 y2 f (mkst b o) = withSome f (mkst b o).
Proof.
  intros W I1 I2. unfold func24bitonlyandentirerectinboundary.
  rewrite (bind_ok _ _ _ _ _ (wf_geti_bits _ _ _ _ W o)). cbn [Z.eqb Pos.eqb negb].
  rewrite (bind_ok _ _ _ _ _ (run_rd _ _ _ _ (wf_inbnd_true _ _ _ _ W _ _ I1))).
  rewrite (bind_ok _ _ _ _ _ (run_rd _ _ _ _ (wf_inbnd_true _ _ _ _ W _ _ I2))). reflexivity.
Qed.
Lemma guard24_depth {A} b w h bits o x1 y1 x2 y2 (f : M A) : wf b w h bits -> bits <> 24 ->
  func24bitonlyandentirerectinboundary x1 y1 x2 y2 f (mkst b o) = (Ok None, mkst b (o ++ [Mnot24bit])).
Proof.
  intros W N. unfold func24bitonlyandentirerectinboundary.
  rewrite (bind_ok _ _ _ _ _ (wf_geti_bits _ _ _ _ W o)).
  rewrite (proj2 (Z.eqb_neq bits 24) N). reflexivity.
Qed.
Lemma guard24_false {A} b w h o x1 y1 x2 y2 (f : M A) : wf b w h 24 ->
  ~ (inside w h x1 y1 /\ inside w h x2 y2) ->
  func24bitonlyandentirerectinboundary x1 y1 x2 y2 f (mkst b o) = (Ok None, mkst b (o ++ [Mregionoutofbounds])).
Proof.
  intros W N. unfold func24bitonlyandentirerectinboundary.
  rewrite (bind_ok _ _ _ _ _ (wf_geti_bits _ _ _ _ W o)). cbn [Z.eqb Pos.eqb negb].
  rewrite (bind_ok _ _ _ _ _ (run_rd _ _ _ _ (wf_inbnd _ _ _ _ W x1 y1))).
  rewrite (bind_ok _ _ _ _ _ (run_rd _ _ _ _ (wf_inbnd _ _ _ _ W x2 y2))).
  destruct (_ && _) eqn:E; auto. exfalso. apply N.
  rewrite !andb_true_iff, !Z.gtb_lt, !Z.ltb_lt in E. unfold inside. lia.
Qed.

(** pixels of a row whose bytes are given pixel by pixel *)
Lemma rowpix24_T T last G x (C : Z -> Z) : (forall k, byte (C k)) ->
  (forall c, 0 <= c < 3 -> G (3 * x + c) = T last c (C (3 * x)) (C (3 * x + 1)) (C (3 * x + 2))) ->
  rowpix 24 G x = Tpix T last (rowpix 24 C x).
Proof.
  intros HC HG. unfold Tpix, rowpix. cbn [Z.eqb Pos.eqb].
  pose proof (HC (3 * x)) as H0. pose proof (HC (3 * x + 1)) as H1. pose proof (HC (3 * x + 2)) as H2. unfold byte in *.
  rewrite <- (Z.add_0_r (3 * x)) at 1. rewrite !HG by lia.
  set (p := C (3 * x)) in *. set (q := C (3 * x + 1)) in *. set (r := C (3 * x + 2)) in *. clearbody p q r.
  replace ((p + 256 * q + 65536 * r) mod 256) with p by lia.
  replace ((p + 256 * q + 65536 * r) / 256 mod 256) with q by lia.
  replace ((p + 256 * q + 65536 * r) / 65536) with r by lia. reflexivity.
Qed.

(** a row segment [k, k+3n) replaced by a pixelwise function of itself *)
Lemma seg_T T (C G : Z -> Z) xa xb x buf buf' n : (forall k, byte (C k)) -> n = 3 * (xb - xa + 1) ->
  zlen buf = n ->
  (forall i, 0 <= i < n -> getz buf i = C (3 * xa + i)) ->
  (forall i, 0 <= i < zlen buf -> getz buf' i = T (zlen buf <=? 3 * (i / 3) + 3) (i mod 3)
                      (getz buf (3 * (i / 3))) (getz buf (3 * (i / 3) + 1)) (getz buf (3 * (i / 3) + 2))) ->
  (forall k, 0 <= k -> G k = if incols (3 * xa) n k then getz buf' (k - 3 * xa) else C k) ->
  0 <= xa -> 0 <= x -> xa <= x <= xb ->
  rowpix 24 G x = Tpix T (x =? xb) (rowpix 24 C x).
Proof.
  intros HC Hn Hl Hb Hb' HG Ha H0 Hx. apply rowpix24_T; auto.
  intros c Hc. rewrite HG by lia.
  replace (incols (3 * xa) n (3 * x + c)) with true by (unfold incols; lia).
  rewrite Hb' by lia. rewrite !Hb by lia. rewrite Hl.
  replace (n <=? 3 * ((3 * x + c - 3 * xa) / 3) + 3) with (x =? xb) by lia.
  f_equal; [lia|f_equal; lia|f_equal; lia|f_equal; lia].
Qed.
Lemma filt_row_ext (C G : Z -> Z) x : (forall c, 0 <= c < 3 -> G (3 * x + c) = C (3 * x + c)) ->
  rowpix 24 G x = rowpix 24 C x.
Proof.
  intros H. unfold rowpix. cbn [Z.eqb Pos.eqb]. rewrite <- (Z.add_0_r (3 * x)) at 1.
  rewrite !H by lia. now rewrite Z.add_0_r.
Qed.

Definition rowsdone (xa xb ylo yhi x y : Z) : bool :=
  ((xa <=? x) && (x <=? xb)) && ((ylo <? y) && (y <=? yhi)).
Section RectFilter.
  Variables (b : list Z) (w h x1 y1 x2 y2 : Z).
  Hypothesis W : wf b w h 24.
  Hypothesis I1 : inside w h x1 y1.
  Hypothesis I2 : inside w h x2 y2.
  Let xa := lo x1 x2. Let xb := hi x1 x2. Let ya := lo y1 y2. Let yb := hi y1 y2.

  (** [f i]: the function used for the i-th row from below; the accumulator of the
      loop holds the offset and perhaps i *)
  Lemma rectfilter_run {B} o (f : Z -> list Z -> res (list Z)) (T : Z -> bool -> Z -> Z -> Z -> Z -> Z)
      (enc : Z -> Z -> B) (body : B -> list Z -> M B) :
    (forall off i buf s, body (enc off i) buf s =
       (a <- lift (f i buf) ;; BMPbitBLTput off a ;;; ret (enc (off + stride w 24) (i + 1))) s) ->
    (forall i, 0 <= i <= yb - ya -> onbuf (f i) (T i)) ->
    exists b' q, itercopyrect own xa ya xb yb (enc (baddr w h 24 xa yb - data_off 24) 0) body (mkst b o) = (Ok q, mkst b' o) /\
      repainted b b' w h 24 (fun x y =>
        if in_rect x1 y1 x2 y2 x y then Tpix (T (yb - y)) (x =? xb) (pixel b w h 24 x y)
        else pixel b w h 24 x y).
  Proof.
    intros HB Hf.
    assert (Hxy : 0 <= xa <= xb /\ xb < w /\ 0 <= ya <= yb /\ yb < h)
      by (unfold inside, xa, xb, ya, yb, lo, hi in *; lia).
    pose proof (aligned_8_24 24 xa xb ltac:(lia)) as HA.
    destruct (aligned_fit w 24 xa xb (wf_depth _ _ _ _ W)) as (F1 & F2 & F3); try lia.
    replace (xa * 24 / 8) with (3 * xa) in * by (clear; lia).
    replace ((xb + 1) * 24 / 8) with (3 * xb + 3) in * by (clear; lia).
    remember (3 * xb + 3 - 3 * xa) as n eqn:En.
    destruct (itercopyrect_inv own mem w h 24 xa ya xb yb
      (fun i p s => p = enc ((h - 1 - (yb - i)) * stride w 24 + 3 * xa) i /\ exists b', s = mkst b' o /\
         wf b' w h 24 /\ same_header b b' 24 /\
         (forall k j, 0 <= k < stride w 24 -> 0 <= j < h -> ~ (yb - i < j <= yb) -> raster b' w h 24 k j = raster b w h 24 k j) /\
         (forall x y, inside w h x y -> pixel b' w h 24 x y =
           if rowsdone xa xb (yb - i) yb x y then Tpix (T (yb - y)) (x =? xb) (pixel b w h 24 x y) else pixel b w h 24 x y))
      (enc (baddr w h 24 xa yb - data_off 24) 0) body (mkst b o))
      as (q & s' & E & _ & b' & -> & W' & S' & _ & P').
    - apply own_reads.
    - intros i a s (_ & b' & -> & R & _). apply R.
    - split; lia.
    - split; lia.
    - now apply aligned_8_24; right.
    - split. { f_equal. rewrite baddr_rowaddr. unfold rowaddr. replace (xa * 24 / 8) with (3 * xa) by (clear; lia). ring. }
      exists b. split; auto. split; auto. split; [apply same_header_refl|]. split; auto.
      intros x y _. replace (rowsdone xa xb (yb - 0) yb x y) with false; auto.
      symmetry. unfold rowsdone. clear. bcases; auto; lia.
    - intros i p s buf Hi (-> & b' & -> & W' & S' & R' & P') L1 L2 L3.
      replace (lo xa xb) with xa in * by (unfold lo; lia). replace (hi xa xb) with xb in * by (unfold hi; lia).
      replace (lo ya yb) with ya in * by (unfold lo; lia). replace (hi ya yb) with yb in * by (unfold hi; lia).
      replace (xa * 24 / 8) with (3 * xa) in * by (clear; lia).
      replace ((xb + 1) * 24 / 8) with (3 * xb + 3) in * by (clear; lia).
      rewrite <- En in L1, L3. cbn [mem] in L3.
      destruct (Hf i ltac:(lia) buf L2 ltac:(rewrite L1; clear - En; lia)) as (a & Ea & Ba & La & Ga).
      rewrite HB. rewrite (bind_ok _ _ _ _ _ (run_lift _ _ _ _ Ea)).
      destruct (bltput_row b' w h 24 o (yb - i) (3 * xa) a) as (n2 & E & R2); auto; try lia.
      rewrite (bind_ok _ _ _ _ _ E). eexists _, _. split; [reflexivity|]. split; [f_equal; ring|].
      exists n2. split; auto. split; [apply R2|]. split; [apply (same_header_trans b b' n2); [auto|apply R2]|].
      assert (RR : forall k j, 0 <= k < stride w 24 -> 0 <= j < h -> j <> yb - i -> raster n2 w h 24 k j = raster b' w h 24 k j).
      { intros k j Hk Hj N. rewrite (proj2 (proj2 R2)) by auto. unfold in_rowpart. rewrite (proj2 (Z.eqb_neq _ _) N). reflexivity. }
      split.
      { intros k j Hk Hj N. rewrite RR by (auto; lia). apply R'; auto. lia. }
      intros x y Hin. destruct Hin as [Hx Hy].
      destruct (Z.eq_dec y (yb - i)) as [->|N].
      + rewrite pixel_raster.
        assert (EQ : forall k, 0 <= k < stride w 24 -> raster n2 w h 24 k (yb - i) =
                 if incols (3 * xa) n k then getz a (k - 3 * xa) else raster b w h 24 k (yb - i)).
        { intros k Hk. rewrite (proj2 (proj2 R2)) by (auto; lia). unfold in_rowpart, incols. rewrite Z.eqb_refl. cbn [andb].
          rewrite La, L1. destruct (_ && _); auto. apply R'; auto; lia. }
        destruct ((xa <=? x) && (x <=? xb)) eqn:EX.
        * assert (Hxr : xa <= x <= xb) by lia.
          replace (rowsdone xa xb (yb - (i + 1)) yb x (yb - i)) with true by (unfold rowsdone; lia).
          replace (yb - (yb - i)) with i by ring. rewrite (pixel_raster b).
          transitivity (rowpix 24 (fun k => if incols (3 * xa) n k then getz a (k - 3 * xa) else raster b w h 24 k (yb - i)) x).
          { apply (rowpix_ext 24 w); [apply W|auto|]. intros k Hk _. now apply EQ. }
          apply (seg_T (T i) (fun k => raster b w h 24 k (yb - i)) _ xa xb x buf a n); auto; try lia.
          { intros k. apply (wf_byte _ _ _ _ _ W). }
          intros j Hj. rewrite L3 by lia. apply R'; lia.
        * replace (rowsdone xa xb (yb - (i + 1)) yb x (yb - i)) with false by (unfold rowsdone; lia).
          rewrite (pixel_raster b). apply (rowpix_ext 24 w); [apply W|auto|]. intros k Hk Hk2.
          rewrite EQ by auto. replace (incols (3 * xa) n k) with false; auto.
          change (pbytes 24) with 3 in Hk2. replace (x * 24 / 8) with (3 * x) in Hk2 by (clear; lia).
          unfold incols. clear - EX Hk2 En. lia.
      + transitivity (pixel b' w h 24 x y).
        { rewrite !pixel_raster. apply (rowpix_ext 24 w); [apply W|auto|]. intros k Hk _. apply RR; auto. }
        rewrite P' by (split; auto). replace (rowsdone xa xb (yb - (i + 1)) yb x y) with (rowsdone xa xb (yb - i) yb x y); auto.
        unfold rowsdone. clear - N. f_equal. lia.
    - exists b', q. split; [exact E|]. split; [exact W'|]. split; [exact S'|].
      intros x y Hin. rewrite P' by auto.
      replace (lo ya yb) with ya by (unfold lo; lia). replace (hi ya yb) with yb by (unfold hi; lia).
      replace (rowsdone xa xb (yb - (yb - ya + 1)) yb x y) with (in_rect x1 y1 x2 y2 x y); auto.
      unfold in_rect, rowsdone. fold xa xb ya yb. f_equal. f_equal. clear. lia.
  Qed.
End RectFilter.

Lemma o24_run b w h o x y : wf b w h 24 -> rd (o24bmof x y) (mkst b o) = (Ok (baddr w h 24 x y - data_off 24), mkst b o).
Proof.
  intros W. apply run_rd. unfold o24bmof. rewrite (wf_bmof _ _ _ _ W) by apply W. f_equal. unfold baddr.
  replace (x * 24 / 8) with (x * 3) by lia. change (data_off 24) with 54. ring.
Qed.
Lemma use24_run b w h o f T x1 y1 x2 y2 : wf b w h 24 -> inside w h x1 y1 -> inside w h x2 y2 -> onbuf f T ->
  exists b', use24bitfn2reg f x1 y1 x2 y2 (mkst b o) = (Ok (Some tt), mkst b' o) /\
    repainted b b' w h 24 (fun x y =>
      if in_rect x1 y1 x2 y2 x y then Tpix T (x =? Z.max x1 x2) (pixel b w h 24 x y) else pixel b w h 24 x y).
Proof.
  intros W I1 I2 Hf.
  destruct (rectfilter_run b w h x1 y1 x2 y2 W I1 I2 o (fun _ => f) (fun _ => T) (fun off _ => off)
     (fun offset buf => a <- lift (f buf) ;; BMPbitBLTput offset a ;;; ret (offset + stride w 24)))
    as (b' & q & E & R); auto.
  exists b'. split; [|exact R].
  unfold use24bitfn2reg. rewrite guard24_true with (w := w) (h := h) by auto. rewrite sortrec. unfold withSome.
  rewrite bind_assoc, (bind_ok _ _ _ _ _ (o24_run _ _ _ _ _ _ W)).
  rewrite bind_assoc, (bind_ok _ _ _ _ _ (run_rd _ _ _ _ (wf_rxchr _ _ _ _ W))).
  rewrite bind_assoc, (bind_ok _ _ _ _ _ E). reflexivity.
Qed.
Lemma vgrad_run b w h o (g : Z -> Z -> Z) x1 y1 x2 y2 : wf b w h 24 -> inside w h x1 y1 -> inside w h x2 y2 -> y1 <> y2 ->
  exists b', verticalbrightnessgradto24bitregion g x1 y1 x2 y2 (mkst b o) = (Ok (Some tt), mkst b' o) /\
    repainted b b' w h 24 (fun x y =>
      if in_rect x1 y1 x2 y2 x y then Tpix (Tbright (g (Z.max y1 y2 - y))) (x =? Z.max x1 x2) (pixel b w h 24 x y) else pixel b w h 24 x y).
Proof.
  intros W I1 I2 N.
  destruct (rectfilter_run b w h x1 y1 x2 y2 W I1 I2 o (fun i => applybrightnessadjtoBGRbuf (g i)) (fun i => Tbright (g i)) (fun off i => (off, i))
     (fun p buf => let '(offset, i) := p in a <- lift (applybrightnessadjtoBGRbuf (g i) buf) ;; BMPbitBLTput offset a ;;; ret (offset + stride w 24, i + 1)))
    as (b' & q & E & R); auto using bright_onbuf.
  exists b'. split; [|exact R].
  unfold verticalbrightnessgradto24bitregion. rewrite guard24_true with (w := w) (h := h) by auto. rewrite sortrec. unfold withSome.
  rewrite bind_assoc, (bind_ok _ _ _ _ _ (o24_run _ _ _ _ _ _ W)).
  rewrite bind_assoc, (bind_ok _ _ _ _ _ (run_rd _ _ _ _ (wf_rxchr _ _ _ _ W))).
  assert (NZ : hi y1 y2 - lo y1 y2 <> 0) by (unfold lo, hi; clear - N; lia).
  rewrite (proj2 (Z.eqb_neq _ _) NZ).
  rewrite bind_assoc. rewrite (bind_ok (ret tt) _ _ tt (mkst b o)) by reflexivity.
  rewrite bind_assoc, (bind_ok _ _ _ _ _ E). reflexivity.
Qed.
Lemma vgrad_flat b w h o (g : Z -> Z -> Z) x1 x2 y : wf b w h 24 -> inside w h x1 y -> inside w h x2 y ->
  verticalbrightnessgradto24bitregion g x1 y x2 y (mkst b o) = (Err ZeroDivisionError, mkst b o).
Proof.
  intros W I1 I2.
  unfold verticalbrightnessgradto24bitregion. rewrite guard24_true with (w := w) (h := h) by auto. rewrite sortrec. unfold withSome.
  rewrite bind_assoc, (bind_ok _ _ _ _ _ (o24_run _ _ _ _ _ _ W)).
  rewrite bind_assoc, (bind_ok _ _ _ _ _ (run_rd _ _ _ _ (wf_rxchr _ _ _ _ W))).
  assert (NZ : hi y y - lo y y = 0) by (unfold lo, hi; clear; lia).
  rewrite NZ. reflexivity.
Qed.
