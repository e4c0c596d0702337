(** Property C154: the dictionaries of names of colours. *)
From Coq Require Import ZArith Reals List Lia Lra Bool Psatz String.
From Verif Require Import PyBase Bmp Colours Coords RealProofs Floats FloatProofs PropFloats ColourNames.
Import ListNotations.
Open Scope Z_scope.

(** Dictionaries with the same names in the same order find entries at the same place. *)
Lemma getitem_pair {A B} (d1 : list (string * A)) (d2 : list (string * B)) k : map fst d1 = map fst d2 ->
  (exists a b, getitem d1 k = Ok a /\ getitem d2 k = Ok b /\ In ((k, a), (k, b)) (combine d1 d2)) \/ (getitem d1 k = Err KeyError /\ getitem d2 k = Err KeyError).
Proof.
  revert d2. induction d1 as [|[x a] d1 IH]; intros [|[y b] d2] E; try discriminate; [now right|]. cbn [map fst] in E. injection E as <- E. cbn [getitem combine].
  destruct (IH d2 E) as [(a' & b' & -> & -> & I)|(-> & ->)]; [left; exists a', b'; repeat split; now right|].
  destruct (String.eqb_spec x k) as [-> |N]; [left; exists a, b; repeat split; now left|now right].
Qed.
Definition keys (fam : family) : list string := map fst (match fam with Plain => plainrgb | X11 => x11rgb | XKCD => xkcdrgb end).
(** the numerators and the denominator of the factors *)
Definition factable (fam : family) : list (string * (Z * Z * Z)) := match fam with Plain => plainfactors | X11 => x11factors | XKCD => xkcdfactors end.
Definition unit_of (fam : family) : Z := match fam with Plain => 10 ^ 17 | _ => 10 ^ 6 end.
Lemma unit_pos fam : 0 < unit_of fam.
Proof. destruct fam; reflexivity. Qed.
Lemma factors_eq fam k : name2factors fam k = res_bind_map (decimals (unit_of fam)) (getitem (factable fam) k).
Proof. destruct fam; reflexivity. Qed.
Lemma rgb_hsl_keys fam : map fst (match fam with Plain => plainrgb | X11 => x11rgb | XKCD => xkcdrgb end) = map fst (match fam with Plain => plainhsl | X11 => x11hsl | XKCD => xkcdhsl end).
Proof. destruct fam; vm_compute; reflexivity. Qed.
Lemma rgb_factor_keys fam : map fst (match fam with Plain => plainrgb | X11 => x11rgb | XKCD => xkcdrgb end) = map fst (factable fam).
Proof. destruct fam; vm_compute; reflexivity. Qed.

(** A name is in all three dictionaries of a family or in none. *)
Theorem C154_names : forall fam k, (exists h c f, name2hsl fam k = Ok h /\ name2rgb fam k = Ok c /\ name2factors fam k = Ok f) \/
  (name2hsl fam k = Err KeyError /\ name2rgb fam k = Err KeyError /\ name2factors fam k = Err KeyError).
Proof.
  intros fam k. rewrite factors_eq. unfold name2hsl, name2rgb. destruct (getitem_pair _ _ k (rgb_hsl_keys fam)) as [(c & h & C & H & _)|(C & H)]; destruct (getitem_pair _ _ k (rgb_factor_keys fam)) as [(c' & f & C' & F & _)|(C' & F)]; rewrite C in C'; try discriminate; rewrite C, H, F; cbn [res_bind_map]; [left; eauto 6|now right].
Qed.

(** the parts of a packed colour *)
Definition parts (c : Z) : Z * Z * Z := (c / 65536, c / 256 mod 256, c mod 256).
(** names whose HSL entry is not that of the colour: off by one degree, and one that is another colour *)
Definition off_by_one (fam : family) (k : string) : bool :=
  match fam with Plain => false | X11 => String.eqb k "lavenderblush4" || String.eqb k "mistyrose4" | XKCD => String.eqb k "duckeggblue" end.
Definition other_hsl (fam : family) (k : string) : bool := match fam with X11 => String.eqb k "aqua" | _ => false end.
Definition hslrow (fam : family) (row : (string * Z) * (string * (Z * Z * Z))) : bool :=
  let '((k, c), (_, (h, s, l))) := row in
  let '(r, g, b) := parts c in let '(h', s', l') := RGB2HSL r g b in
  (0 <=? c) && (c <? 16777216) &&
  (other_hsl fam k || (s =? s') && (l =? l') && (if off_by_one fam k then Z.abs (h - h') =? 1 else h =? h')).
Lemma hsl_rows fam : forallb (hslrow fam) (combine (match fam with Plain => plainrgb | X11 => x11rgb | XKCD => xkcdrgb end) (match fam with Plain => plainhsl | X11 => x11hsl | XKCD => xkcdhsl end)) = true.
Proof. destruct fam; vm_compute; reflexivity. Qed.
Lemma off_other fam k : off_by_one fam k = true -> other_hsl fam k = false.
Proof. unfold off_by_one, other_hsl. destruct fam; try discriminate; try reflexivity. destruct (String.eqb_spec k "aqua") as [-> |]; [discriminate|reflexivity]. Qed.
(** Packed colours are of 24 bits, and the entry for HSL is what RGB2HSL gives for the colour: but for "aqua" of X11,
    and three others whose hue is off by one degree. *)
Theorem C154_hsl : forall fam k c h, name2rgb fam k = Ok c -> name2hsl fam k = Ok h -> 0 <= c < 2 ^ 24 /\
  let '(r, g, b) := parts c in
  (off_by_one fam k = false -> other_hsl fam k = false -> RGB2HSL r g b = h) /\
  (off_by_one fam k = true -> RGB2HSL r g b = (fst (fst h) + 1, snd (fst h), snd h) \/ RGB2HSL r g b = (fst (fst h) - 1, snd (fst h), snd h)).
Proof.
  intros fam k c h C H. unfold name2rgb, name2hsl in *. destruct (getitem_pair _ _ k (rgb_hsl_keys fam)) as [(c' & h' & C' & H' & I)|(C' & _)]; [|congruence]. rewrite C in C'. rewrite H in H'. injection C' as <-. injection H' as <-.
  pose proof (proj1 (forallb_forall _ _) (hsl_rows fam) _ I) as K. unfold hslrow in K. destruct h as [[h s] l]. unfold parts in *. destruct (RGB2HSL _ _ _) as [[h' s'] l']. cbn [fst snd].
  apply andb_true_iff in K. destruct K as (K & N). apply andb_true_iff in K. destruct K as (K1 & K2). apply Z.leb_le in K1. apply Z.ltb_lt in K2. split; [lia|].
  pose proof (off_other fam k) as D.
  split.
  - intros O1 O2. rewrite O1, O2 in N. cbn [orb] in N. rewrite !andb_true_iff, !Z.eqb_eq in N. destruct N as ((-> & ->) & ->). reflexivity.
  - intros O. rewrite (D O), O in N. cbn [orb] in N. rewrite !andb_true_iff, !Z.eqb_eq in N. destruct N as ((-> & ->) & N). destruct (Z.eq_dec h' (h + 1)) as [-> |]; [now left|right]. f_equal. f_equal. lia.
Qed.

(** ** Factors *)
Lemma trunc_floor y n : (0 <= y)%R -> (IZR n <= y < IZR n + 1)%R -> rtrunc y = n.
Proof. intros P H. unfold rtrunc. rewrite (proj2 (rlt_no _ _)) by lra. apply int_unique. lra. Qed.
Definition close_to (d n x : Z) : Prop := 0 <= n <= d /\ Z.abs (255 * n - x * d) * 2000000 <= 255 * d.
Lemma factor_near d n x : 0 < d -> close_to d n x -> 0 <= x <= 255 -> (0 <= decimal d n <= 1)%R /\ (Rabs (decimal d n - IZR x / 255) <= 6 / 10000000)%R.
Proof.
  intros D (N & K) X. assert (D0 : (0 < IZR d)%R) by now apply IZR_lt. set (q := (IZR n / IZR d)%R). assert (E : (IZR n = q * IZR d)%R) by (unfold q; field; lra).
  assert (Q : (0 <= q <= 1)%R). { pose proof (IZR_le _ _ (proj1 N)). pose proof (IZR_le _ _ (proj2 N)). split; apply (Rmult_le_reg_r (IZR d)); lra. }
  assert (A : (Rabs (q - IZR x / 255) <= 5 / 10000000)%R).
  { apply IZR_le in K. rewrite !mult_IZR, abs_IZR, minus_IZR, !mult_IZR, E in K. replace (255 * (q * IZR d) - IZR x * IZR d)%R with (255 * IZR d * (q - IZR x / 255))%R in K by field. rewrite Rabs_mult, (Rabs_pos_eq (255 * IZR d)) in K by lra. apply (Rmult_le_reg_l (255 * IZR d)); lra. }
  assert (F : (Rabs (fl q - q) <= / 1000000000000000)%R) by (eapply Rle_trans; [apply (fl_near q 1), Rabs_le; lra|]; unfold u, eta; lra).
  split; [|unfold decimal; fold q; apply Rabs_le_inv in A, F; apply Rabs_le; lra]. unfold decimal. fold q. rewrite <- fl_0, <- fl_1. split; apply fl_le; lra.
Qed.
(** A factor within half a millionth of x / 255: times a luminosity of 0 to 255, rounded down. *)
Lemma factor_mix d n x lum : 0 < d -> close_to d n x -> 0 <= x <= 255 -> 0 <= lum <= 255 -> let y := rtrunc (fl (decimal d n * IZR lum)) in
  x * lum / 255 - 1 <= y <= x * lum / 255 /\ 0 <= y /\ (x * lum mod 255 <> 0 -> y = x * lum / 255).
Proof.
  intros D K X L. destruct (factor_near d n x D K X) as (F & A). set (f := decimal d n) in *. cbv zeta. assert (L0 : (0 <= IZR lum <= 255)%R) by (split; apply IZR_le; lia).
  assert (P : (0 <= f * IZR lum <= 255)%R) by (split; [apply Rmult_le_pos; lra|nra]).
  assert (Y : (Rabs (fl (f * IZR lum) - f * IZR lum) <= / 1000000000000)%R) by (eapply Rle_trans; [apply (fl_near _ 255), Rabs_le; lra|]; unfold u, eta; lra).
  assert (B : (Rabs (f * IZR lum - IZR x / 255 * IZR lum) <= 16 / 100000)%R) by (rewrite <- Rmult_minus_distr_r, Rabs_mult, (Rabs_pos_eq (IZR lum)) by lra; pose proof (Rabs_pos (f - IZR x / 255)); nra).
  assert (Y0 : (0 <= fl (f * IZR lum))%R) by (rewrite <- fl_0; apply fl_le; lra). set (y := fl (f * IZR lum)) in *. clearbody y. apply Rabs_le_inv in Y, B.
  pose proof (Z.div_mod (x * lum) 255 ltac:(lia)) as M. pose proof (Z.mod_pos_bound (x * lum) 255 ltac:(lia)) as MB. set (q := x * lum / 255) in *. set (r := x * lum mod 255) in *. assert (Q0 : 0 <= q) by (unfold q; apply Z.div_pos; lia).
  assert (E : (IZR x / 255 * IZR lum = IZR q + IZR r / 255)%R) by (apply (f_equal IZR) in M; rewrite plus_IZR, !mult_IZR in M; replace (IZR x / 255 * IZR lum)%R with (IZR x * IZR lum / 255)%R by field; rewrite M; field).
  assert (R0 : (IZR r <= 254)%R) by (apply IZR_le; lia). assert (G : r <> 0 -> rtrunc y = q). { intros NZ. assert (1 <= IZR r)%R by (apply IZR_le; lia). apply trunc_floor; lra. }
  destruct (Z.eq_dec r 0) as [Z|NZ]; [|rewrite (G NZ); lia]. rewrite Z in E. destruct (Rle_lt_dec (IZR q) y) as [LE|LT].
  - rewrite (trunc_floor y q) by lra. lia.
  - assert (Q1 : 1 <= q). { apply Z.lt_pred_le. apply lt_IZR. change (IZR (Z.pred 1)) with 0%R. lra. } rewrite (trunc_floor y (q - 1)) by (rewrite ?minus_IZR; lra). lia.
Qed.
Lemma factor_round d n x : 0 < d -> close_to d n x -> 0 <= x <= 255 -> rround (fl (decimal d n * 255)) = x.
Proof.
  intros D K X. destruct (factor_near d n x D K X) as (F & A). set (f := decimal d n) in *.
  assert (Y : (Rabs (fl (f * 255) - f * 255) <= / 1000000000000)%R) by (eapply Rle_trans; [apply (fl_near _ 255), Rabs_le; lra|]; unfold u, eta; lra). apply Rabs_le_inv in Y, A. apply rround_unique, Rabs_def1; lra.
Qed.
Definition close_tob (d n x : Z) : bool := (0 <=? n) && (n <=? d) && (Z.abs (255 * n - x * d) * 2000000 <=? 255 * d).
Lemma close_ok d n x : close_tob d n x = true -> close_to d n x.
Proof. unfold close_tob, close_to. rewrite !andb_true_iff, !Z.leb_le. lia. Qed.
Definition other_factors (fam : family) (k : string) : bool := match fam with X11 => String.eqb k "darkblue" | _ => false end.
Definition factorrow (fam : family) (row : (string * Z) * (string * (Z * Z * Z))) : bool :=
  let '((k, c), (_, (n1, n2, n3))) := row in let '(r, g, b) := parts c in
  other_factors fam k || close_tob (unit_of fam) n1 r && close_tob (unit_of fam) n2 g && close_tob (unit_of fam) n3 b.
Lemma factor_rows fam : forallb (factorrow fam) (combine (match fam with Plain => plainrgb | X11 => x11rgb | XKCD => xkcdrgb end) (factable fam)) = true.
Proof. destruct fam; vm_compute; reflexivity. Qed.
Lemma found fam k c f : name2rgb fam k = Ok c -> name2factors fam k = Ok f -> exists n, f = decimals (unit_of fam) n /\ In ((k, c), (k, n)) (combine (match fam with Plain => plainrgb | X11 => x11rgb | XKCD => xkcdrgb end) (factable fam)) /\ 0 <= c < 16777216.
Proof.
  intros C F. rewrite factors_eq in F. pose proof (C154_names fam k) as NM. rewrite C in NM. destruct NM as [(h & c0 & f0 & H & _)|(_ & X & _)]; [|discriminate]. pose proof (C154_hsl fam k c h C H) as (B & _). unfold name2rgb in C.
  destruct (getitem_pair _ _ k (rgb_factor_keys fam)) as [(c' & n & C' & F' & I)|(C' & _)]; [|congruence]. rewrite C in C'. injection C' as <-. rewrite F' in F. cbn in F. injection F as <-. eauto.
Qed.
Lemma parts_byte c : 0 <= c < 16777216 -> 0 <= c / 65536 <= 255 /\ 0 <= c / 256 mod 256 <= 255 /\ 0 <= c mod 256 <= 255.
Proof. intros. pose proof (Z.mod_pos_bound (c / 256) 256). pose proof (Z.mod_pos_bound c 256). pose proof (Z.div_pos c 65536). pose proof (Z.div_lt_upper_bound c 65536 256). lia. Qed.
(** one part of a mixed colour: x scaled by lum / 255 and rounded down, or one less if that is whole *)
Definition mixes (x lum y : Z) : Prop := 0 <= y /\ (y = x * lum / 255 \/ (255 * (y + 1) = x * lum)).
(** The factors are in 0..1; scaled to luminosity 255 by RGBfactors2RGB they are the colour itself; and colormix gives the
    colour scaled by lum / 255, rounded down, or one less where that is whole.  All but "darkblue" of X11. *)
Theorem C154_factors : forall fam k c f, name2rgb fam k = Ok c -> name2factors fam k = Ok f -> other_factors fam k = false ->
  let '(r, g, b) := parts c in let '(f1, f2, f3) := f in
  (0 <= f1 <= 1)%R /\ (0 <= f2 <= 1)%R /\ (0 <= f3 <= 1)%R /\ fRGBfactors2RGB f 255 = (r, g, b) /\
  forall lum, 0 <= lum <= 255 -> let '(r', g', b') := fcolormix lum f in mixes r lum r' /\ mixes g lum g' /\ mixes b lum b'.
Proof.
  intros fam k c f C F O. destruct (found fam k c f C F) as ([[n1 n2] n3] & -> & I & B). pose proof (proj1 (forallb_forall _ _) (factor_rows fam) _ I) as K. unfold factorrow in K. rewrite O in K. unfold parts in *. cbn [orb] in K.
  rewrite !andb_true_iff in K. destruct K as ((K1 & K2) & K3). apply close_ok in K1, K2, K3. destruct (parts_byte c B) as (P1 & P2 & P3). pose proof (unit_pos fam) as D.
  cbn [decimals]. split; [now apply (factor_near _ _ _ D K1)|]. split; [now apply (factor_near _ _ _ D K2)|]. split; [now apply (factor_near _ _ _ D K3)|]. split.
  - unfold fRGBfactors2RGB. now rewrite (factor_round _ _ _ D K1), (factor_round _ _ _ D K2), (factor_round _ _ _ D K3).
  - intros lum L. unfold fcolormix. assert (G : forall n x, close_to (unit_of fam) n x -> 0 <= x <= 255 -> mixes x lum (rtrunc (fl (decimal (unit_of fam) n * IZR lum)))).
    { intros n x X XB. destruct (factor_mix _ n x lum D X XB L) as (M & M0 & ME). split; [exact M0|]. destruct (Z.eq_dec (x * lum mod 255) 0) as [Z|NZ]; [|left; auto]. pose proof (Z.div_mod (x * lum) 255 ltac:(lia)). lia. }
    auto.
Qed.
(** For the plain names colormix at luminosity 255 loses nothing. *)
Definition plainrow (row : (string * Z) * (string * (Z * Z * Z))) : bool :=
  let '((_, c), (_, (n1, n2, n3))) := row in let '(r, g, b) := parts c in
  let t n x := (n =? 0) && (x =? 0) || match threshcompute n (10 ^ 17) 255 with Some z => z =? x | None => false end in t n1 r && t n2 g && t n3 b.
Lemma plain_rows : forallb plainrow (combine plainrgb plainfactors) = true.
Proof. vm_compute. reflexivity. Qed.
Theorem C154_plain : forall k c f, name2rgb Plain k = Ok c -> name2factors Plain k = Ok f -> fcolormix 255 f = parts c.
Proof.
  intros k c f C F. destruct (found Plain k c f C F) as ([[n1 n2] n3] & -> & I & B). pose proof (proj1 (forallb_forall _ _) plain_rows _ I) as K. unfold plainrow, parts in *. rewrite !andb_true_iff in K. destruct K as ((K1 & K2) & K3).
  assert (G : forall n x, (n =? 0) && (x =? 0) || match threshcompute n (10 ^ 17) 255 with Some z => z =? x | None => false end = true -> rtrunc (fl (decimal (10 ^ 17) n * 255)) = x).
  { intros n x T. apply orb_true_iff in T. destruct T as [T|T].
    - apply andb_true_iff in T. rewrite !Z.eqb_eq in T. destruct T as (-> & ->). unfold decimal. replace (0 / IZR (10 ^ 17))%R with 0%R by (unfold Rdiv; ring). rewrite fl_0, Rmult_0_l, fl_0. apply trunc_floor; lra.
    - destruct (threshcompute n (10 ^ 17) 255) as [z|] eqn:E; [|discriminate]. apply Z.eqb_eq in T. subst z. unfold decimal. now apply threshcompute_ok. }
  cbn [decimals unit_of]. unfold fcolormix. now rewrite (G _ _ K1), (G _ _ K2), (G _ _ K3).
Qed.
(** The factors of the other families have six digits, which can lose one in every part: "snow" of X11 is 255, 250, 250
    but its factors give 255, 249, 249. *)
Theorem C154_digits_refuted : exists fam k c f, name2rgb fam k = Ok c /\ name2factors fam k = Ok f /\ other_factors fam k = false /\ parts c = (255, 250, 250) /\ fcolormix 255 f = (255, 249, 249).
Proof.
  exists X11, "snow"%string, 16775930, (decimals 1000000 (1000000, 980392, 980392)). split; [vm_compute; reflexivity|]. split; [rewrite factors_eq; replace (getitem (factable X11) "snow") with (Ok (1000000, 980392, 980392)) by (vm_compute; reflexivity); reflexivity|]. repeat (split; [reflexivity|]).
  cbn [decimals]. unfold fcolormix, decimal. rewrite (threshcompute_ok 1000000 1000000 255 255), (threshcompute_ok 980392 1000000 255 249) by (lia || (vm_compute; reflexivity)). reflexivity.
Qed.
(** Names that appear twice in X11's dictionaries have the value of another colour: "darkred" is a green, its entry for
    dark red being lost; "darkgray" is a green; the factors of "darkblue" have more red than blue though its packed
    colour has only blue; and the HSL entry of "aqua" is not that of its colour. *)
Theorem C154_shifted_refuted :
  (In ("darkred"%string, 139 * 65536) x11rgb /\ exists c, name2rgb X11 "darkred" = Ok c /\ parts c = (143, 188, 143)) /\
  (exists c, name2rgb X11 "darkgray" = Ok c /\ parts c = (85, 107, 47)) /\
  (name2rgb X11 "darkblue" = Ok 139 /\ exists f, name2factors X11 "darkblue" = Ok f /\ fRGBfactors2RGB f 255 = (184, 134, 11)) /\
  (exists c, name2rgb X11 "aqua" = Ok c /\ parts c = (0, 255, 255) /\ RGB2HSL 0 255 255 = (180, 100, 50) /\ name2hsl X11 "aqua" = Ok (171, 85, 50)).
Proof.
  split; [|split; [|split]].
  - split; [|exists 9419919; split; vm_compute; reflexivity]. assert (E : existsb (fun e => String.eqb (fst e) "darkred" && (snd e =? 139 * 65536)) x11rgb = true) by (vm_compute; reflexivity). apply existsb_exists in E. destruct E as ([k c] & I & E). cbn [fst snd] in E. apply andb_true_iff in E. destruct E as (E1 & E2). apply String.eqb_eq in E1. apply Z.eqb_eq in E2. now subst.
  - exists 5597999. split; vm_compute; reflexivity.
  - split; [vm_compute; reflexivity|]. exists (decimals 1000000 (721569, 525490, 43137)). split; [rewrite factors_eq; replace (getitem (factable X11) "darkblue") with (Ok (721569, 525490, 43137)) by (vm_compute; reflexivity); reflexivity|].
    cbn [decimals]. unfold fRGBfactors2RGB. rewrite (factor_round 1000000 721569 184), (factor_round 1000000 525490 134), (factor_round 1000000 43137 11) by (lia || (apply close_ok; reflexivity)). reflexivity.
  - exists 65535. repeat split; vm_compute; reflexivity.
Qed.
Example C154_ex : name2rgb Plain "orange" = Ok (192 * 65536 + 128 * 256) /\ name2hsl Plain "orange" = Ok (40, 100, 38) /\ name2rgb XKCD "acidgreen" = Ok (143 * 65536 + 254 * 256 + 9) /\ other_factors XKCD "acidgreen" = false /\ off_by_one XKCD "acidgreen" = false /\ name2rgb XKCD "no such name" = Err KeyError.
Proof. repeat split; vm_compute; reflexivity. Qed.
Print Assumptions C154_names.
Print Assumptions C154_hsl.
Print Assumptions C154_factors.
Print Assumptions C154_plain.
Print Assumptions C154_digits_refuted.
Print Assumptions C154_shifted_refuted.
