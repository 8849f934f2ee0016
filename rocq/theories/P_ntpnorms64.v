(** * Neutrality errors over distances and their norms in binary64 *)
From Coq Require Import ZArith Reals Bool Lia Lra Psatz SpecFloat List Permutation.
From Flocq Require Import Core.
From Verif Require Import Num XR SF Res Arr ArrLemmas M_lib M_ntp S_lib S_float P_float P_fl P_linear64 S_ntp S_ntp64 P_div P_ntp P_sum64 P_norms64 NdLemmas.
Import ListNotations.
Open Scope R_scope.

Lemma Forall2_length {A B} (P : A -> B -> Prop) l l' : Forall2 P l l' -> length l = length l'.
Proof. induction 1; simpl; congruence. Qed.

(** ** distances as lists *)
Definition gexp (g : @geom f64) (n : nat) (X : list f64) : Prop := length X = n /\ (g = Ar X \/ exists c, g = Sc c /\ X = repeat c n).

Lemma gexp_left (f : f64 -> f64 -> f64) g n X y : gexp g n X -> length y = n -> np_bin f (garr g) y = Ok (map2 f X y).
Proof.
  intros [Hl [->|(c & -> & ->)]] Hy; simpl garr.
  - apply np_bin_eq. lia.
  - rewrite np_bin_scalar_l, Hy. apply np_bin_eq. rewrite repeat_length. lia.
Qed.
Lemma gexp_right (f : f64 -> f64 -> f64) g n X y : gexp g n X -> length y = n -> np_bin f y (garr g) = Ok (map2 f y X).
Proof.
  intros [Hl [->|(c & -> & ->)]] Hy; simpl garr.
  - apply np_bin_eq. lia.
  - rewrite np_bin_scalar, Hy. apply np_bin_eq. rewrite repeat_length. lia.
Qed.
Lemma map2_same {A} (h : A -> A -> A) a b n : map2 h (repeat a n) (repeat b n) = repeat (h a b) n.
Proof. unfold map2. induction n; simpl; congruence. Qed.
Lemma gexp_both (f : f64 -> f64 -> f64) g g' n X X' : gexp g n X -> gexp g' n X' -> (forall c c', g = Sc c -> g' = Sc c' -> False) ->
  np_bin f (garr g) (garr g') = Ok (map2 f X X').
Proof.
  intros [Hl Hg] [Hl' Hg'] H. destruct Hg as [->|(c & -> & ->)].
  - simpl garr. apply gexp_right with n; [split; assumption|exact Hl].
  - destruct Hg' as [->|(c' & -> & ->)]; [|elim (H c c' eq_refl eq_refl)].
    apply gexp_left with n; [|exact Hl']. split; [apply repeat_length|]. right. exists c. split; reflexivity.
Qed.
Lemma gexp_mul g g' n X X' : gexp g n X -> gexp g' n X' -> exists h, gmul g g' = Ok h /\ gexp h n (map2 mul X X').
Proof.
  intros Hg Hg'. assert (L : length (map2 mul X X') = n).
  { rewrite map2_length; destruct Hg, Hg'; lia. }
  assert (C : (exists c c', g = Sc c /\ g' = Sc c') \/ forall c c', g = Sc c -> g' = Sc c' -> False).
  { destruct g as [c|l], g' as [c'|l']; [left; eauto|right..]; intros; discriminate. }
  destruct C as [(c & c' & -> & ->)|C].
  - destruct Hg as [_ [H|(a & Ha & ->)]]; [discriminate H|]. injection Ha as <-. destruct Hg' as [_ [H|(a' & Ha' & ->)]]; [discriminate H|]. injection Ha' as <-.
    exists (Sc (mul c c')). split; [reflexivity|]. split; [exact L|]. right. exists (mul c c'). split; [reflexivity|apply map2_same].
  - exists (Ar (map2 mul X X')). split; [|split; [exact L|left; reflexivity]].
    assert (E := gexp_both mul g g' n X X' Hg Hg' C).
    destruct g as [c|l], g' as [c'|l']; cbn [gmul]; [elim (C c c' eq_refl eq_refl)|rewrite E; reflexivity..].
Qed.
Lemma gexp_div g g' n X X' : gexp g n X -> gexp g' n X' -> n <> 0%nat -> Forall (fun c => eqb c zero = false) X' ->
  exists h, gdiv g g' = Ok h /\ gexp h n (map2 div X X').
Proof.
  intros Hg Hg' Hn HZ. assert (L : length (map2 div X X') = n).
  { rewrite map2_length; destruct Hg, Hg'; lia. }
  assert (C : (exists c c', g = Sc c /\ g' = Sc c') \/ forall c c', g = Sc c -> g' = Sc c' -> False).
  { destruct g as [c|l], g' as [c'|l']; [left; eauto|right..]; intros; discriminate. }
  destruct C as [(c & c' & -> & ->)|C].
  - destruct Hg as [_ [H|(a & Ha & ->)]]; [discriminate H|]. injection Ha as <-. destruct Hg' as [_ [H|(a' & Ha' & ->)]]; [discriminate H|]. injection Ha' as <-.
    exists (Sc (div c c')). split.
    + cbn [gdiv]. unfold sdiv. destruct n as [|n]; [elim Hn; reflexivity|]. cbn [repeat] in HZ. inversion HZ as [|? ? Hz _]. rewrite Hz. reflexivity.
    + split; [exact L|]. right. exists (div c c'). split; [reflexivity|apply map2_same].
  - exists (Ar (map2 div X X')). split; [|split; [exact L|left; reflexivity]].
    assert (E := gexp_both div g g' n X X' Hg Hg' C).
    destruct g as [c|l], g' as [c'|l']; cbn [gdiv]; [elim (C c c' eq_refl eq_refl)|rewrite E; reflexivity..].
Qed.

Lemma distances64_exp g n l : distances64 g n l -> exists X, gexp g n X /\ Forall2 (fun y r => finite64 y /\ fval y = r) X l.
Proof.
  intros [Hl [(x & -> & H)|(c & -> & F & ->)]].
  - exists x. split; [|exact H]. split; [exact (eq_trans (Forall2_length _ _ _ H) Hl)|left; reflexivity].
  - exists (repeat c n). split; [split; [apply repeat_length|right; exists c; split; reflexivity]|].
    clear Hl. induction n as [|n IH]; cbn [repeat]; constructor; [split; [exact F|reflexivity]|exact IH].
Qed.

(** ** items *)
Fixpoint items (D W Y : list f64) (X : list (option R)) : list item :=
  match D, W, Y, X with
  | d :: D, w :: W, y :: Y, x :: X => (d, w, y, x) :: items D W Y X
  | _, _, _, _ => []
  end.

Lemma items_terms n : forall (D W Y : list f64) (X : list (option R)), length D = n -> length W = n -> length Y = n -> length X = n ->
  length (items D W Y X) = n
  /\ map t_area (items D W Y X) = map2 mul (map2 mul D W) (map finite01 Y)
  /\ map t_square (items D W Y X) = map tidy (map2 mul (map2 div W D) (map (fun y => mul y y) Y))
  /\ map t_abs (items D W Y X) = map tidy (map2 mul W (map fabs Y)).
Proof.
  induction n as [|n IH]; intros [|d D] [|w W] [|y Y] [|x X] HD HW HY HX; try discriminate; [repeat split; reflexivity|].
  injection HD as HD. injection HW as HW. injection HY as HY. injection HX as HX.
  destruct (IH D W Y X HD HW HY HX) as (I1 & I2 & I3 & I4). unfold map2 in *. cbn [items map length combine fst snd].
  rewrite I1, I2, I3, I4. split; [reflexivity|]. split; [reflexivity|]. split; reflexivity.
Qed.

Lemma items_ok b : forall (D W Y : list f64) (X : list (option R)) ds ws,
  Forall2 (fun y r => finite64 y /\ fval y = r) D ds -> Forall2 (fun y r => finite64 y /\ fval y = r) W ws ->
  Forall moderate ds -> Forall weight ws -> Forall2 (fun x y => error_holds x b y) X Y -> (forall r, In (Some r) X -> Rabs r <= 1000) ->
  length D = length Y -> length W = length Y ->
  Forall (item_ok b) (items D W Y X).
Proof.
  intros D W Y X ds ws HD. revert W Y X ws. induction HD as [|d r D ds [Fd Ed] HD IH]; intros W Y X ws HW Hm Hw HX Hx L1 L2; [constructor|].
  destruct HW as [|w q W ws [Fw Ew] HW]; [destruct Y; discriminate|]. destruct HX as [|x y X Y Hxy HX]; [discriminate|].
  inversion Hm as [|? ? M1 M2]; subst. inversion Hw as [|? ? W1 W2]; subst. cbn [items]. constructor.
  - split; [exact Fd|]. split; [exact M1|]. split; [exact Fw|]. split; [exact W1|]. split; [exact Hxy|]. intros r ->. apply Hx. left. reflexivity.
  - apply (IH W Y X ws); trivial; [|injection L1; trivial|injection L2; trivial]. intros r Hr. apply Hx. right. exact Hr.
Qed.

Lemma items_wet : forall (D W Y : list f64) (X : list (option R)) ds ws,
  Forall2 (fun y r => finite64 y /\ fval y = r) D ds -> Forall2 (fun y r => finite64 y /\ fval y = r) W ws ->
  Forall moderate ds -> length D = length Y -> length W = length Y -> length X = length Y ->
  let l := wet X ds ws in let L := items D W Y X in
  let err := map (fun x => let '(d, w, x) := x in (d * w, x / d)) l in
  let inv := map (fun x => let '(d, w, _) := x in (d * w, 1 / d)) l in
  total err = Rsum (map r_area L) /\ total inv = Rsum (map r_area L)
  /\ Rsum (map (fun s => fst s * (snd s * snd s)) err) = Rsum (map (fun i => r_ratio i * (r_x i * r_x i)) L)
  /\ Rsum (map (fun s => fst s * (snd s * snd s)) inv) = Rsum (map r_ratio L)
  /\ Rsum (map (fun s => fst s * Rabs (snd s)) err) = Rsum (map (fun i => r_width i * Rabs (r_x i)) L)
  /\ Rsum (map (fun s => fst s * Rabs (snd s)) inv) = Rsum (map r_width L).
Proof.
  intros D W Y X ds ws HD. revert W Y X ws. induction HD as [|d r D ds [Fd Ed] HD IH]; intros W Y X ws HW Hm L1 L2 L3.
  { destruct Y; [|discriminate]. destruct X; [|discriminate]. cbv zeta. repeat split; reflexivity. }
  destruct HW as [|w q W ws [Fw Ew] HW]; [destruct Y; discriminate|]. destruct Y as [|y Y]; [discriminate|]. destruct X as [|x X]; [discriminate|].
  inversion Hm as [|? ? M1 M2]; subst. injection L1 as L1. injection L2 as L2. injection L3 as L3.
  specialize (IH W Y X ws HW M2 L1 L2 L3). cbv zeta in *. destruct IH as (I1 & I2 & I3 & I4 & I5 & I6).
  assert (P : 0 < fval d) by (destruct M1 as [M1 _]; pose proof (pow2_pos (-100)); lra).
  unfold total in *. cbn [wet items]. destruct x as [x|].
  - cbn [map fst snd]. unfold Rsum in *. cbn [fold_right].
    rewrite I1, I2, I3, I4, I5, I6. cbn [r_area r_ratio r_x r_width on].
    rewrite (Rabs_right (1 / fval d)) by (left; apply Rmult_lt_0_compat; [lra|apply Rinv_0_lt_compat; exact P]).
    change (x / fval d) with (x * / fval d). rewrite Rabs_mult, (Rabs_right (/ fval d)) by (left; apply Rinv_0_lt_compat; exact P).
    repeat split; try reflexivity; field; lra.
  - rewrite !sum_cons. cbn [r_area r_ratio r_x r_width on]. rewrite I1, I2, I3, I4, I5, I6. repeat split; ring.
Qed.

(** ** the model's functions *)
Lemma div_one (y : f64) : finite64 y -> finite64 (div y one) /\ fval (div y one) = fval y.
Proof.
  intros F. destruct fl_one as [F1 E1]. assert (Q : rnd (fval y / fval (one : f64)) = fval y).
  { change (fval (one : f64)) with (fval (lit 1 0 : f64)). rewrite E1. unfold Rdiv. rewrite Rinv_1, Rmult_1_r. apply rnd_fval. exact F. }
  assert (G : Rabs (rnd (fval y / fval (one : f64))) < bpow radix2 1024).
  { rewrite Q. destruct (finite64_B _ F) as (bx & _ & _ & <-). apply BinarySingleNaN.abs_B2R_lt_emax. }
  assert (N1 : fval (one : f64) <> 0) by (change (fval (one : f64)) with (fval (lit 1 0 : f64)); rewrite E1; lra).
  destruct (div_val y one F F1 N1 G) as [F' E']. split; [exact F'|]. etransitivity; [exact E'|exact Q].
Qed.
Lemma holds_div_one x b (y : f64) : error_holds x b y -> error_holds x b (div y one).
Proof.
  destruct x as [x|]; cbn [error_holds].
  - intros [F W]. destruct (div_one y F) as [F' E']. split; [exact F'|]. rewrite E'. exact W.
  - intros ->. reflexivity.
Qed.

Lemma dict_errors f stp edges e w : ntp_epsilon_error1 f stp edges = Ok e ->
  ntp_epsilon_errors f stp (GDict (Some edges) None w) = Ok (map (fun y : f64 => div y one) e).
Proof.
  intros E. unfold ntp_epsilon_errors. cbn [key bind]. rewrite E. cbn [bind garr].
  rewrite np_bin_scalar, np_bin_eq by (rewrite repeat_length; reflexivity). f_equal. clear. induction e as [|y e IH]; [reflexivity|].
  unfold map2 in *. cbn [length repeat combine map fst snd]. f_equal. exact IH.
Qed.

Lemma area_denom (A : f64) : finite64 A -> eqb A (lit 0 0 : f64) = Req_bool (fval A) 0.
Proof. intros F. destruct fl_zero as [F0 E0]. etransitivity; [exact (eqb_val A (lit 0 0 : f64) F F0)|]. rewrite E0. reflexivity. Qed.

Section Norms.
  Variables (f : f64 -> f64 -> f64 -> res (f64 * f64)) (np_sum : list f64 -> f64) (b : R).
  Hypothesis Hsum : forall l, summed l (np_sum l).
  Hypothesis Hb : powerRZ 2 (-100) <= b <= 1.

  Lemma norms64 stp edges dist perp e X ds ws : ntp_epsilon_error1 f stp edges = Ok e ->
    Forall2 (fun x y => error_holds x b y) X e -> (forall r, In (Some r) X -> Rabs r <= 1000) ->
    INR (length edges) <= powerRZ 2 40 ->
    distances64 dist (length edges) ds -> distances64 perp (length edges) ws -> Forall moderate ds -> Forall weight ws ->
    exists rms mav, ntp_epsilon_errors_norms_by f np_sum stp (GDict (Some edges) (Some dist) (Some perp)) = Ok (rms, mav)
      /\ norms_hold b (length edges) (wet X ds ws) rms mav.
  Proof.
    intros E HX Hx Hn Hd Hw Md Mw.
    assert (Le : length e = length edges) by (apply mapM_inv in E; apply E).
    assert (LX : length X = length edges) by (rewrite (Forall2_length _ _ _ HX); exact Le).
    destruct (distances64_exp _ _ _ Hd) as (D & GD & FD). destruct (distances64_exp _ _ _ Hw) as (W & GW & FW).
    set (n := length edges) in *. set (Y := map (fun y : f64 => div y one) e).
    assert (LY : length Y = n) by (unfold Y; rewrite map_length; exact Le).
    assert (LD : length D = n) by apply GD. assert (LW : length W = n) by apply GW.
    assert (HY : Forall2 (fun x y => error_holds x b y) X Y).
    { unfold Y. clear - HX. induction HX as [|x y X e H HX IH]; [constructor|]. cbn [map]. constructor; [apply holds_div_one; exact H|exact IH]. }
    set (L := items D W Y X).
    assert (OK : Forall (item_ok b) L) by (apply (items_ok b D W Y X ds ws); trivial; congruence).
    destruct (items_terms n D W Y X LD LW LY LX) as (LL & TA & TS & TB). fold L in LL, TA, TS, TB.
    assert (WT := items_wet D W Y X ds ws FD FW Md ltac:(congruence) ltac:(congruence) ltac:(congruence)). cbv zeta in WT. fold L in WT.
    destruct WT as (W1 & W2 & W3 & W4 & W5 & W6).
    unfold ntp_epsilon_errors_norms_by. cbn [key bind]. rewrite (dict_errors _ _ _ _ _ E). cbn [bind]. fold Y.
    destruct (gexp_mul _ _ _ _ _ GD GW) as (ga & Ega & Ga). rewrite Ega. cbn [bind].
    rewrite (gexp_left mul _ _ _ _ Ga) by (rewrite map_length; exact LY). cbn [bind]. rewrite <- TA.
    set (A := np_sum (map t_area L)).
    assert (HA : summed (map t_area L) A) by apply Hsum.
    assert (HN : INR (length L) <= powerRZ 2 40) by (rewrite LL; exact Hn).
    destruct (area_sum b L A Hb OK HN HA) as (FA & Z0 & NZ).
    rewrite (area_denom A FA). destruct (Req_bool_spec (fval A) 0) as [E0|N0].
    - exists zero, zero. split; [reflexivity|]. unfold norms_hold. split; [intros _; split; reflexivity|].
      intros H. exfalso. rewrite W1 in H. destruct (NZ H) as [Q1 [Q2 _]]. rewrite E0 in Q2.
      assert (0 < Rsum (map r_area L)) by (pose proof (pow2_pos (-200)); lra).
      assert (K : (2 * INR (length L) + 4) * u64 <= / 2). { rewrite u64_eq. assert (E40 : powerRZ 2 40 = 1099511627776) by (simpl; lra). lra. }
      assert (0 < Rsum (map r_area L) * (1 - (2 * INR (length L) + 4) * u64)) by (apply Rmult_lt_0_compat; lra). lra.
    - assert (TN : Rsum (map r_area L) <> 0) by (intros H; apply N0, Z0; exact H).
      assert (n0 : n <> 0%nat) by (intros H; rewrite H in LL; destruct L; [apply TN; reflexivity|discriminate]).
      destruct (gexp_div _ _ _ _ _ GW GD n0) as (gr & Egr & Gr).
      { clear - FD Md. revert Md. induction FD as [|d r D ds [F E] FD IH]; intros Md; [constructor|]. inversion Md as [|? ? [M1 M2] Md']; subst.
        constructor; [|apply IH; exact Md']. change (zero : f64) with (lit 0 0 : f64). rewrite (area_denom d F). apply Req_bool_false.
        pose proof (pow2_pos (-100)). lra. }
      rewrite Egr. cbn [bind].
      rewrite (gexp_left mul _ _ _ _ Gr) by (rewrite map_length; exact LY). cbn [bind].
      rewrite (gexp_left mul _ _ _ _ GW) by (rewrite map_length; exact LY). cbn [bind].
      unfold nansum_by. change (fun x : f64 => if isnan x then zero else x) with tidy. rewrite <- TS, <- TB.
      eexists; eexists. split; [reflexivity|]. unfold norms_hold. split; [intros H; elim TN; rewrite <- W1; exact H|]. intros _.
      unfold wmean. rewrite W1, W2, W3, W4, W5, W6. rewrite <- LL. split.
      + exact (rms_within b L A (np_sum (map t_square L)) (np_sum (map t_abs L)) Hb OK HN HA (Hsum _) (Hsum _) TN).
      + exact (mav_within b L A (np_sum (map t_square L)) (np_sum (map t_abs L)) Hb OK HN HA (Hsum _) (Hsum _) TN).
  Qed.
End Norms.

(** the errors divided by distances *)
Lemma holds_div x b (y d : f64) : finite64 d -> moderate (fval d) -> powerRZ 2 (-100) <= b -> (forall r, x = Some r -> Rabs r * powerRZ 2 (-50) <= b <= 1) ->
  error_holds x b y -> error_holds (option_map (fun x => x / fval d) x) (2 * b / fval d) (div y d).
Proof.
  intros Fd [D1 D2] Hb Hx. pose proof (pow2_pos (-100)) as P. destruct x as [x|]; cbn [error_holds option_map].
  2: { intros ->. destruct d as [s|s| |s m e]; try reflexivity. }
  destruct (Hx x eq_refl) as [X1 X2]. intros [Fy W]. assert (Dp : 0 < fval d) by lra.
  set (v := fval y) in *. assert (V : Rabs v <= Rabs x + b).
  { replace v with (x + (v - x)) by ring. eapply Rle_trans; [apply Rabs_triang|]. lra. }
  assert (IP : 0 < / fval d) by (apply Rinv_0_lt_compat; exact Dp).
  assert (I1 : powerRZ 2 (-100) <= / fval d).
  { change (-100)%Z with (- (100))%Z. rewrite pow2_inv. apply Rinv_le_contravar; lra. }
  assert (I2 : / fval d <= powerRZ 2 100).
  { replace (powerRZ 2 100) with (/ powerRZ 2 (-100)); [apply Rinv_le_contravar; lra|]. change (-100)%Z with (- (100))%Z. rewrite pow2_inv. apply Rinv_inv. }
  assert (P50 : powerRZ 2 (-50) = / 1125899906842624) by (simpl; lra).
  assert (Vb : Rabs v <= powerRZ 2 51). { simpl. rewrite P50 in X1. pose proof (Rabs_pos x). lra. }
  assert (Q : Rabs (v / fval d) <= big64).
  { unfold Rdiv. rewrite Rabs_mult, (Rabs_right (/ fval d)) by lra. apply Rle_trans with (powerRZ 2 51 * powerRZ 2 100); [apply Rmult_le_compat; try assumption; [apply Rabs_pos|lra]|].
    rewrite pow2_mul. apply pow2_le. lia. }
  destruct (div_val y d Fy Fd ltac:(lra) (rnd_small _ Q)) as [F E]. split; [exact F|]. change (sf_div y d) with (div y d) in E. fold v in E. rewrite E.
  assert (R := rnd_err (v / fval d)).
  replace (rnd (v / fval d) - x / fval d) with ((rnd (v / fval d) - v / fval d) + (v - x) * / fval d) by (unfold Rdiv; ring).
  eapply Rle_trans; [apply Rabs_triang|]. rewrite (Rabs_mult (v - x)), (Rabs_right (/ fval d)) by lra.
  unfold Rdiv in R at 3. rewrite Rabs_mult, (Rabs_right (/ fval d)) in R by lra.
  assert (E1 : eta64 <= b / 8 * / fval d).
  { apply Rle_trans with (powerRZ 2 (-100) / 8 * powerRZ 2 (-100)); [|apply Rmult_le_compat; lra].
    apply Rle_trans with (powerRZ 2 (-203)); [apply pow2_le; lia|]. 
    replace (powerRZ 2 (-100) / 8 * powerRZ 2 (-100)) with (powerRZ 2 (-100) * powerRZ 2 (-100) * / 8) by lra.
    change (-203)%Z with (-100 + -100 + -3)%Z. rewrite <- !pow2_mul. simpl (powerRZ 2 (-3)). lra. }
  assert (E2 : u64 * (Rabs v * / fval d) <= b / 4 * / fval d).
  { rewrite <- Rmult_assoc. apply Rmult_le_compat_r; [lra|]. rewrite u64_eq. rewrite P50 in X1. lra. }
  assert (E3 : Rabs (v - x) * / fval d <= b * / fval d) by (apply Rmult_le_compat_r; lra).
  unfold Rdiv at 3. assert (0 < b * / fval d) by (apply Rmult_lt_0_compat; lra). lra.
Qed.

Definition per_distance (X : list (option R)) (ds : list R) : list (option R) := map (fun p => option_map (fun x => x / snd p) (fst p)) (combine X ds).

Lemma errors_dist f stp edges dist perp e X b ds : ntp_epsilon_error1 f stp edges = Ok e ->
  Forall2 (fun x y => error_holds x b y) X e -> powerRZ 2 (-100) <= b -> (forall r, In (Some r) X -> Rabs r * powerRZ 2 (-50) <= b <= 1) ->
  distances64 dist (length edges) ds -> Forall moderate ds ->
  exists e', ntp_epsilon_errors f stp (GDict (Some edges) (Some dist) perp) = Ok e'
    /\ length e' = length edges
    /\ forall i x d y, nth_error X i = Some x -> nth_error ds i = Some d -> nth_error e' i = Some y ->
         error_holds (option_map (fun x => x / d) x) (2 * b / d) y.
Proof.
  intros E HX Hb Hx Hd Md. assert (Le : length e = length edges) by (apply mapM_inv in E; apply E).
  destruct (distances64_exp _ _ _ Hd) as (D & GD & FD). exists (map2 div e D).
  unfold ntp_epsilon_errors. cbn [key bind]. rewrite E. cbn [bind]. rewrite (gexp_right div _ _ _ _ GD Le).
  split; [reflexivity|]. assert (LD : length D = length edges) by apply GD. split; [rewrite map2_length; congruence|].
  assert (K : length e = length D) by congruence. clear - HX Hb Hx FD Md K.
  revert D ds FD Md K Hx. induction HX as [|x y X e H HX IH]; intros D ds FD Md K Hx i x' d y' H1 H2 H3; [destruct i; discriminate|].
  destruct FD as [|dd r D ds [F Er] FD]; [discriminate|]. inversion Md as [|? ? M1 M2]; subst.
  destruct i as [|i]; cbn [nth_error] in H1, H2.
  - injection H1 as <-. injection H2 as <-. cbn in H3. injection H3 as <-. apply holds_div; trivial. intros r' ->. apply Hx. left. reflexivity.
  - apply (IH D ds FD M2 ltac:(injection K; trivial) (fun r Hr => Hx r (or_intror Hr)) i x' d y' H1 H2). exact H3.
Qed.
