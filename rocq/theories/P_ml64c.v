(** * The mixed layer in binary64: the entry point *)
From Coq Require Import String ZArith Bool Reals Lra Lia List SpecFloat.
From Verif Require Import Num XR SF Res Arr ArrLemmas Nd NdLemmas XRlemmas M_numpy M_lib M_ppinterp M_make_pp M_eos_base M_eostools M_mixed_layer
  S_eos S_float S_interp S_domain S_named S_traj S_vertsolve S_vert64 S_entry64 S_omega64 S_surfaces S_mixed_layer S_ml64
  P_float P_fl P_holds P_surf64 P_lib P_mixed_layer P_mixed_layer2 P_surfaces3 P_ml64 P_ml64b.
Import ListNotations.
Local Open Scope R_scope.

Lemma excess64_min name s0 η : excess64 name s0 η -> dec 6 (-12) <= η.
Proof. intros []; unfold dec; simpl; lra. Qed.

(** from columns to arrays *)
Lemma ml_entry (name : string) rho s0 η grav rho_c zp pm (ref : f64) interp fn (x : f64) b :
  density name rho -> excess64 name s0 η -> coordinate64 grav rho_c zp pm -> 1000 <= pm -> finite64 ref -> 0 <= fval ref <= pm ->
  (interp = "linear" /\ fn = linear_interp_1 \/ interp = "pchip" /\ fn = pchip_interp_1)%string ->
  forall (S T P : @data f64) v s1 n s2 c, water_columns S T P v s1 n s2 c ->
  forall Q : list nat -> f64 -> Prop,
  (forall f h, potdens64 f ref (sea s0 pm) (fun s t => rho s t (fval ref * zp)) η -> valid (s1 ++ s2) h ->
     exists y, mixed_layer_1 f fn x ref b (fst (fst (c h))) (snd (fst (c h))) (snd (c h)) = Ok y /\ Q h y) ->
  exists out, mixed_layer S T P (AStr name) grav rho_c x ref b interp v = Ok out /\ shape out = s1 ++ s2 /\ wf out
    /\ forall h, valid (s1 ++ s2) h -> exists y, at_ out h = Some y /\ Q h y.
Proof.
  intros Hd Hx Hco Hpm Fr Hr Hi S T P v s1 n s2 c Hw Q HQ.
  destruct (potdens_named name rho s0 η grav rho_c zp pm ref Hd Hx Hco Hpm Fr Hr) as (f & Ef & Hf).
  rewrite (P_surfaces3.mixed_layer_columns S T P v s1 n s2 c _ _ _ _ _ _ _ Hw), Ef. cbn [bind vectorized].
  assert (En : exists nm, make_pp interp "u" "interp" true 1 = Ok nm /\ M_mixed_layer.interp_named (F := f64) nm = fn).
  { destruct Hi as [[-> ->]|[-> ->]]; eexists; split; reflexivity. }
  destruct En as (nm & -> & En). cbn [bind]. rewrite En.
  set (g := fun h => mixed_layer_1 f fn x ref b (fst (fst (c h))) (snd (fst (c h))) (snd (c h))).
  destruct (buildM_ok (s1 ++ s2) g) as (out & Eo & So & Wo & Ho).
  { intros h V. destruct (HQ f h Hf V) as (y & Ey & _). exists y. exact Ey. }
  exists out. split; [exact Eo|]. split; [exact So|]. split; [exact Wo|]. intros h V. destruct (Ho h V) as (y & Ay & Gy). exists y. split; [exact Ay|].
  destruct (HQ f h Hf V) as (y' & Ey & Hy). unfold g in Gy. rewrite Ey in Gy. injection Gy as <-. exact Hy.
Qed.

Section Column.
  Variables (f : f64 -> f64 -> f64 -> res f64) (ref : f64) (s0 pm : R) (rho : R -> R -> R) (η : R).
  Hypothesis HQ : potdens64 f ref (sea s0 pm) rho η.
  Hypothesis Hη : dec 6 (-12) <= η.
  Hypothesis Hpm : pm <= 10000.
  Variables (c : list f64 * list f64 * list f64) (c' : S_vertsolve.column).
  Hypothesis Hh : holds_column c c'.
  Variables (b : Z) (B : nat).
  Hypothesis Hb : py_index (length (fst (fst c))) b B.
  Hypothesis HL : length (fst (fst c')) = length (snd c') /\ length (snd (fst c')) = length (snd c').

  Lemma sea_press y : dP (sea s0 pm) y -> Rabs y <= 10000.
  Proof. cbn [sea box dP]. unfold upto. intros H. apply Rabs_le. lra. Qed.

  Lemma bottle_nan cf (x : f64) : nth_error (fst (fst c')) B = Some NaN -> levels_in (sea s0 pm) (fst (fst c')) (snd (fst c')) ->
    mixed_layer_1 f (ppinterp_1 cf) x ref b (fst (fst c)) (snd (fst c)) (snd c) = Ok nan.
  Proof.
    intros HB Hl. destruct c as [[S T] P], c' as [[S' T'] P'], Hh as (HS & HT & HP), HL as [L1 L2]. cbn [fst snd] in *.
    exact (no_bottle f ref (sea s0 pm) rho η HQ S T P S' T' P' HS HT HP L1 L2 Hl b B Hb cf x HB).
  Qed.

  Lemma column_stable64 interp fn rel e (x : f64) : pressure_scheme64 interp fn rel e -> float64 x -> mixable (sea s0 pm) rho B η c' ->
    exists y, mixed_layer_1 f fn x ref b (fst (fst c)) (snd (fst c)) (snd c) = Ok y /\ mixed64 rel (sea s0 pm) rho B η e c' x y.
  Proof.
    intros Hs Hx [[HB Hl]|(k & K & ys & ps & Hlay & Hst)].
    - exists nan. split; [|left; split; [exact HB|split; [exact Hl|reflexivity]]]. destruct Hs; exact (bottle_nan _ x HB Hl).
    - assert (HkK : (k <= B < K)%nat) by apply (la_bottle _ _ _ _ _ _ _ _ Hlay). destruct c as [[S T] P]. cbn [fst snd] in *.
      destruct (Nat.eq_dec K (k + 1)) as [EK|NK].
      + exists nan. split; [|right; exists k, K, ys, ps; split; [exact Hlay|left; split; [exact EK|reflexivity]]].
        destruct Hs; exact (ml_single f ref (sea s0 pm) rho η HQ S T P c' Hh b B Hb k K ys ps Hlay _ x EK).
      + assert (HK : (k + 1 < K)%nat) by lia.
        destruct (ml_stable64 f ref (sea s0 pm) rho η HQ Hη sea_press S T P c' Hh b B Hb k K ys ps Hlay interp fn rel e x Hs HK Hst Hx) as (y & Ey & Hy).
        exists y. split; [exact Ey|]. right. exists k, K, ys, ps. split; [exact Hlay|]. right. split; [exact HK|exact Hy].
  Qed.

  Lemma column_linear64 (x : f64) : float64 x -> decided (sea s0 pm) rho B η c' x ->
    exists y, mixed_layer_1 f linear_interp_1 x ref b (fst (fst c)) (snd (fst c)) (snd c) = Ok y /\ crossing64 (sea s0 pm) rho B η (dec 2 (-11)) c' x y.
  Proof.
    intros Hx [[HB Hl]|(k & K & ys & ps & Hlay & Hd)].
    - exists nan. split; [exact (bottle_nan _ x HB Hl)|left; split; [exact HB|split; [exact Hl|reflexivity]]].
    - destruct c as [[S T] P]. cbn [fst snd] in *.
      assert (Hd' : (~ finite64 x \/ fval x < ys k - η \/ ys (K - 1)%nat + η < fval x) \/ finite64 x /\ ys k + η < fval x <= ys (K - 1)%nat - η).
      { destruct Hd as [H|[H|[H|H]]]; [left; left; exact H|left; right; left; exact H|left; right; right; exact H|].
        destruct Hx as [Fx|Nx]; [right; split; assumption|]. left. left. intros Fx. change (isfinite x) with (sf_isfinite x) in Nx.
        rewrite (finite_isfinite x Fx) in Nx. discriminate. }
      destruct Hd' as [Ho|[Fx Hi]].
      + exists nan. split; [|right; exists k, K, ys, ps; split; [exact Hlay|left; split; [exact Ho|reflexivity]]].
        apply (ml_outside64 f ref (sea s0 pm) rho η HQ S T P c' Hh b B Hb k K ys ps Hlay _ x Hx). intros Fx. destruct Ho as [N|Ho]; [destruct (N Fx)|exact Ho].
      + destruct (ml_linear64 f ref (sea s0 pm) rho η HQ sea_press S T P c' Hh b B Hb k K ys ps Hlay x Fx Hi) as (y & i & r & z & Ey & H1 & H2 & H3 & H4 & H5 & H6).
        exists y. split; [exact Ey|]. right. exists k, K, ys, ps. split; [exact Hlay|]. right. exists i, r, z. split; [exact H1|]. split; [exact H2|].
        split; [exact H3|]. split; [exact H4|]. split; [exact H5|exact H6].
  Qed.
End Column.

Lemma coordinate_max grav rho_c zp pm : coordinate64 grav rho_c zp pm -> pm <= 10000.
Proof. unfold coordinate64. destruct grav, rho_c; intros H; [destruct H as (_ & _ & _ & _ & _ & _ & H & _)|..]; lra. Qed.

(** the lengths of the columns *)
Lemma columns_lengths (S T P : @data f64) v s1 n s2 c h c' : water_columns S T P v s1 n s2 c -> valid (s1 ++ s2) h -> holds_column (c h) c' ->
  length (fst (fst (c h))) = n /\ length (fst (fst c')) = length (snd c') /\ length (snd (fst c')) = length (snd c').
Proof.
  intros Hw V Hh. apply valid_app_inv in V as (h1 & h2 & -> & V1 & V2). destruct (wc_c _ _ _ _ _ _ _ _ Hw h1 h2 V1 V2) as [[LS _] [LT _]].
  assert (LP : length (snd (c (h1 ++ h2))) = n).
  { destruct (wc_P _ _ _ _ _ _ _ _ Hw) as [WP [[_ HP]|[EP HP]]].
    - exact (proj1 (HP h1 h2 V1 V2)).
    - rewrite (HP _ (valid_app _ _ _ _ V1 V2)). unfold wf in WP. rewrite WP, EP. cbn [prod]. lia. }
  destruct (c (h1 ++ h2)) as [[sa ta] pa], c' as [[sb tb] pb], Hh as (HS & HT & HP). cbn [fst snd] in *.
  rewrite <- (holds_length _ _ HS), <- (holds_length _ _ HT), <- (holds_length _ _ HP). repeat split; congruence.
Qed.

Lemma entry_stable64 : forall name rho s0 d grav rho_c zp pm, density name rho -> excess64 name s0 d -> coordinate64 grav rho_c zp pm -> 1000 <= pm ->
  forall interp fn rel e, pressure_scheme64 interp fn rel e ->
  forall S T P v s1 n s2 c c', water_columns S T P v s1 n s2 c ->
  forall (ref x : f64) b B, finite64 ref -> 0 <= fval ref <= pm -> float64 x -> py_index n b B ->
  let R := fun s t => rho s t (fval ref * zp) in
  (forall h, valid (s1 ++ s2) h -> holds_column (c h) (c' h) /\ mixable (sea s0 pm) R B d (c' h)) ->
  exists out, mixed_layer S T P (AStr name) grav rho_c x ref b interp v = Ok out /\ shape out = s1 ++ s2 /\ wf out
    /\ forall h, valid (s1 ++ s2) h -> exists y, at_ out h = Some y /\ mixed64 rel (sea s0 pm) R B d e (c' h) x y.
Proof.
  intros name rho s0 d grav rho_c zp pm Hd Hx Hco Hpm interp fn rel e Hs S T P v s1 n s2 c c' Hw ref x b B Fr Hr Fx Hb R Hc.
  assert (Hi : (interp = "linear" /\ fn = linear_interp_1 \/ interp = "pchip" /\ fn = pchip_interp_1)%string).
  { destruct Hs; [left|right]; split; reflexivity. }
  apply (ml_entry name rho s0 d grav rho_c zp pm ref interp fn x b Hd Hx Hco Hpm Fr Hr Hi S T P v s1 n s2 c Hw). intros f h Hf V.
  destruct (Hc h V) as [Hh Hm]. destruct (columns_lengths _ _ _ _ _ _ _ _ _ _ Hw V Hh) as (Ln & HL).
  rewrite <- Ln in Hb.
  exact (column_stable64 f ref s0 pm _ d Hf (excess64_min _ _ _ Hx) (coordinate_max _ _ _ _ Hco) (c h) (c' h) Hh b B Hb HL interp fn rel e x Hs Fx Hm).
Qed.

Lemma entry_linear64 : forall name rho s0 d grav rho_c zp pm, density name rho -> excess64 name s0 d -> coordinate64 grav rho_c zp pm -> 1000 <= pm ->
  forall S T P v s1 n s2 c c', water_columns S T P v s1 n s2 c ->
  forall (ref x : f64) b B, finite64 ref -> 0 <= fval ref <= pm -> float64 x -> py_index n b B ->
  let R := fun s t => rho s t (fval ref * zp) in
  (forall h, valid (s1 ++ s2) h -> holds_column (c h) (c' h) /\ decided (sea s0 pm) R B d (c' h) x) ->
  exists out, mixed_layer S T P (AStr name) grav rho_c x ref b "linear" v = Ok out /\ shape out = s1 ++ s2 /\ wf out
    /\ forall h, valid (s1 ++ s2) h -> exists y, at_ out h = Some y /\ crossing64 (sea s0 pm) R B d (dec 2 (-11)) (c' h) x y.
Proof.
  intros name rho s0 d grav rho_c zp pm Hd Hx Hco Hpm S T P v s1 n s2 c c' Hw ref x b B Fr Hr Fx Hb R Hc.
  apply (ml_entry name rho s0 d grav rho_c zp pm ref "linear" linear_interp_1 x b Hd Hx Hco Hpm Fr Hr (or_introl (conj eq_refl eq_refl)) S T P v s1 n s2 c Hw).
  intros f h Hf V. destruct (Hc h V) as [Hh Hm]. destruct (columns_lengths _ _ _ _ _ _ _ _ _ _ Hw V Hh) as (Ln & HL).
  rewrite <- Ln in Hb.
  exact (column_linear64 f ref s0 pm _ d Hf (coordinate_max _ _ _ _ Hco) (c h) (c' h) Hh b B Hb HL x Fx Hm).
Qed.
