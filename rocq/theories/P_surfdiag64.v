(** * Neutrality diagnostics of surfaces in binary64 *)
From Coq Require Import ZArith Bool String Reals Lra Lia List SpecFloat.
From Verif Require Import Num XR SF Res Arr ArrLemmas Nd NdLemmas M_eostools P_holds
  M_lib M_ntp M_make_pp M_omega M_surfaces S_eos S_float S_interp S_domain S_named S_traj M_traj M_vertsolve S_vertsolve S_surfaces S_vert64 S_fzero64 S_entry64
  P_float P_fl P_vertsolve P_surfaces P_linear64 P_surf64 P_traj64 P_entry64 S_ntp S_ntp64 P_sum64 P_ntp64b.
Import ListNotations.
Local Open Scope R_scope.

Lemma xr_out_arr {F} (a : nd F) c s : xr_out a c = Ok s -> arr s = a.
Proof. unfold xr_out. destruct c as [[ds sh]|]; [destruct list_eq_dec|]; intros H; try discriminate; injection H as <-; reflexivity. Qed.

Lemma at_pos_map {F} {N : Num F} sh (x : list (F * F * F)) y : length x = prod sh -> (forall h, valid sh h -> at_pos sh x h = y h) -> x = map y (all_idx sh).
Proof.
  intros L H. apply nth_error_ext. intros i. destruct (Nat.lt_ge_cases i (prod sh)) as [Hi|Hi].
  - destruct (ravel_surj sh i Hi) as (h & V & <-). rewrite nth_error_map, nth_error_all_idx by exact V. cbn [option_map]. rewrite <- H by exact V. apply at_pos_nth; assumption.
  - rewrite (proj2 (nth_error_None _ i)), (proj2 (nth_error_None _ i)) by (rewrite ?map_length, ?length_all_idx; lia). reflexivity.
Qed.

Section Diags.
  Context {F : Type} {N : Num F}.

  (** the arrays determine the surface *)
  Lemma holds_list S T s1 s2 sh s t p (x0 : list (F * F * F)) x ds ts : S_surfaces.holds S T s1 s2 s t p x ->
    xr_out (s_of sh x0) ds = Ok s -> xr_out (t_of sh x0) ts = Ok t -> xr_out (p_of sh x0) ds = Ok p -> x0 = map x (all_idx (s1 ++ s2)).
  Proof.
    intros [(Ws & Ss & _) _ _ Hx] Es Et Ep. apply xr_out_arr in Es, Et, Ep. rewrite Es in *. rewrite Et, Ep in Hx.
    cbn [s_of shape] in Ss. subst sh. unfold wf in Ws. cbn [s_of shape elems] in Ws. rewrite map_length in Ws.
    apply at_pos_map; [exact Ws|]. intros h V. destruct (Hx h V) as (A & B & C). unfold at_ in A, B, C. cbn [s_of t_of p_of shape elems] in A, B, C.
    rewrite nth_error_map, (at_pos_nth _ _ _ Ws V) in A, B, C. cbn [option_map] in A, B, C.
    destruct (at_pos (s1 ++ s2) x0 h) as [[u w] q], (x h) as [[u' w'] q']. cbn [fst snd] in *. congruence.
  Qed.

  (** asking for diagnostics changes nothing else *)
  Lemma diags_run S T P s1 s2 s t p x index junk fuel a ref iso pin pin_p vd tol name rho_c grav g0 interp r i grid g ee :
    isopycnal_surf junk fuel a S T P index (mkIso ref iso pin pin_p vd tol (AStr name) rho_c grav false g0 interp) = Ok (s, t, p, mkIsoDiags r i None) ->
    S_surfaces.holds S T s1 s2 s t p x -> has_edges grid = true ->
    make_eos_s_t sdiv (AStr name) grav rho_c = Ok g ->
    ntp_epsilon_errors_norms (two_values (Some g)) (map x (all_idx (s1 ++ s2))) grid = Ok ee ->
    isopycnal_surf junk fuel a S T P index (mkIso ref iso pin pin_p vd tol (AStr name) rho_c grav true grid interp)
    = Ok (s, t, p, mkIsoDiags r i (Some (fst ee, snd ee, n_finite (map x (all_idx (s1 ++ s2)))))).
  Proof.
    intros E Hh Hg Hp Hn. unfold isopycnal_surf in *. cbn [k_interp k_vert_dim k_pin_cast k_eos k_grav k_rho_c k_diags k_grid k_ref k_isoval k_pin_p k_tol] in *.
    destruct (make_pp interp "1" "coeffs" false 1) as [ppc|]; [|discriminate]. cbn [bind] in *.
    destruct (xrs_in S T vd) as [[[sx tx] px]|] eqn:Ex; [|discriminate]. cbn [bind] in *.
    assert (px = sx) as ->.
    { unfold xrs_in in Ex. destruct (xr_in S vd); [|discriminate]. destruct (xr_in T vd); [|discriminate]. cbn [bind] in Ex. congruence. }
    destruct (pin_of pin S index) as [pc|]; [|discriminate]. cbn [bind] in *.
    destruct (process_casts S T P vd) as [stp|]; [|discriminate]. cbn [bind] in *.
    cbn [_process_eos] in *. rewrite Hp. cbn [bind].
    destruct (make_eos sdiv (AStr name) grav rho_c) as [f'|]; [|discriminate]. cbn [bind] in *.
    cbn [fst snd] in *. rewrite Hg. cbn [andb negb bind] in *.
    destruct (columns_of stp) as [[casts nz]|]; [|discriminate]. cbn [bind] in *.
    destruct (isopycnal _ _ _ _ _ _ _ _ _ _ _) as [[[x0 rv] iv]|]; [|discriminate]. cbn [bind] in *.
    destruct (xr_out (s_of (shape casts) x0) sx) as [s'|] eqn:Es; [|discriminate]. cbn [bind] in E.
    destruct (xr_out (t_of (shape casts) x0) tx) as [t'|] eqn:Et; [|discriminate]. cbn [bind] in E.
    destruct (xr_out (p_of (shape casts) x0) sx) as [p'|] eqn:Ep; [|discriminate]. cbn [bind] in E.
    injection E as -> -> -> -> ->.
    rewrite <- (holds_list S T s1 s2 (shape casts) s t p x0 x sx tx Hh Es Et Ep) in *. rewrite Hn. reflexivity.
  Qed.
End Diags.

Lemma n_finite_waters sh (x : list nat -> f64 * f64 * f64) w rel e c : (forall h, valid sh h -> on_column rel e (c h) (x h) (w h)) ->
  n_finite (map x (all_idx sh)) = waters sh w.
Proof.
  intros H. unfold n_finite, waters.
  assert (G : forall h, In h (all_idx sh) -> on_column rel e (c h) (x h) (w h)) by (intros h Hh; apply H, in_all_idx, Hh).
  clear H. induction (all_idx sh) as [|h l IH]; [reflexivity|]. cbn [map filter].
  specialize (IH (fun h' Hh' => G h' (or_intror Hh'))).
  destruct (G h (or_introl eq_refl)) as [[-> ->]|(vs & vt & (gS & gT & lo & hi & s & t & p & _ & Ex & Fp & _) & ->)].
  - cbn [snd]. exact IH.
  - rewrite Ex. cbn [snd]. rewrite (finite_isfinite p Fp : @isfinite f64 sfNum p = true). cbn [length]. rewrite IH. reflexivity.
Qed.

Lemma on_column_holds D rel e c (x : f64 * f64 * f64) w : (forall s, dS D s -> 0 < s) -> cast_in D c -> on_column rel e c x w -> bottle_holds D e x w.
Proof.
  intros Hpos Hin [[-> ->]|(vs & vt & (gS & gT & lo & hi & s & t & p & Hp & -> & Fp & Hr & -> & -> & Ws & Wt) & ->)].
  - left. reflexivity.
  - destruct (profile_in D rel c gS gT lo hi Hin Hp (fval p) Hr) as (A & B & C). cbn [bottle_holds snd].
    split; [exact Ws|]. split; [exact Wt|]. split; [exact Fp|]. split; [reflexivity|]. split; [exact A|]. split; [exact (Hpos _ A)|]. split; [exact B|exact C].
Qed.

Lemma sea_mono s0 sm pm h : s0 <= sm -> forall x w, bottle_holds (sea sm pm) h x w -> bottle_holds (sea s0 pm) h x w.
Proof.
  intros H [[s t] p] [[[vs vt] vp]|]; cbn [bottle_holds]; [|auto].
  intros (A & B & C & D & E1 & E2 & E3 & E4). split; [exact A|]. split; [exact B|]. split; [exact C|]. split; [exact D|].
  split; [|split; [exact E2|split; [exact E3|exact E4]]]. cbn [sea box dS] in *. unfold upto in *. lra.
Qed.

Lemma surface_on_column rel H tol e d c x : surface_point64 rel H tol e d c x -> exists w, on_column rel e c x w.
Proof.
  intros [[_ ->]|(gS & gT & lo & hi & Hp & [[-> _]|(s & t & p & r & -> & Fp & Hr & Ws & Wt & _)])].
  - exists None. left. split; reflexivity.
  - exists None. left. split; reflexivity.
  - exists (Some (gS (fval p), gT (fval p), fval p)). right. exists (gS (fval p)), (gT (fval p)). split; [|reflexivity].
    exists gS, gT, lo, hi, s, t, p. split; [exact Hp|]. split; [reflexivity|]. split; [exact Fp|]. split; [exact Hr|]. split; [reflexivity|]. split; [reflexivity|]. split; [exact Ws|exact Wt].
Qed.

(** choosing the water for each position *)
Lemma choose_water {A} (Q : list nat -> option A -> Prop) sh : (forall h, valid sh h -> exists w, Q h w) -> exists f, forall h, valid sh h -> Q h (f h).
Proof.
  intros H. assert (G : exists l, Forall2 Q (all_idx sh) l).
  { assert (H' : forall h, In h (all_idx sh) -> exists w, Q h w) by (intros h Hh; apply H, in_all_idx, Hh).
    clear H. induction (all_idx sh) as [|h l IH]; [exists []; constructor|].
    destruct (H' h (or_introl eq_refl)) as [w Hw]. destruct IH as [l' Hl]; [intros k Hk; apply H'; right; exact Hk|]. exists (w :: l'). constructor; assumption. }
  destruct G as [l G]. exists (fun h => nth (ravel sh h) l None). intros h V. pose proof (nth_error_all_idx sh h V) as E. revert E. generalize (ravel sh h). clear V H.
  induction G as [|a w la lw Ha _ IH]; intros [|i] E; try discriminate; cbn in *; [injection E as <-; exact Ha|apply IH; exact E].
Qed.

Theorem diagnostics64 rel e interp name v s0 b grav rho_c zp pm vs vt sm : named_eos name v -> error_limits64 name s0 e b -> coordinate64 grav rho_c zp pm ->
  partials (seas zp) (at_depth zp v) vs vt -> s0 <= sm -> 0 < sm ->
  forall S T s1 s2 c' s t p x w, (forall h, valid (s1 ++ s2) h -> cast_in (sea sm pm) (c' h)) -> S_surfaces.holds S T s1 s2 s t p x ->
  (forall h, valid (s1 ++ s2) h -> on_column rel e (c' h) (x h) (w h)) ->
  forall grid edges ds ws, geometry64 (s1 ++ s2) grid edges ds ws ->
  exists rms mav, norms_hold b (length edges) (wet (edge_errors vs vt (map w (all_idx (s1 ++ s2))) edges) ds ws) rms mav
    /\ forall P vd index junk fuel a ref iso pin pin_p tol g0 r i,
       isopycnal_surf junk fuel a S T P index (mkIso ref iso pin pin_p vd tol (AStr name) rho_c grav false g0 interp) = Ok (s, t, p, mkIsoDiags r i None) ->
       isopycnal_surf junk fuel a S T P index (mkIso ref iso pin pin_p vd tol (AStr name) rho_c grav true grid interp)
       = Ok (s, t, p, mkIsoDiags r i (Some (rms, mav, waters (s1 ++ s2) w))).
Proof.
  intros Hn HL Hco Hp H0 H1 S T s1 s2 c' s t p x w Hc Hh Hw grid edges ds ws (dist & perp & -> & He & HN & Hd & Hpp & Md & Mw).
  destruct (errors64 name v s0 e b grav rho_c zp pm vs vt Hn HL Hco Hp) as (f & Ef & H). set (sh := s1 ++ s2) in *.
  assert (HB : Forall2 (bottle_holds (sea s0 pm) e) (map x (all_idx sh)) (map w (all_idx sh))).
  { assert (G : forall h, In h (all_idx sh) -> bottle_holds (sea s0 pm) e (x h) (w h)).
    { intros h Hh'. apply in_all_idx in Hh'. apply (sea_mono s0 sm pm e H0). apply (on_column_holds _ rel e (c' h)); [|exact (Hc h Hh')|exact (Hw h Hh')].
      intros q Hq. cbn [sea box dS] in Hq. unfold upto in Hq. lra. }
    clear - G. induction (all_idx sh) as [|h l IH]; [constructor|]. cbn [map]. constructor; [apply G; left; reflexivity|]. apply IH. intros k Hk. apply G. right. exact Hk. }
  assert (LE : Forall (fun e : nat * nat => (fst e < length (map x (all_idx sh)))%nat /\ (snd e < length (map x (all_idx sh)))%nat) edges)
    by (rewrite map_length, length_all_idx; exact He).
  destruct (H _ _ edges HB LE) as (_ & _ & H3).
  destruct (H3 fsum dist perp ds ws fsum_summed HN Hd Hpp Md Mw) as (rms & mav & En & Hr).
  exists rms, mav. split; [exact Hr|]. intros P vd index junk fuel a ref iso pin pin_p tol g0 r i E.
  rewrite <- (n_finite_waters sh x w rel e c' Hw).
  exact (diags_run S T P s1 s2 s t p x index junk fuel a ref iso pin pin_p vd tol name rho_c grav g0 interp r i
    (GDict (Some edges) (Some dist) (Some perp)) (F2 f) (rms, mav) E Hh eq_refl Ef En).
Qed.

Section Entries.
  Variables (interp : string) (ppc : f64 -> list f64 -> list f64 -> res (list (list f64))) (rel : nat -> (nat -> R) -> (nat -> R) -> (R -> R) -> Prop) (e : R).
  Hypothesis Hsch : scheme64 interp ppc rel e.
  Variables (name : string) (v vs vt : R -> R -> R -> R) (s0 b d B sm : R) (grav rho_c : option f64) (zp pm : R).
  Hypotheses (Hname : named_eos name v) (HL : error_limits64 name s0 e b) (Hlim : limits64 name s0 e d B) (Hco : coordinate64 grav rho_c zp pm)
    (Hp : partials (seas zp) (at_depth zp v) vs vt) (H0 : s0 <= sm) (H1 : 0 < sm).
  Variables (S T P : @data f64) (vd : vdim) (s1 : list nat) (n : nat) (s2 : list nat) (c : list nat -> column64) (c' : list nat -> column).
  Hypothesis Hw : water_columns S T P vd s1 n s2 c.
  Hypothesis Hcol : forall h, valid (s1 ++ s2) h -> holds_column (c h) (c' h) /\ any_cast (c' h) /\ cast_in (sea sm pm) (c' h) /\ column_spaced (c' h).
  Variables (tol : f64).
  Hypotheses (Ftol : finite64 tol) (Htol : tolerance_ok (fval tol)).
  Variables (grid : @gridarg f64) (edges : list (nat * nat)) (ds ws : list R).
  Hypothesis Hg : geometry64 (s1 ++ s2) grid edges ds ws.
  Variables (index : string -> option (list f64)) (junk : f64).
  Notation sh := (s1 ++ s2).
  Notation fueled fuel := (forall h, valid (s1 ++ s2) h -> enough_fuel64 fuel (fval tol) (c' h)).
  Notation args ref iso pin pin_p := (mkIso ref iso pin pin_p vd tol (AStr name) rho_c grav true grid interp).
  Notation norms w := (norms_hold b (length edges) (wet (edge_errors vs vt (map w (all_idx (s1 ++ s2))) edges) ds ws)).

  Lemma cast_mono c0 : cast_in (sea sm pm) c0 -> cast_in (sea s0 pm) c0.
  Proof.
    destruct c0 as [[Sc Tc] Pc]. intros Hin k K ss ts ps HC i Hi. destruct (Hin k K ss ts ps HC i Hi) as (A & A2 & A3).
    cbn [sea box dS dT dP] in *. unfold upto in *. repeat split; lra.
  Qed.
  Lemma columns_mono h : valid sh h -> holds_column (c h) (c' h) /\ any_cast (c' h) /\ cast_in (sea s0 pm) (c' h) /\ column_spaced (c' h).
  Proof. intros V. destruct (Hcol h V) as (A & A2 & A3 & A4). exact (conj A (conj A2 (conj (cast_mono _ A3) A4))). Qed.

  Lemma potential_diags64 (ref iso : f64) : finite64 ref -> 0 <= fval ref <= pm -> finite64 iso -> Rabs (fval iso) <= B ->
    exists s t p x w rms mav, S_surfaces.holds S T s1 s2 s t p x
      /\ (forall fuel, fueled fuel -> potential_surf junk fuel S T P index (args (RFloat ref) (Some iso) ANone PNone)
            = Ok (s, t, p, mkIsoDiags (RFloat ref) iso (Some (rms, mav, waters sh w))))
      /\ (forall h, valid sh h -> surface_point64 rel (potential_of (at_depth zp v) (fval ref) (fval iso)) (fval tol) e d (c' h) (x h)
            /\ on_column rel e (c' h) (x h) (w h))
      /\ norms w rms mav.
  Proof.
    intros Fr Hr Fi Bi.
    destruct (potential_entry64 interp ppc rel e Hsch name v s0 d B grav rho_c zp pm Hname Hlim Hco S T P vd s1 n s2 c c' Hw columns_mono tol Ftol Htol grid index junk ref iso Fr Hr Fi Bi)
      as (s & t & p & x & Hh & E & Hx).
    destruct (choose_water (fun h w => on_column rel e (c' h) (x h) w) sh) as [w Hww]; [intros h V; exact (surface_on_column _ _ _ _ _ _ _ (Hx h V))|].
    destruct (diagnostics64 rel e interp name v s0 b grav rho_c zp pm vs vt sm Hname HL Hco Hp H0 H1 S T s1 s2 c' s t p x w (fun h V => proj1 (proj2 (proj2 (Hcol h V)))) Hh Hww
      grid edges ds ws Hg) as (rms & mav & HN & HE).
    exists s, t, p, x, w, rms, mav. split; [exact Hh|]. split; [|split; [|exact HN]].
    - intros fuel Hf. exact (HE P vd index junk fuel Potential _ _ _ _ tol grid _ _ (E fuel Hf)).
    - intros h V. split; [exact (Hx h V)|exact (Hww h V)].
  Qed.
  Lemma anomaly_diags64 (sr tr iso : f64) : finite64 sr -> s0 <= fval sr <= 42 -> finite64 tr -> -3 <= fval tr <= 40 -> finite64 iso -> Rabs (fval iso) <= B ->
    exists s t p x w rms mav, S_surfaces.holds S T s1 s2 s t p x
      /\ (forall fuel, fueled fuel -> anomaly_surf junk fuel S T P index (args (RPair (Some sr) (Some tr)) (Some iso) ANone PNone)
            = Ok (s, t, p, mkIsoDiags (RPair (Some sr) (Some tr)) iso (Some (rms, mav, waters sh w))))
      /\ (forall h, valid sh h -> surface_point64 rel (anomaly_of (at_depth zp v) (fval sr) (fval tr) (fval iso)) (fval tol) e (2 * d) (c' h) (x h)
            /\ on_column rel e (c' h) (x h) (w h))
      /\ norms w rms mav.
  Proof.
    intros Fs Hs Ft Ht Fi Bi.
    destruct (anomaly_entry64 interp ppc rel e Hsch name v s0 d B grav rho_c zp pm Hname Hlim Hco S T P vd s1 n s2 c c' Hw columns_mono tol Ftol Htol grid index junk sr tr iso Fs Hs Ft Ht Fi Bi)
      as (s & t & p & x & Hh & E & Hx).
    destruct (choose_water (fun h w => on_column rel e (c' h) (x h) w) sh) as [w Hww]; [intros h V; exact (surface_on_column _ _ _ _ _ _ _ (Hx h V))|].
    destruct (diagnostics64 rel e interp name v s0 b grav rho_c zp pm vs vt sm Hname HL Hco Hp H0 H1 S T s1 s2 c' s t p x w (fun h V => proj1 (proj2 (proj2 (Hcol h V)))) Hh Hww
      grid edges ds ws Hg) as (rms & mav & HN & HE).
    exists s, t, p, x, w, rms, mav. split; [exact Hh|]. split; [|split; [|exact HN]].
    - intros fuel Hf. exact (HE P vd index junk fuel Anomaly _ _ _ _ tol grid _ _ (E fuel Hf)).
    - intros h V. split; [exact (Hx h V)|exact (Hww h V)].
  Qed.
End Entries.
