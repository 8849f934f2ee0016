(** * The entry points of traj.py *)
From Coq Require Import String ZArith Bool List Reals Lra Lia Arith.
From Verif Require Import Num XR Res Arr ArrLemmas Nd NdLemmas XRlemmas M_fzero M_lib M_ppinterp M_make_pp M_eos_base M_eostools M_mixed_layer M_traj M_surfaces M_trajentry
  S_eos S_interp S_fzero S_traj S_mixed_layer S_vertsolve S_vert64 S_named S_surfaces S_trajentry P_ppinterp P_fzero P_domain P_traj P_vertsolve P_casts P_eostools P_named P_surfaces.
Import ListNotations.

Lemma all_idx_1 n : all_idx [n] = map (fun i => [i]) (seq 0 n).
Proof. cbn [all_idx map]. induction (seq 0 n) as [|i l IH]; [reflexivity|]. cbn [flat_map app map]. rewrite IH. reflexivity. Qed.

(** ** Refusals *)
Section Generic.
  Context {F : Type} {Nm : Num F}.
  Notation bottle := (F * F * F)%type.

  Lemma sequence_elems nc (c : list nat -> list F * list F * list F) : elems (build [nc] c) = sequence nc c.
  Proof. unfold build. cbn [elems]. rewrite all_idx_1, map_map. reflexivity. Qed.

  (** the run on a sequence of columns *)
  Lemma run_sequence junk fuel (S T P : @data F) vd s1 n s2 c p0 (k : traj_args) f nm nc : water_columns S T P vd s1 n s2 c -> s1 ++ s2 = [nc] ->
    make_eos sdiv (t_eos k) (t_grav k) (t_rho_c k) = Ok f -> make_pp (t_interp k) "1" "coeffs" false 1 = Ok nm ->
    neutral_trajectory_kw junk fuel S T P p0 vd k =
    (let! x := neutral_trajectory (one_value f) (ppc_named junk nm) fuel (sequence nc c) p0 (t_tol k) in Ok (arrays x)).
  Proof.
    intros Hw E Ef En. unfold neutral_trajectory_kw. rewrite Ef, En. cbn [bind].
    destruct (columns_ok _ _ _ _ _ _ _ _ Hw) as (stp & Ec & Eco). rewrite Ec. cbn [bind].
    assert (Es : shape (fst (fst stp)) = [nc; n]).
    { clear -Eco E. destruct stp as [[s t] p]. unfold columns_of in Eco. cbn [fst].
      destruct (list_eq_dec Nat.eq_dec (shape s) (shape t)); [|discriminate]. destruct (list_eq_dec Nat.eq_dec (shape s) (shape p)); [|discriminate].
      destruct (rev (shape s)) as [|m rh] eqn:Er; [discriminate|]. injection Eco as Eb _ Em. rewrite E in Eb.
      rewrite <- (rev_involutive (shape s)), Er. cbn [rev]. rewrite Eb, Em. reflexivity. }
    rewrite Es, Eco. cbn [bind fst]. rewrite E, sequence_elems. reflexivity.
  Qed.

  (** data with other than one horizontal axis *)
  Lemma run_shape junk fuel (S T P : @data F) vd s1 n s2 c p0 (k : traj_args) f nm : water_columns S T P vd s1 n s2 c -> length (s1 ++ s2) <> 1%nat ->
    make_eos sdiv (t_eos k) (t_grav k) (t_rho_c k) = Ok f -> make_pp (t_interp k) "1" "coeffs" false 1 = Ok nm ->
    neutral_trajectory_kw junk fuel S T P p0 vd k = Err ValueError.
  Proof.
    intros Hw E Ef En. unfold neutral_trajectory_kw. rewrite Ef, En. cbn [bind].
    destruct (columns_ok _ _ _ _ _ _ _ _ Hw) as (stp & Ec & Eco). rewrite Ec. cbn [bind].
    assert (Es : length (shape (fst (fst stp))) <> 2%nat).
    { clear -Eco E. destruct stp as [[s t] p]. unfold columns_of in Eco. cbn [fst].
      destruct (list_eq_dec Nat.eq_dec (shape s) (shape t)); [|discriminate]. destruct (list_eq_dec Nat.eq_dec (shape s) (shape p)); [|discriminate].
      destruct (rev (shape s)) as [|m rh] eqn:Er; [discriminate|]. injection Eco as Eb _ _.
      rewrite <- (rev_involutive (shape s)), Er. cbn [rev]. rewrite Eb, app_length. cbn [length]. lia. }
    destruct (shape (fst (fst stp))) as [|a [|b [|d l]]]; try reflexivity. cbn [length] in Es. lia.
  Qed.

  Lemma known_eos (e : @arg F) grav rho_c : (exists name, e = AStr name /\ In name ["gsw"; "jmd95"; "jmdfwg06"]%string) \/ (exists f, e = AFun f) ->
    exists f, make_eos sdiv e grav rho_c = Ok f.
  Proof.
    assert (H : forall f : fn, exists f', match grav, rho_c with Some g, Some r => Ok (make_bsq f g r 0) | _, _ => Ok f end = Ok f').
    { intros f. destruct grav, rho_c; eexists; reflexivity. }
    intros [(name & -> & [<-|[<-|[<-|[]]]])|(f & ->)]; unfold make_eos, _make_eos; apply H.
  Qed.
  Lemma known_pp interp : In interp ["linear"; "pchip"]%string -> exists nm, make_pp interp "1" "coeffs" false 1 = Ok nm.
  Proof. intros [<-|[<-|[]]]; eexists; reflexivity. Qed.
  Lemma unknown_pp interp : ~ In interp ["linear"; "pchip"]%string -> make_pp interp "1" "coeffs" false 1 = Err ValueError.
  Proof.
    intros H. unfold make_pp. assert (E : mem interp ["linear"; "pchip"]%string = false); [|rewrite E; reflexivity].
    unfold mem. cbn [existsb]. destruct (String.eqb_spec interp "linear") as [->|_]; [destruct H; cbn; auto|].
    destruct (String.eqb_spec interp "pchip") as [->|_]; [destruct H; cbn; auto|reflexivity].
  Qed.

  (** arguments that are refused, whatever the data *)
  Lemma refused junk fuel (sB tB pB p0 : F) (Sc Tc Pc : list F) (S T P : @data F) vd tol interp e grav rho_c er :
    ((exists name, e = AStr name /\ ~ In name ["gsw"; "jmd95"; "jmdfwg06"]%string) /\ er = ValueError)
    \/ ((e = AOther \/ exists l, e = ATup l) /\ er = TypeError)
    \/ (((exists name, e = AStr name /\ In name ["gsw"; "jmd95"; "jmdfwg06"]%string) \/ (exists f, e = AFun f))
        /\ ~ In interp ["linear"; "pchip"]%string /\ er = ValueError) ->
    ntp_bottle_to_cast_kw junk fuel sB tB pB Sc Tc Pc (mkTraj tol interp e grav rho_c) = Err er
    /\ neutral_trajectory_kw junk fuel S T P p0 vd (mkTraj tol interp e grav rho_c) = Err er.
  Proof.
    unfold ntp_bottle_to_cast_kw, neutral_trajectory_kw. cbn [t_eos t_grav t_rho_c t_interp t_tol].
    destruct (choice F Nm sdiv e) as (_ & _ & _ & H). destruct (H grav rho_c) as [H1 H2].
    intros [[(name & E & Hn) ->]|[[Ho ->]|(Hk & Hi & ->)]].
    - rewrite (proj1 (H1 name E Hn)). split; reflexivity.
    - rewrite (proj1 (H2 Ho)). split; reflexivity.
    - destruct (known_eos e grav rho_c Hk) as (f & ->). rewrite (unknown_pp _ Hi). split; reflexivity.
  Qed.

  Lemma not_a_sequence junk fuel (p0 : F) (S T P : @data F) vd s1 n s2 c tol interp e grav rho_c :
    ((exists name, e = AStr name /\ In name ["gsw"; "jmd95"; "jmdfwg06"]%string) \/ (exists f, e = AFun f)) -> In interp ["linear"; "pchip"]%string ->
    water_columns S T P vd s1 n s2 c -> length (s1 ++ s2) <> 1%nat ->
    neutral_trajectory_kw junk fuel S T P p0 vd (mkTraj tol interp e grav rho_c) = Err ValueError.
  Proof.
    intros He Hi Hw Hl. destruct (known_eos e grav rho_c He) as (f & Ef). destruct (known_pp interp Hi) as (nm & En).
    exact (run_shape junk fuel S T P vd s1 n s2 c p0 (mkTraj tol interp e grav rho_c) f nm Hw Hl Ef En).
  Qed.
  Lemma no_casts junk fuel (p0 : F) (S T P : @data F) vd s1 n s2 c tol interp e grav rho_c :
    ((exists name, e = AStr name /\ In name ["gsw"; "jmd95"; "jmdfwg06"]%string) \/ (exists f, e = AFun f)) -> In interp ["linear"; "pchip"]%string ->
    water_columns S T P vd s1 n s2 c -> s1 ++ s2 = [0%nat] ->
    neutral_trajectory_kw junk fuel S T P p0 vd (mkTraj tol interp e grav rho_c) = Ok ([], [], []).
  Proof.
    intros He Hi Hw Hl. destruct (known_eos e grav rho_c He) as (f & Ef). destruct (known_pp interp Hi) as (nm & En).
    rewrite (run_sequence junk fuel S T P vd s1 n s2 c p0 (mkTraj tol interp e grav rho_c) f nm 0 Hw Hl Ef En). reflexivity.
  Qed.
End Generic.

Local Open Scope R_scope.

(** ** Exact arithmetic: one link *)
Definition point_or_nan (D : domain) (x : bottle) : Prop := x = (NaN, NaN, NaN) \/ bottle_in D x.

Lemma link_correct D eos rho ppc_fn rel c sB tB pB tol : eos_on D eos rho -> continuous3 D rho -> interpolator ppc_fn rel ->
  any_cast c -> cast_in D c -> 0 < tol -> dS D sB -> dT D tB -> dP D pB ->
  exists x, (forall fuel, enough_fuel fuel tol c ->
      ntp_bottle_to_cast_pub eos ppc_fn fuel (Fin sB) (Fin tB) (Fin pB) (fst (fst c)) (snd (fst c)) (snd c) (Fin tol) = Ok x)
    /\ neutral_bottle rel rho tol sB tB pB c x /\ point_or_nan D x.
Proof.
  intros He Hc Hp Ha Hin Ht HsB HtB HpB. destruct c as [[Sc Tc] Pc]. cbn [fst snd]. destruct Ha as [Hs|(k & K & ss & ts & ps & HC & H2)].
  - exists (NaN, NaN, NaN). split; [intros fuel _; apply ntp_short_cast; exact Hs|]. split; [left; auto|left; reflexivity].
  - destruct (cast_interpolants ppc_fn rel Hp Sc Tc Pc k K ss ts ps HC H2) as (Sppc & Tppc & gS & gT & E1 & E2 & R1 & R2 & C1 & C2 & W1 & W2 & Hv & G0 & G1).
    pose proof (values_in D Sc Tc Pc k K ss ts ps HC H2 gS gT Hin W1 W2) as Hd.
    destruct (link_ppc D eos rho He sB tB pB tol Ht HsB HtB HpB (slice Pc k K) Sppc Tppc gS gT (ps k) (ps (K - 1)%nat)
      (ps_le Sc Tc Pc k K ss ts ps HC H2) (fun x Hx => proj1 (Hv x Hx)) Hd G0 G1) as (r & Hr & Hcase).
    assert (Hpr : profile rel (Sc, Tc, Pc) gS gT (ps k) (ps (K - 1)%nat)).
    { constructor; [|exact C1|exact C2]. exists k, K, ss, ts, ps. auto 10. }
    assert (Hvr : valid_range_1_two Sc Pc = Ok (k, K)).
    { rewrite valid_range_swap; [|symmetry; apply (blk_len _ _ _ _ _ _ (cast_blk _ _ _ _ _ _ _ _ HC))].
      apply (block_valid_range _ _ _ _ _ _ (cast_blk _ _ _ _ _ _ _ _ HC)). }
    assert (Hlt : Nat.ltb 1 (K - k) = true) by (apply Nat.ltb_lt; lia).
    destruct Hcase as [[-> Hn]|(p & -> & Hpp & Hnr)].
    + exists (NaN, NaN, NaN). split; [|split; [|left; reflexivity]].
      * intros fuel [Hf1 Hf2]. unfold ntp_bottle_to_cast_pub. rewrite Hvr. cbn [bind]. unfold ntp_bottle_to_cast.
        rewrite Hlt, E1, E2. cbn [bind]. rewrite (Hr fuel Hf1 (Hf2 _ _ _ _ _ HC)). reflexivity.
      * right. exists gS, gT, (ps k), (ps (K - 1)%nat). split; [exact Hpr|]. left. auto.
    + exists (Fin (gS p), Fin (gT p), Fin p). split; [|split; [|right; exists (gS p), (gT p), p; split; [reflexivity|exact (Hd p Hpp)]]].
      * intros fuel [Hf1 Hf2]. unfold ntp_bottle_to_cast_pub. rewrite Hvr. cbn [bind]. unfold ntp_bottle_to_cast.
        rewrite Hlt, E1, E2. cbn [bind]. rewrite (Hr fuel Hf1 (Hf2 _ _ _ _ _ HC)). cbn [bind].
        xsimp. rewrite (proj1 (Hv p Hpp)). reflexivity.
      * right. exists gS, gT, (ps k), (ps (K - 1)%nat). split; [exact Hpr|]. right.
        destruct (near_root_continuous (ntp_diff rho sB tB pB gS gT) (ps k) (ps (K - 1)%nat) p (brent_tol p tol) Hpp)
          as (q & Q1 & Q2 & Q3); [left; apply brent_tol_pos; exact Ht| |exact Hnr|].
        { intros x Hx. destruct (Hd x Hx) as (D1 & D2 & D3). apply (ntp_diff_continuous D); assumption. }
        exists p, q. auto.
Qed.

(** ** Trajectories *)
Lemma loop_correct D eos rho ppc_fn rel tol p0 : eos_on D eos rho -> continuous3 D rho -> interpolator ppc_fn rel -> 0 < tol ->
  forall casts, (forall c, In c casts -> any_cast c /\ cast_in D c) ->
  forall s t p, dS D s -> dT D t -> dP D p ->
  exists l, (forall fuel, (forall c, In c casts -> enough_fuel fuel tol c) ->
      traj_loop eos ppc_fn fuel (Fin tol) p0 (Some (Fin s, Fin t, Fin p)) casts = Ok l)
    /\ (length l <= length casts)%nat
    /\ neutral_links rel rho tol (Fin s, Fin t, Fin p) casts (l ++ repeat (NaN, NaN, NaN) (length casts - length l)).
Proof.
  intros He Hc Hp Ht. induction casts as [|c casts IH]; intros Hg s t p Ds Dt Dp.
  - exists []. split; [reflexivity|]. split; [auto|]. constructor.
  - destruct (Hg c (or_introl eq_refl)) as [G1 G2].
    destruct (link_correct D eos rho ppc_fn rel c s t p tol He Hc Hp G1 G2 Ht Ds Dt Dp) as (x & Ex & Hx & [->|(s' & t' & p' & -> & D1 & D2 & D3)]).
    + exists [(NaN, NaN, NaN)]. split; [|split; [cbn [length]; lia|]].
      * intros fuel Hf. specialize (Ex fuel (Hf c (or_introl eq_refl))). destruct c as [[Sc Tc] Pc]. cbn [fst snd] in Ex.
        cbn [traj_loop]. unfold ntp_bottle_to_cast_pub in Ex. destruct (valid_range_1_two Sc Pc) as [[k K]|]; [|discriminate Ex]. cbn [bind] in *.
        rewrite Ex. reflexivity.
      * cbn [app length]. rewrite Nat.sub_succ, Nat.sub_0_r. constructor; [exact Hx|]. constructor.
    + destruct (IH (fun c' H => Hg c' (or_intror H)) s' t' p' D1 D2 D3) as (l & El & Hl & Hch).
      exists ((Fin s', Fin t', Fin p') :: l). split; [|split; [cbn [length]; lia|]].
      * intros fuel Hf. specialize (Ex fuel (Hf c (or_introl eq_refl))). specialize (El fuel (fun c' H => Hf c' (or_intror H))).
        destruct c as [[Sc Tc] Pc]. cbn [fst snd] in Ex.
        cbn [traj_loop]. unfold ntp_bottle_to_cast_pub in Ex. destruct (valid_range_1_two Sc Pc) as [[k K]|]; [|discriminate Ex]. cbn [bind] in *.
        rewrite Ex. cbn [bind snd]. xsimp. rewrite El. reflexivity.
      * cbn [app length]. rewrite Nat.sub_succ. constructor; [exact Hx|exact Hch].
Qed.

(** the water of the first cast *)
Lemma first_cast ppc_fn rel c p0 : interpolator ppc_fn rel -> has_pressure c p0 ->
  exists k K gS gT lo hi Sppc Tppc, profile rel c gS gT lo hi /\ lo <= p0 <= hi
    /\ valid_range_1_two (fst (fst c)) (snd c) = Ok (k, K)
    /\ ppc_fn (slice (snd c) k K) (slice (fst (fst c)) k K) = Ok Sppc /\ ppc_fn (slice (snd c) k K) (slice (snd (fst c)) k K) = Ok Tppc
    /\ ppval_1_nonan_two (Fin p0) (slice (snd c) k K) Sppc Tppc 0 = Ok (Fin (gS p0), Fin (gT p0)).
Proof.
  intros Hp (k & K & ss & ts & ps & HC & H2 & Ip).
  destruct (cast_interpolants ppc_fn rel Hp _ _ _ k K ss ts ps HC H2) as (Sppc & Tppc & gS & gT & E1 & E2 & R1 & R2 & C1 & C2 & W1 & W2 & Hv & G0 & G1).
  exists k, K, gS, gT, (ps k), (ps (K - 1)%nat), Sppc, Tppc. split.
  { constructor; [|exact C1|exact C2]. exists k, K, ss, ts, ps. auto 10. }
  split; [exact Ip|]. split; [|split; [exact E1|split; [exact E2|exact (proj1 (Hv p0 Ip))]]].
  rewrite valid_range_swap; [|symmetry; apply (blk_len _ _ _ _ _ _ (cast_blk _ _ _ _ _ _ _ _ HC))].
  apply (block_valid_range _ _ _ _ _ _ (cast_blk _ _ _ _ _ _ _ _ HC)).
Qed.

Lemma trajectory_correct D eos rho ppc_fn rel tol c0 cs p0 : eos_on D eos rho -> continuous3 D rho -> interpolator ppc_fn rel -> 0 < tol ->
  has_pressure c0 p0 -> cast_in D c0 -> (forall c, In c cs -> any_cast c /\ cast_in D c) ->
  exists gS gT lo hi l, profile rel c0 gS gT lo hi /\ lo <= p0 <= hi
    /\ (forall fuel, (forall c, In c cs -> enough_fuel fuel tol c) ->
        neutral_trajectory eos ppc_fn fuel (c0 :: cs) (Fin p0) (Fin tol) = Ok ((Fin (gS p0), Fin (gT p0), Fin p0) :: l))
    /\ neutral_links rel rho tol (Fin (gS p0), Fin (gT p0), Fin p0) cs l.
Proof.
  intros He Hc Hp Ht H0 Hin Hg.
  destruct (first_cast ppc_fn rel c0 p0 Hp H0) as (k & K & gS & gT & lo & hi & Sppc & Tppc & Hpr & Ip & Ev & E1 & E2 & Ep).
  destruct (profile_in D rel c0 gS gT lo hi Hin Hpr p0 Ip) as (D1 & D2 & D3).
  destruct (loop_correct D eos rho ppc_fn rel tol (Fin p0) He Hc Hp Ht cs Hg _ _ _ D1 D2 D3) as (l & El & Hl & Hch).
  exists gS, gT, lo, hi, (l ++ repeat (NaN, NaN, NaN) (length cs - length l)). split; [exact Hpr|]. split; [exact Ip|]. split; [|exact Hch].
  intros fuel Hf. destruct c0 as [[Sc Tc] Pc]. cbn [fst snd] in *.
  unfold neutral_trajectory. cbn [traj_loop]. rewrite Ev. cbn [bind]. rewrite E1, E2. cbn [bind]. rewrite Ep. cbn [bind snd]. xsimp.
  rewrite (El fuel Hf). cbn [bind length app]. rewrite Nat.sub_succ. reflexivity.
Qed.

(** ** A start outside the data of the first cast *)
Lemma loop_ext {S A} (b b' : S -> res (S + A)) : (forall s, b s = b' s) -> forall fuel s, loop fuel b s = loop fuel b' s.
Proof. intros H. induction fuel as [|n IH]; intros s; [reflexivity|]. cbn [loop]. rewrite H. destruct (b' s) as [[s'|a]|]; cbn [bind]; auto. Qed.

(** the search for bounds looks at NaN as it looks at a negative number *)
Lemma gtb_nan (f : xr -> res xr) fuel x A B : (forall z, f z = Ok NaN) ->
  guess_to_bounds f fuel x A B = guess_to_bounds (fun _ => Ok (Fin (-1))) fuel x A B.
Proof.
  intros Hf.
  assert (E1 : ltb (lit 0 0) (Fin (-1)) = false) by (cbn [ltb lit xrNum xr_ltb]; apply Rltb_false; unfold Rlit; simpl; lra).
  assert (E2 : eqb (Fin (-1)) (lit 0 0) = false) by (cbn [eqb lit xrNum xr_eqb]; apply Reqb_false; unfold Rlit; simpl; lra).
  assert (E3 : ltb (lit 0 0) NaN = false) by reflexivity.
  assert (E4 : eqb NaN (lit 0 0) = false) by reflexivity.
  assert (L : forall y st, loop fuel (gtb_body f y A B) st = loop fuel (gtb_body (fun _ => Ok (Fin (-1))) y A B) st).
  { intros y st. apply loop_ext. intros [a b dxm dxp fa fb]. unfold gtb_body, gtb_left. 
    assert (RR : forall st', gtb_right f y A B st' = gtb_right (fun _ => Ok (Fin (-1))) y A B st').
    { intros [a' b' dxm' dxp' fa' fb']. unfold gtb_right. rewrite Hf. cbn [bind]. rewrite E1, E3. reflexivity. }
    rewrite Hf. cbn [bind]. rewrite E1, E3.
    destruct (ltb A a).
    - destruct (differ (Some false) fb) as [[|]|]; cbn [bind]; [reflexivity|apply RR|reflexivity].
    - destruct (eqb b B); [destruct (differ fa fb) as [[|]|]; reflexivity|cbn [bind]; apply RR]. }
  unfold guess_to_bounds. rewrite !Hf. cbn [bind]. rewrite E2, E4.
  destruct (sdiv (sub B (fmin (fmax x A) B)) (lit 50 0)) as [dxp|]; cbn [bind]; [|reflexivity].
  destruct (sdiv (sub (fmin (fmax x A) B) A) (lit 50 0)) as [dxm|]; cbn [bind]; [|reflexivity].
  rewrite !Hf. cbn [bind]. rewrite E1, E3.
  destruct (ltb A _); cbn [bind]; [apply L|]. destruct (eqb _ B); cbn [bind]; apply L.
Qed.

Lemma located_none x X a b : get X 0 = Ok (Fin a) -> get X (length X - 1) = Ok (Fin b) ->
  (forall r, x = Fin r -> r < a \/ b < r) -> locate_nonan x X = Ok None.
Proof.
  intros Ha Hb Hx. unfold locate_nonan. rewrite Ha, Hb. cbn [bind]. destruct x as [r| | |]; cbn [isnan xrNum xr_isnan ltb xr_ltb]; try reflexivity.
  destruct (Hx r eq_refl) as [H|H].
  - rewrite (Rltb_true r a H). reflexivity.
  - destruct (Rltb r a); [reflexivity|]. rewrite (Rltb_true b r H). reflexivity.
Qed.

(** a bottle with a pressure but without salinity: nothing is found *)
Lemma lost_link D eos rho ppc_fn rel c p0 tol : eos_on D eos rho -> (forall s t p, missing (s, t, p) -> eos s t p = Ok NaN) -> interpolator ppc_fn rel ->
  any_cast c -> cast_in D c -> dP D p0 -> forall fuel, (13 <= fuel)%nat ->
  ntp_bottle_to_cast_pub eos ppc_fn fuel NaN NaN (Fin p0) (fst (fst c)) (snd (fst c)) (snd c) tol = Ok (NaN, NaN, NaN).
Proof.
  intros He Hm Hp Ha Hin Dp fuel Hf. destruct c as [[Sc Tc] Pc]. cbn [fst snd]. destruct Ha as [Hs|(k & K & ss & ts & ps & HC & H2)]; [apply ntp_short_cast; exact Hs|].
  destruct (cast_interpolants ppc_fn rel Hp Sc Tc Pc k K ss ts ps HC H2) as (Sppc & Tppc & gS & gT & E1 & E2 & _ & _ & _ & _ & W1 & W2 & Hv & G0 & G1).
  pose proof (values_in D Sc Tc Pc k K ss ts ps HC H2 gS gT Hin W1 W2) as Hd.
  set (Pm := slice Pc k K) in *.
  assert (Hn : forall z, pot_dens_diff eos NaN NaN (Fin p0) Pm Sppc Tppc z = Ok NaN).
  { intros x. unfold pot_dens_diff.
    assert (D0 : (exists r, x = Fin r /\ ps k <= r <= ps (K - 1)%nat) \/ (forall r, x = Fin r -> r < ps k \/ ps (K - 1)%nat < r)).
    { destruct x as [r| | |]; try (right; discriminate). destruct (Rlt_le_dec r (ps k)) as [H|H]; [right; intros r' E; injection E as <-; auto|].
      destruct (Rlt_le_dec (ps (K - 1)%nat) r) as [H'|H']; [right; intros r' E; injection E as <-; auto|left; exists r; auto]. }
    destruct D0 as [(r & -> & Hr)|Hr].
    - rewrite (proj1 (Hv r Hr)). cbn [bind]. rewrite Hm by (left; reflexivity). cbn [bind]. xsimp.
      destruct (Hd r Hr) as (D1 & D2 & D3). replace ((p0 + r) * (/ 2)) with ((p0 + r) / 2) by reflexivity.
      rewrite He by (assumption || apply (interval_mid _ _ _ (dP_interval D)); assumption). reflexivity.
    - unfold ppval_1_nonan_two. rewrite (located_none x Pm _ _ G0 G1 Hr). cbn [bind]. rewrite !Hm by (left; reflexivity). reflexivity. }
  assert (Hvr : valid_range_1_two Sc Pc = Ok (k, K)).
  { rewrite valid_range_swap; [|symmetry; apply (blk_len _ _ _ _ _ _ (cast_blk _ _ _ _ _ _ _ _ HC))].
    apply (block_valid_range _ _ _ _ _ _ (cast_blk _ _ _ _ _ _ _ _ HC)). }
  assert (Hlt : Nat.ltb 1 (K - k) = true) by (apply Nat.ltb_lt; lia).
  destruct (guess_to_bounds_correct (fun _ => Ok (Fin (-1))) (fun _ => -1) (Fin p0) (ps k) (ps (K - 1)%nat) (ps_le Sc Tc Pc k K ss ts ps HC H2))
    as (r & Er & Hr); [discriminate|reflexivity|].
  assert (r = (NaN, NaN)) as ->.
  { destruct Hr as [[_ H]|[[_ H]|[(a & b & _ & _ & _ & H)|[H _]]]]; [lra|lra| |exact H]. unfold opposite in H. lra. }
  unfold ntp_bottle_to_cast_pub. rewrite Hvr. cbn [bind]. unfold ntp_bottle_to_cast. rewrite Hlt. fold Pm. rewrite E1, E2. cbn [bind].
  unfold ntp_bottle_to_cast_ppc. rewrite G0, G1. cbn [bind]. rewrite (gtb_nan _ fuel _ _ _ Hn), (Er fuel Hf). reflexivity.
Qed.

Lemma start_outside D eos rho ppc_fn rel tol c0 cs p0 : eos_on D eos rho -> (forall s t p, missing (s, t, p) -> eos s t p = Ok NaN) -> interpolator ppc_fn rel ->
  beyond c0 p0 -> dP D p0 -> (forall c, In c cs -> any_cast c /\ cast_in D c) -> forall fuel, (13 <= fuel)%nat ->
  neutral_trajectory eos ppc_fn fuel (c0 :: cs) (Fin p0) (Fin tol) = Ok ((NaN, NaN, Fin p0) :: repeat (NaN, NaN, NaN) (length cs)).
Proof.
  intros He Hm Hp (k & K & ss & ts & ps & HC & H2 & Ip) Dp Hg fuel Hf.
  destruct (cast_interpolants ppc_fn rel Hp _ _ _ k K ss ts ps HC H2) as (Sppc & Tppc & gS & gT & E1 & E2 & _ & _ & _ & _ & _ & _ & _ & G0 & G1).
  assert (Hvr : valid_range_1_two (fst (fst c0)) (snd c0) = Ok (k, K)).
  { rewrite valid_range_swap; [|symmetry; apply (blk_len _ _ _ _ _ _ (cast_blk _ _ _ _ _ _ _ _ HC))].
    apply (block_valid_range _ _ _ _ _ _ (cast_blk _ _ _ _ _ _ _ _ HC)). }
  assert (Ep : ppval_1_nonan_two (Fin p0) (slice (snd c0) k K) Sppc Tppc 0 = Ok (NaN, NaN)).
  { unfold ppval_1_nonan_two. rewrite (located_none (Fin p0) _ _ _ G0 G1); [reflexivity|]. intros r E. injection E as <-. exact Ip. }
  assert (El : exists l, traj_loop eos ppc_fn fuel (Fin tol) (Fin p0) (Some (NaN, NaN, Fin p0)) cs = Ok l
     /\ l ++ repeat (NaN, NaN, NaN) (length cs - length l) = repeat (NaN, NaN, NaN) (length cs)).
  { destruct cs as [|[[Sc Tc] Pc] cs]; [exists []; split; reflexivity|]. destruct (Hg _ (or_introl eq_refl)) as [A1 A2].
    pose proof (lost_link D eos rho ppc_fn rel (Sc, Tc, Pc) p0 (Fin tol) He Hm Hp A1 A2 Dp fuel Hf) as E. cbn [fst snd] in E.
    exists [(NaN, NaN, NaN)]. cbn [traj_loop]. unfold ntp_bottle_to_cast_pub in E. destruct (valid_range_1_two Sc Pc) as [[k' K']|]; [|discriminate E]. cbn [bind] in *.
    rewrite E. split; [reflexivity|]. cbn [length app]. rewrite Nat.sub_succ, Nat.sub_0_r. reflexivity. }
  destruct El as (l & El & Hl). destruct c0 as [[Sc Tc] Pc]. cbn [fst snd] in *.
  unfold neutral_trajectory. cbn [traj_loop]. rewrite Hvr. cbn [bind]. rewrite E1, E2. cbn [bind]. rewrite Ep. cbn [bind snd]. xsimp.
  rewrite El. cbn [bind length app]. rewrite Nat.sub_succ, Hl. reflexivity.
Qed.

Lemma start_nan eos ppc_fn rel tol c0 cs : interpolator ppc_fn rel ->
  (exists k K ss ts ps, cast (fst (fst c0)) (snd (fst c0)) (snd c0) k K ss ts ps /\ (k + 1 < K)%nat) -> forall fuel,
  neutral_trajectory eos ppc_fn fuel (c0 :: cs) NaN (Fin tol) = Ok (repeat (NaN, NaN, NaN) (length (c0 :: cs))).
Proof.
  intros Hp (k & K & ss & ts & ps & HC & H2) fuel.
  destruct (cast_interpolants ppc_fn rel Hp _ _ _ k K ss ts ps HC H2) as (Sppc & Tppc & gS & gT & E1 & E2 & _ & _ & _ & _ & _ & _ & _ & G0 & G1).
  assert (Hvr : valid_range_1_two (fst (fst c0)) (snd c0) = Ok (k, K)).
  { rewrite valid_range_swap; [|symmetry; apply (blk_len _ _ _ _ _ _ (cast_blk _ _ _ _ _ _ _ _ HC))].
    apply (block_valid_range _ _ _ _ _ _ (cast_blk _ _ _ _ _ _ _ _ HC)). }
  destruct c0 as [[Sc Tc] Pc]. cbn [fst snd] in *.
  unfold neutral_trajectory. cbn [traj_loop]. rewrite Hvr. cbn [bind]. rewrite E1, E2. cbn [bind]. unfold ppval_1_nonan_two, locate_nonan. xsimp.
  cbn [xr_isnan bind length app snd repeat]. rewrite Nat.sub_succ, Nat.sub_0_r. reflexivity.
Qed.

(** ** By name *)
Section Named.
  Variables (name : string) (v : R -> R -> R -> R) (grav rho_c : option xr) (zp : R).
  Hypotheses (Hname : named_eos name v) (Hzp : pressure_factor grav rho_c zp).
  Variables (interp : string) (rel : nat -> (nat -> R) -> (nat -> R) -> (R -> R) -> Prop).
  Hypothesis Hinterp : named_interp interp rel.
  Variables (tol : R) (junk : xr).
  Notation args := (mkTraj (Fin tol) interp (AStr name) grav rho_c).

  Lemma link_kw : 0 < tol -> forall c sB tB pB, any_cast c -> cast_in (seas zp) c -> dS (seas zp) sB -> dT (seas zp) tB -> dP (seas zp) pB ->
    exists x, (forall fuel, enough_fuel fuel tol c ->
        ntp_bottle_to_cast_kw junk fuel (Fin sB) (Fin tB) (Fin pB) (fst (fst c)) (snd (fst c)) (snd c) args = Ok x)
      /\ neutral_bottle rel (at_depth zp v) tol sB tB pB c x.
  Proof.
    intros Ht c sB tB pB Ha Hin D1 D2 D3. destruct (named_ok _ _ _ _ _ Hname Hzp) as (f & Ef & [Hf _ Hc]).
    destruct (coeffs_named _ _ junk Hinterp) as (nm & En & Hi).
    destruct (link_correct (seas zp) f _ _ rel c sB tB pB tol Hf Hc Hi Ha Hin Ht D1 D2 D3) as (x & Ex & Hx & _).
    exists x. split; [|exact Hx]. intros fuel Hfu. unfold ntp_bottle_to_cast_kw. cbn [t_eos t_grav t_rho_c t_interp t_tol].
    rewrite Ef, En. cbn [bind]. exact (Ex fuel Hfu).
  Qed.

  Variables (S T P : @data xr) (vd : vdim) (s1 : list nat) (n : nat) (s2 : list nat) (c : list nat -> column) (nc : nat) (c0 : column) (cs : list column).
  Hypothesis Hw : water_columns S T P vd s1 n s2 c.
  Hypothesis Hs : s1 ++ s2 = [nc].
  Hypothesis Hc : sequence nc c = c0 :: cs.

  Lemma trajectory_kw p0 : 0 < tol -> has_pressure c0 p0 -> cast_in (seas zp) c0 -> (forall c', In c' cs -> any_cast c' /\ cast_in (seas zp) c') ->
    exists gS gT lo hi l, profile rel c0 gS gT lo hi /\ lo <= p0 <= hi
      /\ (forall fuel, (forall c', In c' cs -> enough_fuel fuel tol c') ->
          neutral_trajectory_kw junk fuel S T P (Fin p0) vd args = Ok (arrays ((Fin (gS p0), Fin (gT p0), Fin p0) :: l)))
      /\ neutral_links rel (at_depth zp v) tol (Fin (gS p0), Fin (gT p0), Fin p0) cs l.
  Proof.
    intros Ht H0 Hin Hg. destruct (named_ok _ _ _ _ _ Hname Hzp) as (f & Ef & [Hf _ Hct]).
    destruct (coeffs_named _ _ junk Hinterp) as (nm & En & Hi).
    destruct (trajectory_correct (seas zp) f _ _ rel tol c0 cs p0 Hf Hct Hi Ht H0 Hin Hg) as (gS & gT & lo & hi & l & Hpr & Ip & El & Hch).
    exists gS, gT, lo, hi, l. split; [exact Hpr|]. split; [exact Ip|]. split; [|exact Hch]. intros fuel Hfu.
    rewrite (run_sequence junk fuel S T P vd s1 n s2 c (Fin p0) args (F1 f) nm nc Hw Hs Ef En), Hc. cbn [t_tol].
    change (one_value (F1 f)) with f. rewrite (El fuel Hfu). reflexivity.
  Qed.

  Lemma outside_kw p0 : beyond c0 p0 -> dP (seas zp) p0 -> (forall c', In c' cs -> any_cast c' /\ cast_in (seas zp) c') -> forall fuel, (13 <= fuel)%nat ->
    neutral_trajectory_kw junk fuel S T P (Fin p0) vd args = Ok (arrays ((NaN, NaN, Fin p0) :: repeat (NaN, NaN, NaN) (length cs))).
  Proof.
    intros H0 Dp Hg fuel Hfu. destruct (named_ok _ _ _ _ _ Hname Hzp) as (f & Ef & [Hf Hm Hct]).
    destruct (coeffs_named _ _ junk Hinterp) as (nm & En & Hi).
    rewrite (run_sequence junk fuel S T P vd s1 n s2 c (Fin p0) args (F1 f) nm nc Hw Hs Ef En), Hc. cbn [t_tol].
    change (one_value (F1 f)) with f. rewrite (start_outside (seas zp) f _ _ rel tol c0 cs p0 Hf Hm Hi H0 Dp Hg fuel Hfu). reflexivity.
  Qed.

  Lemma nan_kw : (exists k K ss ts ps, cast (fst (fst c0)) (snd (fst c0)) (snd c0) k K ss ts ps /\ (k + 1 < K)%nat) -> forall fuel,
    neutral_trajectory_kw junk fuel S T P NaN vd args = Ok (arrays (repeat (NaN, NaN, NaN) nc)).
  Proof.
    intros H0 fuel. destruct (named_ok _ _ _ _ _ Hname Hzp) as (f & Ef & _).
    destruct (coeffs_named _ _ junk Hinterp) as (nm & En & Hi).
    rewrite (run_sequence junk fuel S T P vd s1 n s2 c NaN args (F1 f) nm nc Hw Hs Ef En), Hc. cbn [t_tol].
    rewrite (start_nan _ _ rel tol c0 cs Hi H0 fuel). cbn [bind]. rewrite <- Hc. unfold sequence. rewrite map_length, seq_length. reflexivity.
  Qed.
End Named.

Lemma trajectory_defaults junk S T P vd s1 n s2 c nc c0 cs : water_columns S T P vd s1 n s2 c -> s1 ++ s2 = [nc] -> sequence nc c = c0 :: cs ->
  forall p0, has_pressure c0 p0 -> cast_in (seas 1) c0 -> (forall c', In c' cs -> any_cast c' /\ cast_in (seas 1) c') ->
  exists gS gT lo hi l, profile linear_fun c0 gS gT lo hi /\ lo <= p0 <= hi
    /\ (forall fuel, (forall c', In c' cs -> enough_fuel fuel (/ 10000) c') ->
        neutral_trajectory_kw junk fuel S T P (Fin p0) vd traj_defaults = Ok (arrays ((Fin (gS p0), Fin (gT p0), Fin p0) :: l)))
    /\ neutral_links linear_fun teos_v (/ 10000) (Fin (gS p0), Fin (gT p0), Fin p0) cs l.
Proof.
  intros Hw Hs Hc p0 H0 Hin Hg.
  destruct (trajectory_kw "gsw" teos_v None None 1 n_gsw (or_introl (conj (or_introl eq_refl) eq_refl)) "linear" linear_fun n_linear (/ 10000) junk
    S T P vd s1 n s2 c nc c0 cs Hw Hs Hc p0 ltac:(lra) H0 Hin Hg) as (gS & gT & lo & hi & l & A & B & C & D).
  exists gS, gT, lo, hi, l. split; [exact A|]. split; [exact B|].
  assert (E : traj_defaults = mkTraj (Fin (/ 10000)) "linear" (AStr "gsw") None None).
  { unfold traj_defaults. f_equal. cbn [lit xrNum]. f_equal. unfold Rlit. simpl. lra. }
  rewrite E. split; [exact C|].
  assert (X : forall s t p, at_depth 1 teos_v s t p = teos_v s t p) by (intros; unfold at_depth; rewrite Rmult_1_r; reflexivity).
  clear - D X. revert D. generalize (Fin (gS p0), Fin (gT p0), Fin p0). intros x D. induction D as [x|cs|s t p c x cs l Hb D IH]; constructor; [|exact IH].
  destruct Hb as [Hb|(fS & fT & a & b & Hp & Hb)]; [left; exact Hb|]. right. exists fS, fT, a, b. split; [exact Hp|].
  unfold neutral_of in *. cbv zeta in *. destruct Hb as [[-> Hb]|(q & r & -> & I1 & I2 & Hb & Ht)].
  - left. split; [reflexivity|]. rewrite !X in Hb. exact Hb.
  - right. exists q, r. rewrite !X in Hb. auto.
Qed.
