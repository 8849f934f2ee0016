(** * The entry points of traj.py run in binary64 *)
From Coq Require Import String ZArith Bool List Reals Lra Lia Arith SpecFloat.
From Verif Require Import Num XR SF Res Arr ArrLemmas Nd NdLemmas M_lib M_ppinterp M_make_pp M_eos_base M_eostools M_traj M_surfaces M_trajentry
  S_eos S_float S_interp S_fzero64 S_domain S_traj S_vertsolve S_vert64 S_entry64 S_named S_surfaces S_trajentry
  P_fl P_holds P_linear64 P_pchip64 P_vert64 P_vertsolve P_named P_surf64 P_traj64 P_lost64 P_entry64 P_trajentry.
Import ListNotations.
Local Open Scope R_scope.

Lemma entry_room name v s0 e d' B grav rho_c zp pm : named_eos name v -> limits64 name s0 e d' B -> coordinate64 grav rho_c zp pm ->
  exists f d, make_eos sdiv (AStr name) grav rho_c = Ok (F1 f) /\ eos_room f (at_depth zp v) s0 pm e d' B d.
Proof.
  intros Hn HL Hco. destruct (base_named name v s0 e d' B Hn HL) as (f & Hb & Ef).
  assert (Em : forall h, _process_eos sdiv (AStr name) grav rho_c false = Ok (h, None) -> make_eos sdiv (AStr name) grav rho_c = Ok h).
  { intros h. unfold _process_eos. destruct (make_eos sdiv (AStr name) grav rho_c); cbn [bind]; congruence. }
  assert (P : zp = 1 -> pm = 10000 -> exists d, eos_room f (at_depth zp v) s0 pm e d' B d).
  { intros -> ->. destruct (named64_room f v s0 10000 e d' B (pressure_64 _ _ _ _ _ _ Hb)) as (d & [H0 H1 H2 H3 H4 H5 H6 H7 H8 H9 H10]).
    exists d. constructor; try assumption.
    - intros s t p vs vt vp. unfold at_depth. rewrite Rmult_1_r. apply H1.
    - intros a b c x Ha Hb' Hc Da Db Dc. apply (cont_ext (fun x => v (a x) (b x) (c x))); [intros y; unfold at_depth; rewrite Rmult_1_r; reflexivity|].
      apply (H9 a b c); assumption. }
  specialize (Ef grav rho_c). apply Em in Ef. clear Em. unfold coordinate64 in Hco. destruct grav as [g|]; [destruct rho_c as [r|]|].
  - destruct Hco as (Fg & Fr & Hg & Hr & -> & Hz & Hpm & Hpz). set (fz := mul (mul (lit 1 (-4)) g) r : f64) in *.
    assert (N : named64 (fun s t z => f s t (mul z fz)) (at_depth (fval g * fval r / 10000) v) s0 pm e d' B).
    { apply depth_64; try assumption. apply unit64; assumption. }
    destruct (named64_room _ _ _ _ _ _ _ N) as (d & Hd). eexists. exists d. split; [exact Ef|exact Hd].
  - destruct Hco as [Hz Hp]. destruct (P Hz Hp) as (d & Hd). exists f, d. split; [exact Ef|exact Hd].
  - destruct Hco as [Hz Hp]. destruct (P Hz Hp) as (d & Hd). exists f, d. split; [exact Ef|exact Hd].
Qed.

Section Entry.
  Variables (interp : string) (ppc : f64 -> list f64 -> list f64 -> res (list (list f64))) (rel : nat -> (nat -> R) -> (nat -> R) -> (R -> R) -> Prop) (e : R).
  Hypothesis Hsch : scheme64 interp ppc rel e.
  Variables (name : string) (v : R -> R -> R -> R) (s0 d B : R) (grav rho_c : option f64) (zp pm : R).
  Hypotheses (Hname : named_eos name v) (Hlim : limits64 name s0 e d B) (Hco : coordinate64 grav rho_c zp pm).
  Variables (junk tol : f64).
  Hypotheses (Ftol : finite64 tol) (Htol : tolerance_ok (fval tol)).
  Notation args := (mkTraj tol interp (AStr name) grav rho_c).
  Notation good := (fun c => any_cast c /\ cast_in (sea s0 pm) c /\ column_spaced c /\ starts_below c).

  Lemma link_kw64 (s t p : f64) vs vt Sc Tc Pc c' : S_float.within s vs e -> dS (sea s0 pm) vs -> S_float.within t vt e -> dT (sea s0 pm) vt ->
    finite64 p -> dP (sea s0 pm) (fval p) ->
    holds_column (Sc, Tc, Pc) c' -> any_cast c' -> cast_in (sea s0 pm) c' -> column_spaced c' -> guess_apart (fval p) c' ->
    exists r, (forall fuel, enough_fuel64 fuel (fval tol) c' -> ntp_bottle_to_cast_kw junk fuel s t p Sc Tc Pc args = Ok r)
      /\ surface_point64 rel (neutral_of (at_depth zp v) vs vt (fval p)) (fval tol) e (2 * d) c' r.
  Proof.
    intros Ws Ds Wt Dt Fp Dp Hh Ha Hin Hsp Hga.
    destruct (entry_room name v s0 e d B grav rho_c zp pm Hname Hlim Hco) as (f & d0 & Ef & [H0 H1 H2 H3 H4 H5 _ _ H8 H9 _]).
    destruct (scheme_made interp ppc rel e Hsch name s0 d B Hlim junk) as (nm & En & Ep).
    assert (HB : 0 <= B <= 10000) by lra.
    destruct (link_64 f _ s0 pm e _ d0 B d H0 H1 (Rle_refl _) H2 H3 HB H5 H9 (ppc junk) rel H8 (scheme_sea _ _ _ _ junk Hsch) tol Ftol Htol s t p vs vt (Sc, Tc, Pc) c'
      Ws Ds Wt Dt Fp Dp Hh Ha Hin Hsp Hga) as (r & Er & Hr).
    exists r. split; [|exact Hr]. intros fuel Hf. unfold ntp_bottle_to_cast_kw. cbn [t_eos t_grav t_rho_c t_interp t_tol].
    rewrite Ef, En. cbn [bind]. change (one_value (F1 f)) with f. rewrite Ep. exact (Er fuel Hf).
  Qed.

  Variables (S T P : @data f64) (vd : vdim) (s1 : list nat) (n : nat) (s2 : list nat) (c : list nat -> column64) (nc : nat) (c0 : column64) (cs : list column64).
  Hypothesis Hw : water_columns S T P vd s1 n s2 c.
  Hypothesis Hs : s1 ++ s2 = [nc].
  Hypothesis Hc : sequence nc c = c0 :: cs.
  Variables (c0' : column) (cs' : list column).
  Hypotheses (Hh0 : holds_column c0 c0') (Hin0 : cast_in (sea s0 pm) c0') (Hsp0 : column_spaced c0').
  Hypotheses (Hh : Forall2 holds_column cs cs') (Hg : Forall good cs').

  Lemma trajectory_kw64 fuel (p0 : f64) : finite64 p0 -> has_pressure c0' (fval p0) -> Forall (enough_fuel64 fuel (fval tol)) cs' ->
    exists x l, neutral_trajectory_kw junk fuel S T P p0 vd args = Ok (arrays (x :: l)) /\ snd x = p0
      /\ (exists vs vt, sampled rel e c0' x vs vt)
      /\ neutral_chain rel (at_depth zp v) (fval tol) e (2 * d) c0' x cs' l.
  Proof.
    intros Fp (k & K & ss & ts & ps & HC & H2' & Ip) Hfu.
    destruct (entry_room name v s0 e d B grav rho_c zp pm Hname Hlim Hco) as (f & d0 & Ef & [H0 H1 H2 H3 H4 H5 _ _ H8 H9 _]).
    destruct (scheme_made interp ppc rel e Hsch name s0 d B Hlim junk) as (nm & En & Ep).
    assert (HB : 0 <= B <= 10000) by lra.
    assert (Hg' : Forall (good_column s0 pm tol fuel) cs').
    { clear - Hg Hfu. induction Hg as [|y l (A1 & A2 & A3 & A4) HF IH]; [constructor|]. inversion Hfu; subst. constructor; [|auto].
      split; [exact A1|]. split; [exact A2|]. split; [exact A3|]. split; [exact A4|assumption]. }
    destruct (trajectory_64 f _ s0 pm e _ d0 B d H0 H1 (Rle_refl _) H2 H3 HB H5 H9 (ppc junk) rel H8 (scheme_sea _ _ _ _ junk Hsch) tol Ftol Htol
      fuel p0 c0 c0' cs cs' k K ss ts ps Fp Hh0 HC H2' Ip Hin0 Hsp0 Hh Hg') as (x & l & El & Ex & Hx & Hch).
    exists x, l. split; [|auto]. rewrite (run_sequence junk fuel S T P vd s1 n s2 c p0 args (F1 f) nm nc Hw Hs Ef En), Hc. cbn [t_tol].
    change (one_value (F1 f)) with f. rewrite Ep, El. reflexivity.
  Qed.

  Lemma located_none64 (x A C : f64) X : get X 0 = Ok A -> get X (length X - 1) = Ok C -> finite64 A -> finite64 C -> finite64 x ->
    fval x < fval A \/ fval C < fval x -> locate_nonan x X = Ok None.
  Proof.
    intros EA EC FA FC Fx Hx. unfold locate_nonan. rewrite EA, EC. cbn [bind]. change (isnan x) with (sf_isnan x). rewrite (finite_isnan x Fx).
    change (ltb x A) with (SFltb x A). change (ltb C x) with (SFltb C x). rewrite !ltb_val, !Rlt_bool_Rltb by assumption. destruct Hx as [H|H].
    - rewrite (XRlemmas.Rltb_true _ _ H). reflexivity.
    - destruct (Rltb (fval x) (fval A)); [reflexivity|]. rewrite (XRlemmas.Rltb_true _ _ H). reflexivity.
  Qed.

  Lemma outside_kw64 fuel (p0 : f64) : finite64 p0 -> beyond c0' (fval p0) -> 0 <= fval p0 <= pm -> (13 <= fuel)%nat ->
    neutral_trajectory_kw junk fuel S T P p0 vd args = Ok (arrays ((nan, nan, p0) :: repeat (nan, nan, nan) (length cs))).
  Proof.
    intros Fp (k & K & ss & ts & ps & HC & H2' & Ip) Dp Hfu.
    destruct (entry_room name v s0 e d B grav rho_c zp pm Hname Hlim Hco) as (f & d0 & Ef & Her).
    destruct (scheme_made interp ppc rel e Hsch name s0 d B Hlim junk) as (nm & En & Ep).
    assert (Hppc := scheme_sea _ _ _ _ junk Hsch).
    rewrite (run_sequence junk fuel S T P vd s1 n s2 c p0 args (F1 f) nm nc Hw Hs Ef En), Hc. cbn [t_tol]. change (one_value (F1 f)) with f. rewrite Ep.
    assert (El : exists l, traj_loop f (ppc junk) fuel tol p0 (Some (nan, nan, p0)) cs = Ok l
       /\ l ++ repeat (nan, nan, nan) (length cs - length l) = repeat (nan : f64, nan : f64, nan : f64) (length cs)).
    { destruct Hh as [|[[Sc Tc] Pc] c' l l' Hh1 Hh2]; [exists []; split; reflexivity|]. inversion Hg as [|? ? (A1 & A2 & A3 & A4) _]; subst.
      pose proof (P_lost64.lost_link f _ s0 pm e d B d0 Her (ppc junk) rel Hppc tol p0 Sc Tc Pc c' fuel Fp Dp Hh1 A1 A2 A3 (starts_guess p0 _ _ Hh1 A4 Fp) Hfu) as E.
      exists [(nan, nan, nan)]. cbn [traj_loop]. unfold ntp_bottle_to_cast_pub in E. destruct (valid_range_1_two Sc Pc) as [[k' K']|]; [|discriminate E]. cbn [bind] in *.
      change (nan : f64) with (S754_nan : f64). rewrite E. split; [reflexivity|]. cbn [length app]. rewrite Nat.sub_succ, Nat.sub_0_r. reflexivity. }
    destruct El as (l & El & Hl). destruct c0 as [[Sc Tc] Pc], c0' as [[S' T'] P']. cbn [fst snd] in HC.
    destruct (cast_interpolants64 (ppc junk) rel s0 pm e (er_pm _ _ _ _ _ _ _ _ Her) (er_s0 _ _ _ _ _ _ _ _ Her) Hppc
      Sc Tc Pc S' T' P' k K ss ts ps (proj1 Hh0) (proj1 (proj2 Hh0)) (proj2 (proj2 Hh0)) HC H2' Hin0 Hsp0)
      as (Sppc & Tppc & gS & gT & A & C & E1 & E2 & _ & G0 & G1 & FA & FC & VA & VC & _).
    assert (HR := cast_range64 Sc Pc S' T' P' k K ss ts ps (proj1 Hh0) (proj2 (proj2 Hh0)) HC).
    rewrite <- VA, <- VC in Ip.
    unfold neutral_trajectory. cbn [traj_loop]. rewrite HR. cbn [bind]. rewrite E1, E2. cbn [bind].
    unfold ppval_1_nonan_two. rewrite (located_none64 p0 A C _ G0 G1 FA FC Fp Ip). cbn [bind snd].
    change (isnan p0) with (sf_isnan p0). rewrite (finite_isnan p0 Fp). rewrite El. cbn [bind length app]. rewrite Nat.sub_succ, Hl. reflexivity.
  Qed.

  Lemma nan_kw64 fuel : (exists k K ss ts ps, cast (fst (fst c0')) (snd (fst c0')) (snd c0') k K ss ts ps /\ (k + 1 < K)%nat) ->
    neutral_trajectory_kw junk fuel S T P nan vd args = Ok (arrays (repeat (nan, nan, nan) (length (c0 :: cs)))).
  Proof.
    intros (k & K & ss & ts & ps & HC & H2').
    destruct (entry_room name v s0 e d B grav rho_c zp pm Hname Hlim Hco) as (f & d0 & Ef & Her).
    destruct (scheme_made interp ppc rel e Hsch name s0 d B Hlim junk) as (nm & En & Ep).
    assert (Hppc := scheme_sea _ _ _ _ junk Hsch).
    rewrite (run_sequence junk fuel S T P vd s1 n s2 c nan args (F1 f) nm nc Hw Hs Ef En), Hc. cbn [t_tol]. change (one_value (F1 f)) with f. rewrite Ep.
    destruct c0 as [[Sc Tc] Pc], c0' as [[S' T'] P']. cbn [fst snd] in HC.
    destruct (cast_interpolants64 (ppc junk) rel s0 pm e (er_pm _ _ _ _ _ _ _ _ Her) (er_s0 _ _ _ _ _ _ _ _ Her) Hppc
      Sc Tc Pc S' T' P' k K ss ts ps (proj1 Hh0) (proj1 (proj2 Hh0)) (proj2 (proj2 Hh0)) HC H2' Hin0 Hsp0)
      as (Sppc & Tppc & gS & gT & A & C & E1 & E2 & _).
    assert (HR := cast_range64 Sc Pc S' T' P' k K ss ts ps (proj1 Hh0) (proj2 (proj2 Hh0)) HC).
    unfold neutral_trajectory. cbn [traj_loop]. rewrite HR. cbn [bind]. rewrite E1, E2. cbn [bind].
    unfold ppval_1_nonan_two, locate_nonan. change (isnan (nan : f64)) with true. cbn [bind snd]. change (isnan (nan : f64)) with true. cbn [bind length app repeat].
    rewrite Nat.sub_succ, Nat.sub_0_r. reflexivity.
  Qed.
End Entry.
