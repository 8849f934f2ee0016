(** * The linear problems of omega surfaces in binary64: weights and named equations of state *)
From Coq Require Import String ZArith Reals Bool Lia Lra Psatz SpecFloat List.
From Flocq Require Import Core.
From Verif Require Import Num XR SF Res Arr ArrLemmas M_graph M_lib M_ntp M_matsolve M_eostools S_lib S_float P_float P_fl P_linear64 S_matsolve S_eos S_domain S_named
  S_ntp S_vert64 S_surfaces S_entry64 S_ntp64 S_omega S_system64 P_div P_sum64 P_norms64 P_ntp P_ntp64 P_ntp64b P_ntpnorms64 P_matsolve P_system64.
Import ListNotations.
Open Scope R_scope.
#[local] Existing Instance P_float.prec_pos.
#[local] Existing Instance P_float.prec_max.

Lemma fac_ratio (d w : f64) : finite64 d -> moderate (fval d) -> finite64 w -> weight (fval w) ->
  fac_ok (div w d) (fval w / fval d) /\ around (fval (div w d)) (fval w / fval d) (2 * u64) 0 /\ 0 <= fval (div w d).
Proof.
  intros Fd Md Fw Mw. destruct (ratio_term d w Fd Md Fw Mw) as ([F P] & A & B). destruct A as [A1 A2].
  assert (U := u_small). set (q := fval w / fval d) in *. assert (0 <= u64 * q) by (apply Rmult_le_pos; lra).
  split; [|split; [split; assumption|exact P]]. split; [exact F|]. split; [apply Rabs_le; lra|]. split; [|exact B].
  destruct Mw as [Z|[W1 W2]]; [left; unfold q; rewrite Z; unfold Rdiv; ring|right]. destruct Md as [D1 D2].
  unfold q, Rdiv. replace (-200)%Z with (-100 + -100)%Z by reflexivity. rewrite <- pow2_mul. pose proof (pow2_pos (-100)).
  apply Rmult_le_compat; try lra. change (-100)%Z with (- (100))%Z. rewrite pow2_inv. apply Rinv_le_contravar; lra.
Qed.

Lemma zero_inv (x : f64) : finite64 x -> fval x = 0 -> exists s, x = S754_zero s.
Proof.
  intros F E. destruct x as [s|s| |s p e]; [exists s; reflexivity|destruct F|destruct F|]. exfalso. cbn [fval] in E.
  assert (0 < powerRZ 2 e) by apply pow2_pos. assert (0 < IZR (Zpos p)) by (apply IZR_lt; reflexivity). destruct s; nra.
Qed.

Lemma fac_sqrt (f : f64) q : fac_ok f q -> around (fval f) q (2 * u64) 0 -> 0 <= fval f -> fac_ok (fsqrt f) (sqrt q).
Proof.
  intros (F & _ & D & B0 & B1) A P. assert (U := u_small). change (fsqrt f) with (sf_sqrt f).
  assert (S200 : sqrt (powerRZ 2 200) = powerRZ 2 100).
  { replace 200%Z with (100 + 100)%Z by reflexivity. rewrite <- pow2_mul. apply sqrt_square. apply Rlt_le, pow2_pos. }
  assert (SU : 0 <= sqrt q <= powerRZ 2 200).
  { split; [apply sqrt_pos|]. eapply Rle_trans; [apply sqrt_le_1_alt; exact B1|]. rewrite S200. apply pow2_le. lia. }
  destruct D as [D|D].
  - assert (V : fval f = 0) by (destruct A as [A1 A2]; rewrite D in *; lra). destruct (zero_inv f F V) as (s & ->). rewrite D, sqrt_0.
    assert (E0 : sf_sqrt (S754_zero s) = S754_zero s) by reflexivity. rewrite E0. split; [exact Logic.I|]. split; [|split; [left; reflexivity|pose proof (pow2_pos 200); lra]]. cbn [fval]. rewrite Rminus_0_r, Rabs_R0. lra.
  - assert (SL : powerRZ 2 (-100) <= sqrt q).
    { assert (E : sqrt (powerRZ 2 (-200)) = powerRZ 2 (-100)). { replace (-200)%Z with (-100 + -100)%Z by reflexivity. rewrite <- pow2_mul. apply sqrt_square. apply Rlt_le, pow2_pos. }
      rewrite <- E. apply sqrt_le_1_alt. exact D. }
    destruct (sf_sqrt_near f F P) as [F' N]. split; [exact F'|]. split; [|split; [right; eapply Rle_trans; [|exact SL]; apply pow2_le; lia|exact SU]].
    assert (K0 : 0 <= 2 * u64 <= / 100) by lra. assert (A' := around_sqrt' _ _ _ _ B0 P K0 (Rle_refl 0) A). rewrite sqrt_0 in A'. destruct A' as [A1 A2].
    rewrite (Rabs_pos_eq (sqrt (fval f))) in N by apply sqrt_pos.
    set (x := sqrt (fval f)) in *. set (y := sqrt q) in *. assert (UY : 0 <= u64 * y) by (apply Rmult_le_pos; lra).
    assert (ET : eta64 <= / 1000 * (u64 * y)).
    { unfold eta64. assert (powerRZ 2 (-1075) <= powerRZ 2 (-80) * powerRZ 2 (-100)) by (rewrite pow2_mul; apply pow2_le; lia).
      assert (powerRZ 2 (-80) <= / 1000 * u64) by (rewrite u_val; simpl; lra). pose proof (pow2_pos (-80)). pose proof (pow2_pos (-100)).
      assert (powerRZ 2 (-80) * powerRZ 2 (-100) <= (/ 1000 * u64) * y) by (apply Rmult_le_compat; lra). lra. }
    assert (K : u64 * x <= u64 * (y * (1 + 51 / 100 * (2 * u64)))) by (apply Rmult_le_compat_l; lra).
    assert (K2 : u64 * (u64 * y) <= / 1000000000 * (u64 * y)) by (apply Rmult_le_compat_r; lra).
    replace (fval (sf_sqrt f) - y) with ((fval (sf_sqrt f) - x) + (x - y)) by ring. eapply Rle_trans; [apply Rabs_triang|].
    assert (Rabs (x - y) <= 51 / 100 * (2 * u64) * y) by (apply Rabs_le; lra). lra.
Qed.

(** ** the weights of a geometry *)
Lemma geometry_facs (dist perp g : @geom f64) n ds ws : n <> 0%nat -> distances64 dist n ds -> distances64 perp n ws -> Forall moderate ds -> Forall weight ws ->
  gdiv perp dist = Ok g ->
  exists FAC, gexp g n FAC /\ Forall2 fac_ok FAC (weights ds ws)
    /\ gexp (geom_sqrt g) n (map fsqrt FAC) /\ Forall2 fac_ok (map fsqrt FAC) (map sqrt (weights ds ws)).
Proof.
  intros n0 Hd Hw Md Mw Eg. destruct (distances64_exp _ _ _ Hd) as (D & GD & FD). destruct (distances64_exp _ _ _ Hw) as (P & GP & FP).
  assert (NZ : Forall (fun c => eqb c zero = false) D).
  { clear - FD Md. induction FD as [|x y D ds [Fx Ex] FD IH]; constructor.
    - inversion Md; subst. apply sf_eqb_zero; [exact Fx|]. assert (0 < fval x); [|lra]. destruct H1 as [H1 _]. pose proof (pow2_pos (-100)). lra.
    - apply IH. inversion Md; assumption. }
  destruct (gexp_div _ _ _ _ _ GP GD n0 NZ) as (g' & Eg' & G). assert (g' = g) by congruence. subst g'.
  exists (map2 div P D). split; [exact G|].
  assert (LEN : length P = length D) by (destruct GP, GD; lia).
  assert (K : Forall2 (fun f q => fac_ok f q /\ around (fval f) q (2 * u64) 0 /\ 0 <= fval f) (map2 div P D) (weights ds ws)).
  { unfold weights, map2. clear - FD FP Md Mw LEN. revert P ws FP Mw LEN. induction FD as [|d r D ds [Fd Ed] FD IH]; intros P ws FP Mw LEN.
    - destruct P; [|discriminate LEN]. inversion FP; subst. constructor.
    - destruct P as [|p P]; [discriminate LEN|]. inversion FP as [|? w ? ws' [Fp Ep] FP']; subst. cbn [combine map fst snd].
      inversion Md; subst. inversion Mw; subst. constructor; [apply fac_ratio; assumption|]. apply IH; trivial. cbn in LEN. lia. }
  split; [clear - K; induction K; constructor; tauto|]. split.
  - destruct G as [G1 G2]. split; [rewrite map_length; exact G1|]. destruct G2 as [->|(c & -> & ->)]; [left; reflexivity|right; exists (fsqrt c); split; [reflexivity|]]. 
    clear. induction n; cbn [repeat map]; congruence.
  - clear - K. induction K as [|f q F Q (K1 & K2 & K3) K IH]; cbn [map]; constructor; [apply fac_sqrt; assumption|exact IH].
Qed.

Lemma inner_sqrt m edges ws : inner m edges (map sqrt ws) = map (fun x => (fst x, sqrt (snd x))) (inner m edges ws).
Proof.
  unfold inner. revert ws. induction edges as [|e l IH]; intros [|w ws]; try reflexivity. cbn [map combine filter fst snd].
  destruct (mem (fst e) m && mem (snd e) m); cbn [map fst snd]; rewrite IH; reflexivity.
Qed.

(** ** writing back *)
Lemma write64 n m (x : list f64) : NoDup m -> (forall i, In i m -> (i < n)%nat) -> length x = length m ->
  exists phi, np_set_all (repeat nan n) m x = Ok phi /\ placed n m (fun k _ => nth_error x k) phi.
Proof.
  intros Hd Hr Lx. destruct (np_set_all_ok (repeat (nan : f64) n) m x) as (y & E & Ly & H1 & H2); trivial.
  { intros i Hi. rewrite repeat_length. apply Hr. exact Hi. }
  exists y. split; [exact E|]. split; [rewrite Ly; apply repeat_length|]. split.
  - intros k i Hk. destruct (nth_error x k) as [z|] eqn:Ez; [exact (H1 k i z Hk Ez)|]. apply nth_error_None in Ez. pose proof (nth_error_lt _ _ _ Hk). lia.
  - intros i Hi Hn. rewrite H2 by exact Hn. apply nth_error_repeat_lt. exact Hi.
Qed.

Section Solve.
  Variable f : f64 -> f64 -> f64 -> res (f64 * f64).
  Variables (stp : list (f64 * f64 * f64)) (edges : list (nat * nat)) (m : list nat) (pin : nat) (err : nat -> nat -> option R) (b : R).
  Variables (dist perp g : @geom f64) (ds ws : list R).
  Hypothesis Hd : NoDup m.
  Hypothesis Hm : In pin m.
  Hypothesis Hin : Forall (fun e => (fst e < length stp)%nat /\ (snd e < length stp)%nat) edges.
  Hypothesis Heps : forall a c, In a m -> In c m -> exists x y e, get stp a = Ok x /\ get stp c = Ok y /\ epsilon_1 f x y = Ok e
    /\ error_holds (err a c) b e /\ forall r, err a c = Some r -> Rabs r <= 1000.
  Hypothesis Hlt : forall i, In i m -> (i < length stp)%nat.
  Hypothesis Hb : powerRZ 2 (-100) <= b <= 1.
  Hypothesis Hne : INR (length edges) <= powerRZ 2 40.
  Hypothesis H0 : edges <> [].
  Hypothesis Hdist : distances64 dist (length edges) ds.
  Hypothesis Hperp : distances64 perp (length edges) ws.
  Hypothesis Md : Forall moderate ds.
  Hypothesis Mw : Forall weight ws.
  Hypothesis Eg : gdiv perp dist = Ok g.
  Notation L := (inner m edges (weights ds ws)).
  Notation N := (length m).

  Lemma isolated64 : (N <= 1)%nat -> exists phi, placed (length stp) m (fun _ _ => Some zero) phi
    /\ (forall spsolve, matsolve_poisson f spsolve stp edges g m pin = Ok phi) /\ (forall lsqr, matsolve_gradient f lsqr stp edges (geom_sqrt g) m pin = Ok phi).
  Proof.
    intros HN. destruct m as [|i [|]]; [destruct Hm| |cbn in HN; lia]. destruct (write64 (length stp) [i] [zero] Hd Hlt eq_refl) as (phi & E & Pl).
    exists phi. split.
    - destruct Pl as (P1 & P2 & P3). split; [exact P1|]. split; [|exact P3]. intros [|k] j Hk; [exact (P2 0%nat j Hk)|destruct k; discriminate Hk].
    - assert (I : isolated (length stp) [i] = Ok phi).
      { unfold isolated. cbn [np_get nth_error bind]. unfold np_set_all in E. cbn [length Nat.eqb combine for_each fst snd] in E.
        change (lit 0 0 : f64) with (zero : f64). unfold np_get. cbn [nth_error bind]. destruct (np_set (repeat nan (length stp)) i zero) as [y|]; cbn [bind] in E; exact E. }
      split; intros; [unfold matsolve_poisson|unfold matsolve_gradient]; cbn [length Nat.leb]; exact I.
  Qed.

  Lemma solve_poisson : (1 < N)%nat -> exists A r, poisson64 b L err m pin A r
    /\ forall spsolve, length (spsolve N A r) = N -> exists phi, matsolve_poisson f spsolve stp edges g m pin = Ok phi
         /\ placed (length stp) m (fun k i => if Nat.eqb i pin then Some zero else nth_error (spsolve N A r) k) phi.
  Proof.
    intros HN. destruct (geometry_facs dist perp g (length edges) ds ws) as (FAC & G1 & G2 & _ & _); trivial.
    { destruct edges; [elim H0; reflexivity|discriminate]. }
    destruct (poisson_ok f stp edges FAC (weights ds ws) m pin err b g G1 G2 Hd Hm Hlt Hin Heps Hb Hne HN) as (A & r & PS & E).
    exists A, r. split; [exact PS|]. intros spsolve Ls. rewrite E. destruct (write64 (length stp) m (spsolve N A r) Hd Hlt Ls) as (phi & Ep & P1 & P2 & P3). rewrite Ep. cbn [bind].
    unfold np_set. rewrite P1. assert (Hp := Hlt pin Hm). apply Nat.ltb_lt in Hp as Hp'. rewrite Hp'. eexists. split; [reflexivity|].
    split; [rewrite length_upd; exact P1|]. split.
    - intros k i Hk. destruct (Nat.eqb_spec i pin) as [->|Hn].
      + rewrite nth_error_upd_eq by lia. reflexivity.
      + rewrite nth_error_upd_neq by congruence. apply P2. exact Hk.
    - intros i Hi Hn. rewrite nth_error_upd_neq by (intros ->; contradiction). apply P3; assumption.
  Qed.

  Lemma solve_gradient : (1 < N)%nat -> exists A r, gradient64 b L err m pin A r
    /\ forall lsqr k0 s0, length (lsqr (S (length L)) N A r) = N -> nth_error m k0 = Some pin -> nth_error (lsqr (S (length L)) N A r) k0 = Some s0 ->
         exists phi, matsolve_gradient f lsqr stp edges (geom_sqrt g) m pin = Ok phi
           /\ placed (length stp) m (fun k _ => option_map (fun x => sub x s0) (nth_error (lsqr (S (length L)) N A r) k)) phi.
  Proof.
    intros HN. destruct (geometry_facs dist perp g (length edges) ds ws) as (FAC & _ & _ & G1 & G2); trivial.
    { destruct edges; [elim H0; reflexivity|discriminate]. }
    destruct (gradient_ok f stp edges (map fsqrt FAC) (map sqrt (weights ds ws)) m pin err b (geom_sqrt g) G1 G2 Hd Hm Hlt Hin Heps Hb HN) as (A & r & (S1 & S2 & S3 & S4 & S5) & E).
    assert (PI := pairs_inner edges (map fsqrt FAC) (map sqrt (weights ds ws)) m (geom_sqrt g) G1 G2). rewrite inner_sqrt in PI.
    set (I := its edges (map fsqrt FAC) (map sqrt (weights ds ws)) m) in *.
    assert (LL : length L = length I) by (apply (f_equal (@length _)) in PI; rewrite !map_length in PI; exact PI).
    assert (NI : forall k x, nth_error L k = Some x -> exists y, nth_error I k = Some y /\ fst y = fst x /\ snd (snd y) = sqrt (snd x)).
    { intros k x Hk. assert (E1 := f_equal (fun l => nth_error l k) PI). cbv beta in E1. rewrite !nth_error_map in E1. unfold wedge in *. rewrite Hk in E1. cbn [option_map] in E1.
      destruct (nth_error I k) as [y|]; [|discriminate E1]. cbn [option_map] in E1. exists y. split; [reflexivity|]. symmetry in E1.
      injection E1 as E1 E2. split; assumption. }
    exists A, r. split.
    - split; [|split; [|split; [|split]]].
      + intros k q x j Hk Hq. destruct (NI k x Hk) as (y & Hy & Y1 & Y2). assert (G := S1 k q y j Hy Hq). rewrite Y1, Y2 in G. exact G.
      + rewrite LL. exact S2.
      + rewrite LL. exact S3.
      + intros k x d Hk Hdk. destruct (NI k x Hk) as (y & Hy & Y1 & Y2). assert (G := S4 k y d Hy Hdk). rewrite Y1, Y2 in G. exact G.
      + rewrite LL. exact S5.
    - intros lsqr k0 s0 Ls Hk0 Hs0. rewrite LL in *. rewrite E. cbv zeta. rewrite (np_get_ok _ (pos m pin) s0).
      2:{ rewrite <- (pos_inj m k0 pin Hd Hk0) in Hs0. exact Hs0. } 
      cbn [bind]. destruct (write64 (length stp) m (map (fun x => sub x s0) (lsqr (S (length I)) N A r)) Hd Hlt) as (phi & Ep & P1 & P2 & P3); [rewrite map_length; exact Ls|].
      exists phi. split; [exact Ep|]. split; [exact P1|]. split; [|exact P3]. intros k i Hk. rewrite (P2 k i Hk). apply nth_error_map.
  Qed.
End Solve.

(** ** named equations of state *)
Theorem systems64 name v s0 h b grav rho_c zp pm vs vt : named_eos name v -> error_limits64 name s0 h b -> coordinate64 grav rho_c zp pm ->
  partials (seas zp) (at_depth zp v) vs vt ->
  exists f, make_eos_s_t sdiv (AStr name) grav rho_c = Ok (F2 f)
    /\ forall stp w edges m pin dist perp ds ws g, NoDup m -> In pin m ->
         (forall i, In i m -> exists x, nth_error stp i = Some x /\ bottle_holds (sea s0 pm) h x (w i)) ->
         Forall (fun e => (fst e < length stp)%nat /\ (snd e < length stp)%nat) edges -> edges <> [] -> INR (length edges) <= powerRZ 2 40 ->
         distances64 dist (length edges) ds -> distances64 perp (length edges) ws -> Forall moderate ds -> Forall (fun w => w = 0 \/ moderate w) ws ->
         gdiv perp dist = Ok g ->
         let l := inner m edges (weights ds ws) in
         let err := fun a c => edge_error vs vt (w a) (w c) in
         let n := length stp in
         let N := length m in
         ((N <= 1)%nat -> exists phi, placed n m (fun _ _ => Some zero) phi
            /\ (forall spsolve, matsolve_poisson f spsolve stp edges g m pin = Ok phi) /\ (forall lsqr, matsolve_gradient f lsqr stp edges (geom_sqrt g) m pin = Ok phi))
         /\ ((1 < N)%nat -> exists A r, poisson64 b l err m pin A r
               /\ forall spsolve, length (spsolve N A r) = N -> exists phi, matsolve_poisson f spsolve stp edges g m pin = Ok phi
                    /\ placed n m (fun k i => if Nat.eqb i pin then Some zero else nth_error (spsolve N A r) k) phi)
         /\ ((1 < N)%nat -> exists A r, gradient64 b l err m pin A r
               /\ forall lsqr k0 s, length (lsqr (S (length l)) N A r) = N -> nth_error m k0 = Some pin -> nth_error (lsqr (S (length l)) N A r) k0 = Some s ->
                    exists phi, matsolve_gradient f lsqr stp edges (geom_sqrt g) m pin = Ok phi
                      /\ placed n m (fun k _ => option_map (fun x => sub x s) (nth_error (lsqr (S (length l)) N A r) k)) phi).
Proof.
  intros Hn HL Hco Hp. destruct (named_edges name v s0 h b grav rho_c zp pm vs vt Hn HL Hco Hp) as (f & M & Ef & Hf & M1 & M2 & M3 & S0 & Hh1).
  exists f. split; [exact Ef|]. intros stp w edges m pin dist perp ds ws g Hd Hm Hw Hin H0 Hne Hdist Hperp Md Mw Eg l err n N.
  assert (Hlt : forall i, In i m -> (i < n)%nat) by (intros i Hi; destruct (Hw i Hi) as (x & E & _); exact (nth_error_lt _ _ _ E)).
  assert (Heps : forall a c, In a m -> In c m -> exists x y e, get stp a = Ok x /\ get stp c = Ok y /\ epsilon_1 f x y = Ok e
    /\ error_holds (err a c) b e /\ forall r, err a c = Some r -> Rabs r <= 1000).
  { intros a c Ha Hc. destruct (Hw a Ha) as (x & Ex & Hx). destruct (Hw c Hc) as (y & Ey & Hy).
    destruct (edge_ok s0 pm h f vs vt b M x y _ _ S0 Hh1 Hf Hx Hy) as (e & E1 & E2 & E3). exists x, y, e.
    split; [exact (get_ok _ _ _ Ex)|]. split; [exact (get_ok _ _ _ Ey)|]. split; [exact E1|]. split; [exact E2|]. intros r Hr. specialize (E3 r Hr). lra. }
  split; [|split]; intros HN.
  - eapply isolated64; eassumption.
  - exact (solve_poisson f stp edges m pin err b dist perp g ds ws Hd Hm Hin Heps Hlt M3 Hne H0 Hdist Hperp Md Mw Eg HN).
  - exact (solve_gradient f stp edges m pin err b dist perp g ds ws Hd Hm Hin Heps Hlt M3 Hne H0 Hdist Hperp Md Mw Eg HN).
Qed.
