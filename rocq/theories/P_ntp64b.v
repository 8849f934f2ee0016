(** * Neutrality errors with the named equations of state in binary64 *)
From Coq Require Import String ZArith Reals Bool Lia Lra Psatz SpecFloat List.
From Flocq Require Import Raux.
From Verif Require Import Num XR SF Res Arr ArrLemmas NdLemmas M_eos_base M_jmd95 M_jmdfwg06 M_gsw M_eostools M_ntp S_eos S_float P_float P_fl P_floaterr P_eosfloat P_eosfloat2 P_eosfloat3
  P_eos P_gsw P_gsw2 P_gsw3 P_eosx P_eosocean P_eosocean2 S_domain S_named S_vert64 S_ntp S_surfaces S_entry64 S_ntp64 P_named P_eosfloat4 P_eosfloat5 P_linear64 P_surf64 P_traj64 P_entry64 P_ntp64
  P_ntpnan64 P_ntp P_sum64 P_norms64 P_ntpnorms64.
Import ListNotations.
Open Scope R_scope.

Definition edge_ev (k : BinNums.positive) (os es et : ev) : ev := add (mul es (sub os os)) (mul et (sub (off_t k) (off_t k))).
(** the error is at most n / 10 ^ k, and the value at most m / 1000 *)
Definition fine (a : ev) (n k m : Z) : bool :=
  match a with Ev lo hi er => (er * 10 ^ k <=? n * UZ)%Z && (mag lo hi * 1000 <=? m * UZ)%Z | Top => false end.
Lemma fine_ok a (x : f64) v n k m : (0 < 10 ^ k)%Z -> fine a n k m = true -> rel a x v ->
  S_float.within x v (IZR n / IZR (10 ^ k)) /\ Rabs v <= IZR m / 1000.
Proof.
  destruct a as [|lo hi er]; [discriminate|]. cbn [fine]. intros K. rewrite andb_true_iff, !Z.leb_le. intros [H1 H2] (F & [V1 V2] & E).
  pose proof UR_pos as U. apply IZR_le in H1, H2. rewrite !mult_IZR, <- UR_UZ in H1, H2. apply IZR_lt in K. split; [split; [exact F|]|].
  - apply Rmult_le_reg_r with UR; [exact U|]. apply Rmult_le_reg_r with (IZR (10 ^ k)); [exact K|].
    replace (IZR n / IZR (10 ^ k) * UR * IZR (10 ^ k)) with (IZR n * UR) by (field; lra).
    eapply Rle_trans; [|exact H1]. apply Rmult_le_compat_r; [lra|exact E].
  - assert (M1 : IZR hi <= IZR (mag lo hi)) by (apply IZR_le; unfold mag; lia).
    assert (M2 : - IZR (mag lo hi) <= IZR lo) by (rewrite <- opp_IZR; apply IZR_le; unfold mag; lia).
    apply Rabs_le. split; apply Rmult_le_reg_r with UR; lra.
Qed.

Lemma ck_jm_edge13 : fine (edge_ev 13 (off_s 13) (fst (jm_st 13)) (snd (jm_st 13))) 2 11 200000 = true. Proof. vm_compute. reflexivity. Qed.
Lemma ck_jm_edge12 : fine (edge_ev 12 (off_s 12) (fst (jm_st 12)) (snd (jm_st 12))) 2 10 200000 = true. Proof. vm_compute. reflexivity. Qed.
Lemma ck_jf_edge13 : fine (edge_ev 13 (off_s 13) (fst (jf_st 13)) (snd (jf_st 13))) 3 11 500000 = true. Proof. vm_compute. reflexivity. Qed.
Lemma ck_jf_edge12 : fine (edge_ev 12 (off_s 12) (fst (jf_st 12)) (snd (jf_st 12))) 3 10 500000 = true. Proof. vm_compute. reflexivity. Qed.
Lemma ck_gs_edge13 : fine (edge_ev 13 (off_s0 13) (fst (gs_st 13)) (snd (gs_st 13))) 1 16 2 = true. Proof. vm_compute. reflexivity. Qed.
Lemma ck_gs_edge12 : fine (edge_ev 12 (off_s0 12) (fst (gs_st 12)) (snd (gs_st 12))) 6 16 2 = true. Proof. vm_compute. reflexivity. Qed.

(** errors along edges, in the range D, with the error b and the size m *)
Definition edges_ok (D : domain) (h : R) (f : f64 -> f64 -> f64 -> res (f64 * f64)) (vs vt : R -> R -> R -> R) (b m : R) : Prop :=
  nan_safe64 f /\ forall (sa ta pa sb tb pb : f64) va vb wa wb,
    dS D va -> 0 < va -> dT D wa -> dP D (fval pa) -> dS D vb -> 0 < vb -> dT D wb -> dP D (fval pb) ->
    S_float.within sa va h -> S_float.within ta wa h -> finite64 pa ->
    S_float.within sb vb h -> S_float.within tb wb h -> finite64 pb ->
    exists e, epsilon_1 f (sa, ta, pa) (sb, tb, pb) = Ok e
      /\ S_float.within e (water_error vs vt (va, wa, fval pa) (vb, wb, fval pb)) b
      /\ Rabs (water_error vs vt (va, wa, fval pa) (vb, wb, fval pb)) <= m.

Lemma edges_of g (s0 pm : R) f vs vt bs os es et n k m : grade g -> 0 <= s0 -> pm <= 10000 -> nan_safe64 f -> s_t_mid g (sea s0 pm) f vs vt bs es et -> mid_bounds g os s0 bs ->
  (0 < 10 ^ k)%Z -> fine (edge_ev g os es et) n k m = true -> edges_ok (sea s0 pm) (dec 1 (Zneg g)) f vs vt (IZR n / IZR (10 ^ k)) (IZR m / 1000).
Proof.
  intros Hk S0 Pm Hn Hf Hb K Hfine. split; [exact Hn|]. intros sa ta pa sb tb pb va vb wa wb D1 D2 D3 D4 D5 D6 D7 D8 W1 W2 W3 W4 W5 W6.
  destruct (edge64 g Hk (sea s0 pm) s0 f vs vt bs os es et Hf Hb) with (sa := sa) (ta := ta) (pa := pa) (sb := sb) (tb := tb) (pb := pb) (va := va) (vb := vb) (wa := wa) (wb := wb)
    as (e & E & Re); trivial.
  - intros p Hp. cbn [sea box dP] in Hp. unfold upto in Hp. lra.
  - exists e. split; [exact E|]. exact (fine_ok _ _ _ _ _ _ K Hfine Re).
Qed.

Definition with_depth (grav rho_c : option f64) (f0 : f64 -> f64 -> f64 -> res (f64 * f64)) : f64 -> f64 -> f64 -> res (f64 * f64) :=
  match grav, rho_c with
  | Some g, Some r => fun s t z => f0 s t (mul z (mul (mul (lit 1 (-4)) g) r))
  | _, _ => f0
  end.

(** the coordinate's pressures, computed from depths or not *)
Lemma mid_coord k (grav rho_c : option f64) zp pm s0 f0 v vs vt bs es et : coordinate64 grav rho_c zp pm ->
  (forall vs0 vt0, (forall s t p, ocean s t p -> 0 < s -> slopes v vs0 vt0 s t p) -> eos_s_t64_rel k (box s0 42 (-3) 40 0 10000) f0 vs0 vt0 bs es et) ->
  partials (seas zp) (at_depth zp v) vs vt ->
  pm <= 10000 /\ s_t_mid k (sea s0 pm) (with_depth grav rho_c f0) vs vt bs es et.
Proof.
  intros Hco Hf Hp.
  assert (G : 0 < zp -> forall s t p, ocean s t p -> 0 < s -> slopes v (fun s t p => vs s t (p / zp)) (fun s t p => vt s t (p / zp)) s t p).
  { intros Z s t p Ho S0. destruct Ho as (O1 & O2 & O3).
    assert (E : p / zp * zp = p) by (field; lra).
    destruct (Hp s t (p / zp)) as [H1 H2]; try (cbn [seas dS dT dP]; unfold upto; rewrite ?E; lra).
    unfold slopes, diff_s, diff_t, at_depth in *. rewrite E in H1, H2. split; assumption. }
  assert (PR : zp = 1 /\ pm = 10000 -> pm <= 10000 /\ s_t_mid k (sea s0 pm) f0 vs vt bs es et).
  { intros [Ez ->]. split; [lra|]. intros s t p a b c Da A0 Db Dc Ba Rb Wp.
    destruct (Hf _ _ (G ltac:(lra)) s t p a b c Da A0 Db Dc Ba Rb) as (y & z & E & R1 & R2).
    { eapply within_mono; [|exact Wp]. unfold dec. simpl. lra. }
    exists y, z. split; [exact E|]. replace (c / zp) with c in * by (rewrite Ez; field). split; assumption. }
  unfold coordinate64 in Hco. destruct grav as [g|]; [destruct rho_c as [r|]|]; try (apply PR; exact Hco).
  destruct Hco as (Fg & Fr & Hg & Hr & Ez & Hz & Hpm & Hpz). split; [lra|]. cbn [with_depth].
  assert (U := unit64 g r Fg Fr Hg Hr). rewrite <- Ez in U. set (fz := mul (mul (lit 1 (-4)) g) r : f64) in *. clearbody fz.
  intros s t p a b c Da A0 Db Dc Ba Rb Wp. cbn [sea box dP] in Dc. unfold upto in Dc.
  assert (Q : 0 <= c * zp <= 10000).
  { split; [apply Rmult_le_pos; lra|]. apply Rle_trans with (pm * zp); [apply Rmult_le_compat_r; lra|exact Hpz]. }
  assert (Wz : S_float.within (mul p fz : f64) (c * zp) (dec 1 (-11))) by (apply depth_within; trivial; lra).
  destruct (Hf _ _ (G ltac:(lra)) s t (mul p fz) a b (c * zp) Da A0 Db Q Ba Rb Wz) as (y & z & E & R1 & R2).
  exists y, z. split; [exact E|]. replace (c * zp / zp) with c in * by (field; lra). split; assumption.
Qed.

Lemma safe_coord (grav rho_c : option f64) f0 : nan_safe64 f0 -> nan_safe64 (with_depth grav rho_c f0).
Proof. intros H. destruct grav as [g|]; [destruct rho_c as [r|]|]; [intros s t z; apply H|exact H|exact H]. Qed.

Lemma named_edges name v s0 h b grav rho_c zp pm vs vt : named_eos name v -> error_limits64 name s0 h b -> coordinate64 grav rho_c zp pm ->
  partials (seas zp) (at_depth zp v) vs vt ->
  exists f m, make_eos_s_t sdiv (AStr name) grav rho_c = Ok (F2 f) /\ edges_ok (sea s0 pm) h f vs vt b m
    /\ 0 <= m <= 1000 /\ m * powerRZ 2 (-50) <= b /\ powerRZ 2 (-100) <= b <= 1 /\ 0 <= s0 /\ h <= 1.
Proof.
  intros Hn HL Hco Hp. assert (P100 : powerRZ 2 (-100) <= powerRZ 2 (-60)) by (apply pow2_le; lia).
  assert (P60 : powerRZ 2 (-60) = / 1152921504606846976) by (simpl; lra). assert (P50 : powerRZ 2 (-50) = / 1125899906842624) by (simpl; lra).
  destruct Hn; inversion HL; subst; clear HL.
  - destruct (mid_coord 13 grav rho_c zp pm 0 _ teos_v vs vt _ _ _ Hco (fun vs0 vt0 H => gs_st64 13 sdiv vs0 vt0 (or_introl eq_refl) (or_introl eq_refl) H) Hp) as [Pm M].
    exists (with_depth grav rho_c (gsw_specvol_s_t sdiv)), (IZR 2 / 1000). split; [destruct grav, rho_c; reflexivity|]. split.
    + replace (dec 1 (-16)) with (IZR 1 / IZR (10 ^ 16)) by (unfold dec; simpl; lra).
      exact (edges_of 13 0 pm _ vs vt _ (off_s0 13) _ _ 1 16 2 (or_introl eq_refl) (Rle_refl _) Pm (safe_coord grav rho_c _ gsw_safe) M (bounds_s0 13 (or_introl eq_refl)) eq_refl ck_gs_edge13).
    + unfold dec. rewrite P50. simpl (powerRZ 10 (-16)). simpl (powerRZ 10 (-13)). lra.
  - destruct (mid_coord 12 grav rho_c zp pm 0 _ teos_v vs vt _ _ _ Hco (fun vs0 vt0 H => gs_st64 12 sdiv vs0 vt0 (or_intror eq_refl) (or_introl eq_refl) H) Hp) as [Pm M].
    exists (with_depth grav rho_c (gsw_specvol_s_t sdiv)), (IZR 2 / 1000). split; [destruct grav, rho_c; reflexivity|]. split.
    + replace (dec 6 (-16)) with (IZR 6 / IZR (10 ^ 16)) by (unfold dec; simpl; lra).
      exact (edges_of 12 0 pm _ vs vt _ (off_s0 12) _ _ 6 16 2 (or_intror eq_refl) (Rle_refl _) Pm (safe_coord grav rho_c _ gsw_safe) M (bounds_s0 12 (or_intror eq_refl)) eq_refl ck_gs_edge12).
    + unfold dec. rewrite P50. simpl (powerRZ 10 (-16)). simpl (powerRZ 10 (-12)). lra.
  - destruct (mid_coord 13 grav rho_c zp pm (/ 1000) _ jm_rho vs vt _ _ _ Hco (fun vs0 vt0 H => jm_st64 13 sdiv vs0 vt0 (or_introl eq_refl) (or_introl eq_refl) H) Hp) as [Pm M].
    exists (with_depth grav rho_c (jmd95_rho_s_t sdiv)), (IZR 200000 / 1000). split; [destruct grav, rho_c; reflexivity|]. split.
    + replace (dec 2 (-11)) with (IZR 2 / IZR (10 ^ 11)) by (unfold dec; simpl; lra).
      exact (edges_of 13 (/ 1000) pm _ vs vt _ (off_s 13) _ _ 2 11 200000 (or_introl eq_refl) ltac:(lra) Pm (safe_coord grav rho_c _ jmd95_safe) M (bounds_s 13 (or_introl eq_refl)) eq_refl ck_jm_edge13).
    + unfold dec. rewrite P50. simpl (powerRZ 10 (-11)). simpl (powerRZ 10 (-13)). lra.
  - destruct (mid_coord 12 grav rho_c zp pm (/ 1000) _ jm_rho vs vt _ _ _ Hco (fun vs0 vt0 H => jm_st64 12 sdiv vs0 vt0 (or_intror eq_refl) (or_introl eq_refl) H) Hp) as [Pm M].
    exists (with_depth grav rho_c (jmd95_rho_s_t sdiv)), (IZR 200000 / 1000). split; [destruct grav, rho_c; reflexivity|]. split.
    + replace (dec 2 (-10)) with (IZR 2 / IZR (10 ^ 10)) by (unfold dec; simpl; lra).
      exact (edges_of 12 (/ 1000) pm _ vs vt _ (off_s 12) _ _ 2 10 200000 (or_intror eq_refl) ltac:(lra) Pm (safe_coord grav rho_c _ jmd95_safe) M (bounds_s 12 (or_intror eq_refl)) eq_refl ck_jm_edge12).
    + unfold dec. rewrite P50. simpl (powerRZ 10 (-10)). simpl (powerRZ 10 (-12)). lra.
  - destruct (mid_coord 13 grav rho_c zp pm (/ 1000) _ jf_rho vs vt _ _ _ Hco (fun vs0 vt0 H => jf_st64 13 sdiv vs0 vt0 (or_introl eq_refl) (or_introl eq_refl) H) Hp) as [Pm M].
    exists (with_depth grav rho_c (jmdfwg06_rho_s_t sdiv)), (IZR 500000 / 1000). split; [destruct grav, rho_c; reflexivity|]. split.
    + replace (dec 3 (-11)) with (IZR 3 / IZR (10 ^ 11)) by (unfold dec; simpl; lra).
      exact (edges_of 13 (/ 1000) pm _ vs vt _ (off_s 13) _ _ 3 11 500000 (or_introl eq_refl) ltac:(lra) Pm (safe_coord grav rho_c _ jmdfwg06_safe) M (bounds_s 13 (or_introl eq_refl)) eq_refl ck_jf_edge13).
    + unfold dec. rewrite P50. simpl (powerRZ 10 (-11)). simpl (powerRZ 10 (-13)). lra.
  - destruct (mid_coord 12 grav rho_c zp pm (/ 1000) _ jf_rho vs vt _ _ _ Hco (fun vs0 vt0 H => jf_st64 12 sdiv vs0 vt0 (or_intror eq_refl) (or_introl eq_refl) H) Hp) as [Pm M].
    exists (with_depth grav rho_c (jmdfwg06_rho_s_t sdiv)), (IZR 500000 / 1000). split; [destruct grav, rho_c; reflexivity|]. split.
    + replace (dec 3 (-10)) with (IZR 3 / IZR (10 ^ 10)) by (unfold dec; simpl; lra).
      exact (edges_of 12 (/ 1000) pm _ vs vt _ (off_s 12) _ _ 3 10 500000 (or_intror eq_refl) ltac:(lra) Pm (safe_coord grav rho_c _ jmdfwg06_safe) M (bounds_s 12 (or_intror eq_refl)) eq_refl ck_jf_edge12).
    + unfold dec. rewrite P50. simpl (powerRZ 10 (-10)). simpl (powerRZ 10 (-12)). lra.
Qed.

(** ** all edges *)
Lemma bottle_dry D h x : bottle_holds D h x None -> dry64 x.
Proof. destruct x as [[s t] p]. intros H. exact H. Qed.
Lemma bottle_wet (s0 pm h : R) x w : 0 <= s0 -> h <= 1 -> bottle_holds (sea s0 pm) h x (Some w) -> wet64 x.
Proof.
  intros S0 H1. destruct x as [[s t] p], w as [[a b] c]. cbn [bottle_holds]. intros ([F W] & _ & _ & _ & Ds & _ & _ & _).
  cbn [wet64]. split; [exact F|]. cbn [sea box dS] in Ds. unfold upto in Ds. set (v := fval s) in *. clearbody v.
  apply Rabs_le_inv in W. apply Rabs_le. lra.
Qed.

Lemma edge_ok (s0 pm h : R) f vs vt b m x y wx wy : 0 <= s0 -> h <= 1 -> edges_ok (sea s0 pm) h f vs vt b m -> 
  bottle_holds (sea s0 pm) h x wx -> bottle_holds (sea s0 pm) h y wy ->
  exists e, epsilon_1 f x y = Ok e /\ error_holds (edge_error vs vt wx wy) b e /\ forall r, edge_error vs vt wx wy = Some r -> Rabs r <= m.
Proof.
  intros S0 H1 [Hn He] Hx Hy. destruct wx as [wx|], wy as [wy|]; cbn [edge_error].
  - destruct x as [[sa ta] pa], y as [[sb tb] pb], wx as [[a1 a2] a3], wy as [[b1 b2] b3]. cbn [bottle_holds] in Hx, Hy.
    destruct Hx as (X1 & X2 & X3 & <- & X5 & X6 & X7 & X8). destruct Hy as (Y1 & Y2 & Y3 & <- & Y5 & Y6 & Y7 & Y8).
    destruct (He sa ta pa sb tb pb a1 b1 a2 b2 X5 X6 X7 X8 Y5 Y6 Y7 Y8 X1 X2 X3 Y1 Y2 Y3) as (e & E & W & M).
    exists e. split; [exact E|]. split; [exact W|]. intros r H. injection H as <-. exact M.
  - exists (S754_nan : f64). split; [|split; [reflexivity|discriminate]]. apply edge_dry64; [exact Hn|]. right. split; [exact (bottle_wet _ _ _ _ _ S0 H1 Hx)|exact (bottle_dry _ _ _ Hy)].
  - exists (S754_nan : f64). split; [|split; [reflexivity|discriminate]]. apply edge_dry64; [exact Hn|]. left. split; [exact (bottle_dry _ _ _ Hx)|right; exact (bottle_wet _ _ _ _ _ S0 H1 Hy)].
  - exists (S754_nan : f64). split; [|split; [reflexivity|discriminate]]. apply edge_dry64; [exact Hn|]. left. split; [exact (bottle_dry _ _ _ Hx)|left; exact (bottle_dry _ _ _ Hy)].
Qed.

Lemma edges_all (s0 pm h : R) f vs vt b m stp w edges : 0 <= s0 -> h <= 1 -> edges_ok (sea s0 pm) h f vs vt b m -> Forall2 (bottle_holds (sea s0 pm) h) stp w ->
  Forall (fun e => (fst e < length stp)%nat /\ (snd e < length stp)%nat) edges ->
  exists e, ntp_epsilon_error1 f stp edges = Ok e /\ Forall2 (fun x y => error_holds x b y) (edge_errors vs vt w edges) e
    /\ forall r, In (Some r) (edge_errors vs vt w edges) -> Rabs r <= m.
Proof.
  intros S0 Hh1 Hf Hw He. induction He as [|[i j] edges [H1 H2] He IH].
  - exists []. split; [reflexivity|]. split; [constructor|]. intros r [].
  - destruct IH as (e & E & I1 & I2). cbn [fst snd] in H1, H2.
    assert (G : forall k, (k < length stp)%nat -> exists x, get stp k = Ok x /\ bottle_holds (sea s0 pm) h x (nth k w None)).
    { clear - Hw. induction Hw as [|x u stp w H Hw IH]; intros k Hk; [cbn in Hk; lia|]. destruct k as [|k].
      - exists x. split; [reflexivity|exact H].
      - cbn [length] in Hk. destruct (IH k ltac:(lia)) as (z & Ez & Hz). exists z. split; [exact Ez|exact Hz]. }
    destruct (G i H1) as (x & Ex & Hx). destruct (G j H2) as (y & Ey & Hy).
    destruct (edge_ok s0 pm h f vs vt b m x y _ _ S0 Hh1 Hf Hx Hy) as (e0 & E0 & J1 & J2).
    exists (e0 :: e). split.
    + unfold ntp_epsilon_error1 in *. cbn [mapM fst snd]. rewrite Ex. cbn [bind]. rewrite Ey. cbn [bind]. rewrite E0. cbn [bind]. rewrite E. reflexivity.
    + split; [constructor; [exact J1|exact I1]|]. intros r [H|H]; [exact (J2 r H)|exact (I2 r H)].
Qed.

Theorem errors64 name v s0 h b grav rho_c zp pm vs vt : named_eos name v -> error_limits64 name s0 h b -> coordinate64 grav rho_c zp pm ->
  partials (seas zp) (at_depth zp v) vs vt ->
  exists f, make_eos_s_t sdiv (AStr name) grav rho_c = Ok (F2 f)
    /\ forall stp w edges, Forall2 (bottle_holds (sea s0 pm) h) stp w ->
         Forall (fun e => (fst e < length stp)%nat /\ (snd e < length stp)%nat) edges ->
         let x := edge_errors vs vt w edges in
         (forall grid, grid = GTuple edges \/ (exists perp, grid = GDict (Some edges) None perp) ->
            exists e, ntp_epsilon_errors f stp grid = Ok e /\ Forall2 (fun x e => error_holds x b e) x e)
         /\ (forall dist perp ds, distances64 dist (length edges) ds -> Forall moderate ds ->
               exists e, ntp_epsilon_errors f stp (GDict (Some edges) (Some dist) perp) = Ok e /\ length e = length edges
                 /\ forall i y d z, nth_error x i = Some y -> nth_error ds i = Some d -> nth_error e i = Some z ->
                      error_holds (option_map (fun y => y / d) y) (2 * b / d) z)
         /\ (forall np_sum dist perp ds ws, (forall l, summed l (np_sum l)) -> INR (length edges) <= powerRZ 2 40 ->
               distances64 dist (length edges) ds -> distances64 perp (length edges) ws ->
               Forall moderate ds -> Forall (fun w => w = 0 \/ moderate w) ws ->
               exists rms mav, ntp_epsilon_errors_norms_by f np_sum stp (GDict (Some edges) (Some dist) (Some perp)) = Ok (rms, mav)
                 /\ norms_hold b (length edges) (wet x ds ws) rms mav).
Proof.
  intros Hn HL Hco Hp. destruct (named_edges name v s0 h b grav rho_c zp pm vs vt Hn HL Hco Hp) as (f & m & Ef & Hf & M1 & M2 & M3 & S0 & Hh1).
  exists f. split; [exact Ef|]. intros stp w edges Hw He x. destruct (edges_all s0 pm h f vs vt b m stp w edges S0 Hh1 Hf Hw He) as (e & E & H1 & H2). fold x in H1, H2.
  split; [|split].
  - intros grid Hg. exists (map (fun y : f64 => div y one) e). split.
    + destruct Hg as [->|(perp & ->)]; exact (dict_errors f stp edges e None E).
    + clear - H1. induction H1 as [|a c x e H Hx IH]; [constructor|]. cbn [map]. constructor; [apply holds_div_one; exact H|exact IH].
  - intros dist perp ds Hd Md. apply (errors_dist f stp edges dist perp e x b ds E H1); trivial; [apply M3|].
    intros r Hr. split; [|apply M3]. eapply Rle_trans; [|exact M2]. apply Rmult_le_compat_r; [left; apply pow2_pos|exact (H2 r Hr)].
  - intros np_sum dist perp ds ws Hs HN Hd Hw' Md Mw. apply (norms64 f np_sum b Hs M3 stp edges dist perp e x ds ws E H1); trivial.
    intros r Hr. eapply Rle_trans; [exact (H2 r Hr)|apply M1].
Qed.
