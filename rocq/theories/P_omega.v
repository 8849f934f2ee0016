(** * The omega driver in any arithmetic *)
From Coq Require Import ZArith List Bool Lia.
From Coq Require FinFun.
From Verif Require Import Num Res Arr ArrLemmas NdLemmas M_graph M_lib M_ppinterp M_traj M_bfs M_ntp M_matsolve M_vertsolve M_omega
  S_graph S_wet S_omega.
Import ListNotations.

Lemma bind_inv {A B} (x : res A) (f : A -> res B) y : bind x f = Ok y -> exists a, x = Ok a /\ f a = Ok y.
Proof. destruct x; [eauto|discriminate]. Qed.
Ltac inv_bind H :=
  let a := fresh "v" in let E := fresh "E" in apply bind_inv in H; destruct H as (a & E & H).

Lemma np_set_inv {A} (x : list A) i v y : np_set x i v = Ok y -> (i < length x)%nat /\ y = upd x i v.
Proof. unfold np_set. destruct (Nat.ltb_spec i (length x)); [|discriminate]. intros E. injection E as <-. auto. Qed.
Lemma np_set_ok {A} (x : list A) i v : (i < length x)%nat -> np_set x i v = Ok (upd x i v).
Proof. intros H. unfold np_set. destruct (Nat.ltb_spec i (length x)); [reflexivity|lia]. Qed.

Section Any.
  Context {F : Type} {Nm : Num F}.
  Notation bottle := (F * F * F)%type.
  Variable eos : F -> F -> F -> res F.
  Variable eos_s_t : F -> F -> F -> res (F * F).
  Variable ppc_fn : list F -> list F -> res (list (list F)).
  Variable interp_two : F -> list F -> list F -> list F -> res (F * F).
  Variable spsolve : nat -> (nat -> nat -> F) -> list F -> list F.
  Variable lsqr : nat -> nat -> (nat -> nat -> F) -> list F -> list F.
  Variables (fuel loop_fuel : nat) (junk : Z -> list nat) (junk_p junk_i : list nat) (surf_shape : list nat).
  Variable casts : list (list F * list F * list F).
  Variables (g_edges : option (list (nat * nat))) (g_dist g_distperp : option (@geom F)).
  Variables (pin_c : nat) (o : @options F).

  Notation one := (one_iteration eos eos_s_t ppc_fn spsolve lsqr fuel loop_fuel junk casts pin_c o).
  Notation iterate := (iterate eos eos_s_t ppc_fn spsolve lsqr fuel loop_fuel junk casts g_edges g_dist g_distperp pin_c o).
  Notation record := (record eos_s_t g_edges g_dist g_distperp).
  Notation norms x := (ntp_epsilon_errors_norms eos_s_t x (GDict g_edges g_dist g_distperp)).

  Lemma remove_ml_inv (ml : list F) (x y : list bottle) : remove_ml ml x = Ok y -> without_mixed_layer ml x y.
  Proof.
    assert (Hml : forall ml', length ml' = length x ->
      let y := map (fun '((s, t, p), m) => if ltb p m then (s, t, nan) else (s, t, p)) (combine x ml') in
      length y = length x /\ forall n s t p m, nth_error x n = Some (s, t, p) -> nth_error ml' n = Some m ->
        nth_error y n = Some (s, t, if ltb p m then nan else p)).
    { intros ml' Hl. cbv zeta. split.
      - rewrite map_length, combine_length. lia.
      - intros n s t p m Hx Hm. rewrite nth_error_map, nth_error_combine, Hx, Hm. cbn [option_map].
        destruct (ltb p m); reflexivity. }
    unfold remove_ml. intros H. inv_bind H. injection H as <-. destruct (Nat.eqb_spec (length ml) (length x)) as [Hl|Hl].
    - injection E as <-. destruct (Hml ml Hl) as [H1 H2]. split; [exact H1|]. intros n s t p m Hx [Hm|Hm].
      + apply H2; assumption.
      + apply H2; [assumption|]. subst ml. pose proof (nth_error_lt _ _ _ Hx). cbn in Hl.
        replace n with 0%nat by lia. reflexivity.
    - destruct ml as [|m0 [|m1 q]]; try discriminate. injection E as <-.
      destruct (Hml (repeat m0 (length x)) (repeat_length _ _)) as [H1 H2]. split; [exact H1|].
      intros n s t p m Hx Hm. apply H2; [assumption|]. rewrite nth_error_repeat_lt by (eapply nth_error_lt; exact Hx).
      f_equal. destruct Hm as [Hm|Hm]; [|congruence]. destruct n as [|n]; cbn in Hm; [congruence|]. destruct n; discriminate.
  Qed.

  Lemma one_inv f dr edges ml ip ix pin_p k x dp r : one f dr edges ml ip ix pin_p k x dp = Ok r ->
    (if (1 <? k)%Z then remove_ml ml x else Ok x) = Ok (i_in r)
    /\ (~ wetting o k -> i_new r = 0%nat /\ i_wet r = i_in r)
    /\ exists s t, nth_error (i_out r) pin_c = Some (s, t, pin_p).
  Proof.
    unfold one_iteration. intros H. inv_bind H. inv_bind H. destruct v0 as [[new x1] qu]. inv_bind H. inv_bind H. inv_bind H. inv_bind H.
    injection H as <-. cbn [i_in i_new i_wet i_out]. split; [assumption|]. split.
    - intros Hw. unfold search in E0.
      destruct (ITER_START_WETTING o <=? k)%Z eqn:E5, (k <=? ITER_STOP_WETTING o)%Z eqn:E6; cbn [andb] in E0.
      + exfalso. apply Hw. unfold wetting. lia.
      + inv_bind E0. injection E0 as <- <- <-. auto.
      + inv_bind E0. injection E0 as <- <- <-. auto.
      + inv_bind E0. injection E0 as <- <- <-. auto.
    - apply np_set_inv in E4. destruct E4 as [L ->]. exists (fst (fst v2)), (snd (fst v2)). apply nth_error_upd_eq. assumption.
  Qed.

  Fixpoint records (d : @diagnostics F) (k : nat) (its : list (@iteration F)) : res diagnostics :=
    match its with [] => Ok d | r :: q => let! d := record d k r in records d (S k) q end.

  Definition stops tol k r : bool :=
    ((i_phi_mav r <? tol)%num || (i_dp_rms r <? TOL_P_CHANGE_RMS o)%num) && (ITER_MIN o <=? Z.of_nat k)%Z.

  Lemma stops_iff tol k r : stops tol k r = true <-> small_change o tol r /\ (ITER_MIN o <= Z.of_nat k)%Z.
  Proof. unfold stops, small_change. rewrite andb_true_iff, orb_true_iff, Z.leb_le. reflexivity. Qed.

  Lemma iterate_run f dr edges ml ip ix pin_p tol : forall k it x dp d its y d',
    iterate f dr edges ml ip ix pin_p tol k it x dp d = Ok (its, y, d') ->
    (length its <= k)%nat /\ (0 < k -> its <> [])%nat
    /\ (forall r, nth_error its (length its - 1) = Some r -> y = i_out r) /\ (its = [] -> y = x)
    /\ (forall j r, nth_error its j = Some r -> exists x' dp',
          one f dr edges ml ip ix pin_p (Z.of_nat (it + j)) x' dp' = Ok r
          /\ match j with O => x' = x | S j' => exists r', nth_error its j' = Some r' /\ x' = i_out r' end)
    /\ (length its < k -> forall r, nth_error its (length its - 1) = Some r -> stops tol (it + length its - 1) r = true)%nat
    /\ (forall j r, nth_error its j = Some r -> S j < length its -> stops tol (it + j) r = false)%nat
    /\ (if o_diags o then records d it its = Ok d' else d' = d).
  Proof.
    induction k as [|k IH]; intros it x dp d its y d' H; cbn [M_omega.iterate] in H.
    - injection H as <- <- <-. cbn [length]. split; [lia|]. split; [lia|]. split; [intros r Hr; discriminate|].
      split; [reflexivity|]. split; [intros [|j] r Hr; discriminate|]. split; [lia|]. split; [intros [|j] r Hr; discriminate|].
      destruct (o_diags o); reflexivity.
    - inv_bind H. rename v into r0. inv_bind H. rename v into d0.
      change (_ && _) with (stops tol it r0) in H. destruct (stops tol it r0) eqn:Es.
      + injection H as <- <- <-. cbn [length]. replace (1 - 1)%nat with 0%nat by lia. split; [lia|]. split; [discriminate|].
        split; [intros r Hr; cbn in Hr; injection Hr as <-; reflexivity|]. split; [discriminate|].
        split.
        { intros [|[|j]] r Hr; try discriminate. cbn in Hr. injection Hr as <-. exists x, dp. rewrite Nat.add_0_r. auto. }
        split; [intros _ r Hr; cbn in Hr; injection Hr as <-; replace (it + 1 - 1)%nat with it by lia; assumption|].
        split; [intros j r Hr Hj; lia|].
        destruct (o_diags o); cbn [records]; [rewrite E0; reflexivity|injection E0 as <-; reflexivity].
      + inv_bind H. destruct v as [[its' y'] d'']. cbn [fst snd] in H. injection H as <- <- <-.
        destruct (IH _ _ _ _ _ _ _ E1) as (H1 & H2 & H3 & H4 & H5 & H6 & H7 & H8). clear IH E1.
        cbn [length]. split; [lia|]. split; [discriminate|].
        split.
        { intros r Hr. destruct its' as [|r1 q].
          - cbn in Hr. injection Hr as <-. apply H4. reflexivity.
          - apply H3. cbn [length] in *. replace (S (S (length q)) - 1)%nat with (S (S (length q) - 1)) in Hr by lia. exact Hr. }
        split; [discriminate|]. split.
        { intros [|j] r Hr.
          - cbn in Hr. injection Hr as <-. exists x, dp. rewrite Nat.add_0_r. auto.
          - cbn in Hr. destruct (H5 _ _ Hr) as (x' & dp' & Ho & Hx). exists x', dp'.
            replace (it + S j)%nat with (S it + j)%nat by lia. split; [assumption|].
            destruct j as [|j]; [exists r0; split; [reflexivity|assumption]|]. exact Hx. }
        split.
        { intros Hlt r Hr. assert (Hk : (0 < k)%nat) by lia. specialize (H2 Hk). destruct its' as [|r1 q]; [congruence|].
          cbn [length] in *. replace (S (S (length q)) - 1)%nat with (S (S (length q) - 1)) in Hr by lia. cbn [nth_error] in Hr.
          replace (it + S (S (length q)) - 1)%nat with (S it + S (length q) - 1)%nat by lia. apply H6; [lia|exact Hr]. }
        split.
        { intros [|j] r Hr Hj.
          - cbn in Hr. injection Hr as <-. rewrite Nat.add_0_r. assumption.
          - cbn in Hr. replace (it + S j)%nat with (S it + j)%nat by lia. apply H7; [assumption|lia]. }
        destruct (o_diags o); cbn [records]; [rewrite E0; exact H8|injection E0 as <-; exact H8].
  Qed.

  (** diagnostics *)
  Definition dlength (d : @diagnostics F) (n : nat) : Prop :=
    length (d_e_RMS d) = n /\ length (d_e_MAV d) = n /\ length (d_phi_MAV d) = n /\ length (d_dp_RMS d) = n
    /\ length (d_dp_MAV d) = n /\ length (d_dp_Linf d) = n /\ length (d_n_wet d) = n /\ length (d_n_newly_wet d) = n.

  Definition same_below (d d' : @diagnostics F) (k : nat) : Prop := forall j, (j < k)%nat ->
    nth_error (d_e_RMS d') j = nth_error (d_e_RMS d) j /\ nth_error (d_e_MAV d') j = nth_error (d_e_MAV d) j
    /\ nth_error (d_phi_MAV d') j = nth_error (d_phi_MAV d) j /\ nth_error (d_dp_RMS d') j = nth_error (d_dp_RMS d) j
    /\ nth_error (d_n_wet d') j = nth_error (d_n_wet d) j /\ nth_error (d_n_newly_wet d') j = nth_error (d_n_newly_wet d) j
    /\ nth_error (d_dp_MAV d') j = nth_error (d_dp_MAV d) j /\ nth_error (d_dp_Linf d') j = nth_error (d_dp_Linf d) j.

  Definition entry (d : @diagnostics F) (k : nat) (r : @iteration F) : Prop := exists rms mav, norms (i_out r) = Ok (rms, mav)
    /\ nth_error (d_e_RMS d) k = Some rms /\ nth_error (d_e_MAV d) k = Some mav
    /\ nth_error (d_phi_MAV d) k = Some (i_phi_mav r) /\ nth_error (d_dp_RMS d) k = Some (i_dp_rms r)
    /\ nth_error (d_n_newly_wet d) k = Some (i_new r) /\ nth_error (d_n_wet d) k = Some (n_finite (i_out r))
    /\ nth_error (d_dp_MAV d) k = Some (nanmean (map fabs (p_change (i_wet r) (i_out r))))
    /\ nth_error (d_dp_Linf d) k = Some (nanmax (map fabs (p_change (i_wet r) (i_out r)))).

  Lemma record_ok d k r d' n : record d k r = Ok d' -> dlength d n -> dlength d' n /\ entry d' k r /\ same_below d d' k /\ (k < n)%nat.
  Proof.
    unfold M_omega.record. intros H (L1 & L2 & L3 & L4 & L5 & L6 & L7 & L8).
    repeat (let v := fresh "v" in let E := fresh "E" in apply bind_inv in H; destruct H as (v & E & H)). injection H as <-.
    repeat match goal with E : np_set _ _ _ = Ok _ |- _ => apply np_set_inv in E; destruct E as [? ->] end.
    split; [unfold dlength; cbn; rewrite !length_upd; auto 10|].
    split; [exists (fst v4), (snd v4); cbn; rewrite !nth_error_upd_eq by assumption; destruct v4; auto 12|].
    split; [|lia]. intros j Hj. cbn. rewrite !nth_error_upd_neq by lia. auto 12.
  Qed.

  Lemma records_ok : forall its d k d' n, records d k its = Ok d' -> dlength d n -> (k <= n)%nat ->
    dlength d' n /\ same_below d d' k /\ (k + length its <= n)%nat /\ forall j r, nth_error its j = Some r -> entry d' (k + j) r.
  Proof.
    induction its as [|r q IH]; intros d k d' n H HL Hk; cbn [records] in H.
    - injection H as <-. split; [assumption|]. split; [intros j _; auto 12|]. split; [cbn; lia|]. intros [|j] r Hr; discriminate.
    - inv_bind H. destruct (record_ok _ _ _ _ _ E HL) as (HL' & He & Hs & Hlt).
      destruct (IH _ _ _ _ H HL' ltac:(lia)) as (HL'' & Hs' & Hn & He').
      split; [assumption|]. split.
      { intros j Hj. destruct (Hs j Hj) as (A1 & A2 & A3 & A4 & A5 & A6 & A7 & A8). destruct (Hs' j ltac:(lia)) as (B1 & B2 & B3 & B4 & B5 & B6 & B7 & B8).
        rewrite B1, B2, B3, B4, B5, B6, B7, B8. auto 12. }
      split; [cbn [length]; lia|]. intros [|j] r' Hr.
      + cbn in Hr. injection Hr as <-. rewrite Nat.add_0_r. destruct He as (rms & mav & A0 & A1 & A2 & A3 & A4 & A5 & A6 & A7 & A8).
        destruct (Hs' k ltac:(lia)) as (B1 & B2 & B3 & B4 & B5 & B6 & B7 & B8). exists rms, mav. rewrite B1, B2, B3, B4, B5, B6, B7, B8. auto 12.
      + replace (k + S j)%nat with (S k + j)%nat by lia. apply He'. exact Hr.
  Qed.

  Notation omega := (omega_surf eos eos_s_t ppc_fn interp_two spsolve lsqr fuel loop_fuel junk junk_p junk_i surf_shape casts
                       g_edges g_dist g_distperp pin_c o).

  Definition ml_of (p_ml : option (list F)) : list F := match p_ml with Some l => l | None => repeat ninf (length casts) end.

  (** tolerance on phi: in specific volume units if the equation of state gives specific volume *)
  Definition tolerance (v : F) : F := if (v <? lit 1 0)%num then (TOL_LRPD_MAV o / lit 1 6)%num else TOL_LRPD_MAV o.

  Lemma omega_inv p_init p_ml x d its : omega p_init p_ml = Ok (x, d, its) ->
    exists v x0 pin_p f dr edges ip ix dg d',
      eos (lit 345 (-1)) (lit 3 0) (lit 1000 0) = Ok v
      /\ (exists x00, initial eos ppc_fn interp_two fuel loop_fuel junk surf_shape casts pin_c o p_init (ml_of p_ml) ip ix = Ok (x00, pin_p)
            /\ x0 = map (fun x => if isnan (fst (fst x)) then (fst (fst x), snd (fst x), nan) else x) x00)
      /\ (g_edges = Some edges /\ edges_to_csr junk_p junk_i edges (Some (length casts)) = Ok (ip, ix))
      /\ iterate f dr edges (ml_of p_ml) ip ix pin_p (tolerance v) (Z.to_nat (ITER_MAX o)) 1 x0 (lit 0 0) dg = Ok (its, x, d')
      /\ (if o_diags o then
            exists e, norms x0 = Ok e /\ (0 <= ITER_MAX o)%Z
              /\ dg = mkDiag (upd (d_e_MAV (empty_diags o)) 0 (snd e)) (upd (d_e_RMS (empty_diags o)) 0 (fst e))
                       (d_phi_MAV (empty_diags o)) (d_dp_MAV (empty_diags o)) (d_dp_RMS (empty_diags o)) (d_dp_Linf (empty_diags o))
                       (upd (d_n_wet (empty_diags o)) 0 (n_finite x0)) (d_n_newly_wet (empty_diags o))
              /\ exists d'', trim d' (length its) = Ok d'' /\ d = Some d''
          else d = None).
  Proof.
    unfold omega_surf. intros H. inv_bind H. inv_bind H. inv_bind H. fold (ml_of p_ml) in H. inv_bind H. inv_bind H. destruct v3 as [ip ix].
    inv_bind H. destruct v3 as [f dr]. inv_bind H. fold (tolerance v3) in H. inv_bind H. inv_bind H. destruct v5 as [x00 pin_p].
    inv_bind H. destruct (isnan _); [discriminate|]. inv_bind H. inv_bind H. destruct v7 as [[its' x'] d'].
    set (x0 := map _ x00) in *.
    assert (Hits : its' = its /\ x' = x).
    { destruct (o_diags o); [inv_bind H|]; injection H as ? ? ?; auto. }
    destruct Hits as [-> ->].
    exists v3, x0, pin_p, f, dr, v2, ip, ix, v6, d'. split; [assumption|]. split; [eauto|].
    split; [destruct g_edges as [e|]; [injection E2 as ->; auto|discriminate]|]. split; [assumption|].
    destruct (o_diags o).
    - inv_bind E9. inv_bind E9. inv_bind E9. inv_bind E9. injection E9 as <-.
      repeat match goal with E : np_set _ _ _ = Ok _ |- _ => apply np_set_inv in E; destruct E as [? ->] end.
      exists v7. split; [assumption|]. split.
      { cbn in H0. rewrite repeat_length in H0. lia. }
      split; [reflexivity|]. inv_bind H. injection H as <-. eauto.
    - injection H as <-. reflexivity.
  Qed.

  Lemma initial_begins p_init ml ip ix x00 pin_p x0 :
    initial eos ppc_fn interp_two fuel loop_fuel junk surf_shape casts pin_c o p_init ml ip ix = Ok (x00, pin_p) ->
    x0 = map (fun x => if isnan (fst (fst x)) then (fst (fst x), snd (fst x), nan) else x) x00 ->
    begins interp_two (bfs_conncomp1_wet_perim eos ppc_fn fuel casts (TOL_P_SOLVER o) ml loop_fuel (junk 0%Z) ip ix pin_c (ITER_WET_PERIM o))
      surf_shape casts pin_c p_init x0 pin_p.
  Proof.
    intros H ->. assert (Hm : masked x00 (map (fun x => if isnan (fst (fst x)) then (fst (fst x), snd (fst x), nan) else x) x00)).
    { split; [apply map_length|]. intros n s t p E. rewrite nth_error_map, E. cbn. destruct (isnan s); reflexivity. }
    destruct p_init as [p|sh ps|]; cbn [initial begins] in *.
    - inv_bind H. destruct v as [[S_ T_] P_]. inv_bind H. destruct v as [s t]. cbn [fst snd] in *. inv_bind H. inv_bind H. destruct v0 as [k y]. injection H as <- <-.
      split; [reflexivity|]. apply np_set_inv in E1. destruct E1 as [Hlt ->]. rewrite repeat_length in Hlt.
      eexists S_, T_, P_, s, t, _, y. split; [|split; [eassumption|split; [|split; [|split; [|split; [exists k; eassumption|assumption]]]]]].
      + unfold np_get in E. destruct (nth_error casts pin_c) as [c|]; [|discriminate]. injection E as ->. reflexivity.
      + rewrite length_upd, repeat_length. reflexivity.
      + apply nth_error_upd_eq. rewrite repeat_length. assumption.
      + intros n Hn Hne. rewrite nth_error_upd_neq by congruence. rewrite (nth_error_nth' _ (nan, nan, nan)) by (rewrite repeat_length; assumption).
        f_equal. apply nth_repeat.
    - destruct list_eq_dec as [->|]; [|discriminate]. inv_bind H. inv_bind H. injection H as <- <-.
      split; [reflexivity|]. split.
      { unfold np_get in E. destruct (nth_error ps pin_c) as [c|]; [|discriminate]. injection E as ->. reflexivity. }
      intros n p S_ T_ P_ Hp Hc. destruct (mapM_inv _ _ _ E0) as [L Hx]. destruct (Hx n (p, (S_, T_, P_))) as (b & Hb & Eb).
      { rewrite nth_error_combine, Hp, Hc. reflexivity. }
      inv_bind Eb. destruct v1 as [s t]. injection Eb as <-. exists s, t. split; [assumption|]. apply Hm. exact Hb.
    - discriminate.
  Qed.

  Lemma omega_run_from p_init p_ml x d its : omega p_init p_ml = Ok (x, d, its) ->
    exists v x0 pin_p edges ip ix x00, eos (lit 345 (-1)) (lit 3 0) (lit 1000 0) = Ok v
      /\ g_edges = Some edges /\ edges_to_csr junk_p junk_i edges (Some (length casts)) = Ok (ip, ix)
      /\ initial eos ppc_fn interp_two fuel loop_fuel junk surf_shape casts pin_c o p_init (ml_of p_ml) ip ix = Ok (x00, pin_p)
      /\ x0 = map (fun x => if isnan (fst (fst x)) then (fst (fst x), snd (fst x), nan) else x) x00
      /\ run o (tolerance v) (ml_of p_ml) pin_c pin_p x0 its x.
  Proof.
    intros H. destruct (omega_inv _ _ _ _ _ H) as (v & x0 & pin_p & f & dr & edges & ip & ix & dg & d' & Ev & (x00 & Ei & Ex0) & (Eg & Ec) & Hit & _).
    exists v, x0, pin_p, edges, ip, ix, x00. split; [assumption|]. split; [assumption|]. split; [assumption|].
    split; [assumption|]. split; [assumption|].
    destruct (iterate_run _ _ _ _ _ _ _ _ _ _ _ _ _ _ _ _ Hit) as (H1 & H2 & H3 & H4 & H5 & H6 & H7 & _).
    constructor.
    - lia.
    - intros Hp. apply H2. lia.
    - exact H3.
    - exact H4.
    - intros r Hr. destruct (H5 _ _ Hr) as (x' & dp' & Ho & ->). apply one_inv in Ho. destruct Ho as (Ho & _).
      cbn in Ho. injection Ho as ->. reflexivity.
    - intros k r r' Hr Hr'. destruct (H5 _ _ Hr') as (x' & dp' & Ho & (r1 & Hr1 & ->)). rewrite Hr in Hr1. injection Hr1 as <-.
      apply one_inv in Ho. destruct Ho as (Ho & _). replace (1 <? Z.of_nat (1 + S k))%Z with true in Ho by (symmetry; apply Z.ltb_lt; lia).
      apply remove_ml_inv. assumption.
    - intros Hlt r Hr. apply stops_iff. replace (length its) with (1 + length its - 1)%nat at 1 by lia. apply H6; [lia|exact Hr].
    - intros k r Hr Hk Hc. apply stops_iff in Hc. change (S k) with (1 + k)%nat in Hc. rewrite (H7 _ _ Hr Hk) in Hc. discriminate.
    - intros k r Hr Hw. destruct (H5 _ _ Hr) as (x' & dp' & Ho & _). apply one_inv in Ho. apply Ho. exact Hw.
    - intros k r Hr. destruct (H5 _ _ Hr) as (x' & dp' & Ho & _). apply one_inv in Ho. apply Ho.
  Qed.
  Lemma omega_run p_init p_ml x d its : omega p_init p_ml = Ok (x, d, its) ->
    exists v x0 pin_p edges ip ix, eos (lit 345 (-1)) (lit 3 0) (lit 1000 0) = Ok v
      /\ g_edges = Some edges /\ edges_to_csr junk_p junk_i edges (Some (length casts)) = Ok (ip, ix)
      /\ begins interp_two (bfs_conncomp1_wet_perim eos ppc_fn fuel casts (TOL_P_SOLVER o) (ml_of p_ml) loop_fuel (junk 0%Z) ip ix pin_c (ITER_WET_PERIM o))
           surf_shape casts pin_c p_init x0 pin_p
      /\ run o (tolerance v) (ml_of p_ml) pin_c pin_p x0 its x.
  Proof.
    intros H. destruct (omega_run_from _ _ _ _ _ H) as (v & x0 & pin_p & edges & ip & ix & x00 & Ev & Eg & Ec & Ei & Ex0 & Hr).
    exists v, x0, pin_p, edges, ip, ix. split; [assumption|]. split; [assumption|]. split; [assumption|].
    split; [apply initial_begins with x00; assumption|exact Hr].
  Qed.

  Lemma trim_inv (d : @diagnostics F) n d' : trim d n = Ok d' -> (0 < n)%nat /\
    d' = mkDiag (firstn (n + 1) (d_e_MAV d)) (firstn (n + 1) (d_e_RMS d))
           (firstn n (d_phi_MAV d)) (firstn n (d_dp_MAV d)) (firstn n (d_dp_RMS d)) (firstn n (d_dp_Linf d))
           (firstn n (d_n_wet d)) (firstn n (d_n_newly_wet d)).
  Proof. destruct n; [discriminate|]. unfold trim. intros E. injection E as <-. split; [lia|reflexivity]. Qed.

  Lemma n_finite_wet (x : list (F * F * F)) : wet_casts x (n_finite x).
  Proof.
    unfold wet_casts, n_finite. induction x as [|[[s t] p] x IH].
    - exists []. split; [constructor|]. split; [reflexivity|]. intros i. split; [intros []|]. intros (s & t & p & E & _). destruct i; discriminate.
    - destruct IH as (l & Hn & Hl & H).
      assert (Hs : forall i, In (S i) (map S l) <-> exists s' t' p', nth_error ((s, t, p) :: x) (S i) = Some (s', t', p') /\ isfinite p' = true).
      { intros i. cbn [nth_error]. rewrite <- H. split; [intros Hi; apply in_map_iff in Hi; destruct Hi as (j & Ej & Hj); injection Ej as ->; exact Hj|apply in_map]. }
      assert (H0 : ~ In 0%nat (map S l)) by (intros Hi; apply in_map_iff in Hi; destruct Hi as (j & Ej & _); discriminate).
      assert (Hnd : NoDup (map S l)) by (apply FinFun.Injective_map_NoDup; [intros a b E; injection E as ->; reflexivity|exact Hn]).
      cbn [filter snd]. destruct (isfinite p) eqn:Ep.
      + exists (0%nat :: map S l). split; [constructor; assumption|]. split; [cbn [length]; rewrite map_length, Hl; reflexivity|].
        intros [|i]; [split; [intros _; exists s, t, p; auto|intros _; left; reflexivity]|]. rewrite <- Hs. split; [intros [E|Hi]; [discriminate|exact Hi]|intros Hi; right; exact Hi].
      + exists (map S l). split; [assumption|]. split; [rewrite map_length; exact Hl|].
        intros [|i]; [|apply Hs]. split; [intros Hi; contradiction|]. intros (s' & t' & p' & E & Hf). cbn in E. injection E as _ _ <-. congruence.
  Qed.

  Lemma omega_diagnostics p_init p_ml x d its : omega p_init p_ml = Ok (x, Some d, its) ->
    exists x0, (forall r, nth_error its 0 = Some r -> i_in r = x0) /\ describes (fun x => norms x) x0 its d.
  Proof.
    intros H. destruct (omega_inv _ _ _ _ _ H) as (v & x0 & pin_p & f & dr & edges & ip & ix & dg & d' & Ev & _ & _ & Hit & Hd).
    exists x0. destruct (iterate_run _ _ _ _ _ _ _ _ _ _ _ _ _ _ _ _ Hit) as (H1 & H2 & H3 & H4 & H5 & _ & _ & H8).
    destruct (o_diags o); [|discriminate]. destruct Hd as (e & He & Hmax & Hdg & d'' & Htr & Hd''). injection Hd'' as <-.
    assert (HL : dlength dg (Z.to_nat (ITER_MAX o + 1))).
    { subst dg. unfold dlength. cbn. rewrite !length_upd, !repeat_length. auto 10. }
    destruct (records_ok _ _ _ _ _ H8 HL ltac:(lia)) as ((L1 & L2 & L3 & L4 & L5 & L6 & L7 & L8) & Hs & Hn & He').
    split.
    { intros r Hr. destruct (H5 _ _ Hr) as (x' & dp' & Ho & ->). apply one_inv in Ho. destruct Ho as (Ho & _).
      cbn in Ho. injection Ho as ->. reflexivity. }
    apply trim_inv in Htr. destruct Htr as [Hlen ->].
    destruct (Hs 0%nat ltac:(lia)) as (B1 & B2 & B3 & B4 & B5 & B6 & _).
    assert (Z0 : (0 < length (d_e_RMS (empty_diags o)))%nat) by (cbn; rewrite repeat_length; lia).
    assert (Z1 : (0 < length (d_e_MAV (empty_diags o)))%nat) by (cbn; rewrite repeat_length; lia).
    assert (Z2 : (0 < length (d_n_wet (empty_diags o)))%nat) by (cbn; rewrite repeat_length; lia).
    constructor.
    - cbn [d_e_RMS d_e_MAV d_phi_MAV d_dp_RMS d_dp_MAV d_dp_Linf d_n_wet d_n_newly_wet]. rewrite !firstn_length. lia.
    - exists (fst e), (snd e). cbn [d_e_RMS d_e_MAV d_n_wet]. rewrite !nth_error_firstn by lia. rewrite B1, B2, B5.
      subst dg. cbn [d_e_RMS d_e_MAV d_n_wet]. rewrite !nth_error_upd_eq by assumption. destruct e. pose proof (n_finite_wet x0). eauto 8.
    - intros k r Hr. pose proof (nth_error_lt _ _ _ Hr). destruct (He' _ _ Hr) as (rms & mav & A0 & A1 & A2 & _). exists rms, mav.
      cbn [d_e_RMS d_e_MAV]. rewrite !nth_error_firstn by lia. auto.
    - intros k r Hr Hk. destruct (He' _ _ Hr) as (rms & mav & A0 & A1 & A2 & A3 & A4 & A5 & A6 & _).
      cbn [d_phi_MAV d_dp_RMS d_n_newly_wet d_n_wet]. rewrite !nth_error_firstn by lia. pose proof (n_finite_wet (i_out r)). eauto 8.
  Qed.

  (** the changes of pressure *)
  Lemma omega_dp p_init p_ml x d its : omega p_init p_ml = Ok (x, Some d, its) ->
    forall k r, nth_error its k = Some r -> (S k < length its)%nat ->
      nth_error (d_dp_MAV d) (S k) = Some (nanmean (map fabs (p_change (i_wet r) (i_out r))))
      /\ nth_error (d_dp_Linf d) (S k) = Some (nanmax (map fabs (p_change (i_wet r) (i_out r)))).
  Proof.
    intros H. destruct (omega_inv _ _ _ _ _ H) as (v & x0 & pin_p & f & dr & edges & ip & ix & dg & d' & Ev & _ & _ & Hit & Hd).
    destruct (iterate_run _ _ _ _ _ _ _ _ _ _ _ _ _ _ _ _ Hit) as (H1 & H2 & H3 & H4 & H5 & _ & _ & H8).
    destruct (o_diags o); [|discriminate]. destruct Hd as (e & He & Hmax & Hdg & d'' & Htr & Hd''). injection Hd'' as <-.
    assert (HL : dlength dg (Z.to_nat (ITER_MAX o + 1))).
    { subst dg. unfold dlength. cbn. rewrite !length_upd, !repeat_length. auto 10. }
    destruct (records_ok _ _ _ _ _ H8 HL ltac:(lia)) as ((L1 & L2 & L3 & L4 & L5 & L6 & L7 & L8) & Hs & Hn & He').
    apply trim_inv in Htr. destruct Htr as [Hlen ->].
    intros k r Hr Hk. destruct (He' _ _ Hr) as (rms & mav & A0 & A1 & A2 & A3 & A4 & A5 & A6 & A7 & A8).
    cbn [d_dp_MAV d_dp_Linf]. rewrite !nth_error_firstn by lia. auto.
  Qed.
End Any.
