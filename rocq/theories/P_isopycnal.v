(** * Isopycnal surfaces: proofs *)
From Coq Require Import ZArith Bool Reals Lra Lia List.
From Verif Require Import Num XR Res Arr ArrLemmas Nd NdLemmas XRlemmas M_fzero S_fzero P_fzero M_ppinterp S_interp P_ppinterp
  P_pval P_pchip P_interp P_coeffs NumLaws P_interp2 M_traj S_traj P_traj M_vertsolve S_vertsolve P_vertsolve.
Import ListNotations.
Local Open Scope R_scope.

(** ** Range of valid data from the sum of salinity and pressure *)
Lemma nth_error_sum (Sn Pn : list xr) i x y : nth_error Sn i = Some x -> nth_error Pn i = Some y ->
  nth_error (map (fun z => add (fst z) (snd z)) (combine Sn Pn)) i = Some (add x y).
Proof.
  revert Pn i. induction Sn as [|a Sn IH]; intros [|b Pn] [|i]; cbn; try discriminate.
  - intros [= ->] [= ->]. reflexivity.
  - apply IH.
Qed.

Lemma sum_range S T P k K ss ts ps : cast S T P k K ss ts ps ->
  valid_range_1 (map (fun z : xr * xr => add (fst z) (snd z)) (combine S P)) = Ok (k, K).
Proof.
  intros HC. destruct (cast_blk _ _ _ _ _ _ _ _ HC) as [Hlen HkK HK HX HY Hinc Hpre Hpost].
  set (Z := map _ _).
  assert (HlZ : length Z = length P) by (unfold Z; rewrite map_length, combine_length; lia).
  assert (Hin : forall i, (k <= i < K)%nat -> nth i Z nan = Fin (ss i + ps i)).
  { intros i Hi. apply nth_error_nth. unfold Z. rewrite (nth_error_sum _ _ _ _ _ (HY i Hi) (HX i Hi)). reflexivity. }
  assert (Hnan : forall i, (i < length P)%nat -> nth_error P i = Some NaN \/ nth_error S i = Some NaN -> nth i Z nan = NaN).
  { intros i Hi H. apply nth_error_nth. destruct (nth_error S i) as [s|] eqn:Es.
    2:{ apply nth_error_None in Es. lia. }
    destruct (nth_error P i) as [p|] eqn:Ep.
    2:{ apply nth_error_None in Ep. lia. }
    unfold Z. rewrite (nth_error_sum _ _ _ _ _ Es Ep). destruct H as [H|H]; injection H as ->; [destruct s|destruct p]; reflexivity. }
  destruct (valid_range_1_spec Z) as (k' & K' & E & H1 & H2 & H3 & H4 & H5). rewrite E.
  assert (k' = k) as ->.
  { destruct (Nat.lt_trichotomy k' k) as [H|[H|H]]; [|assumption|]; exfalso.
    - destruct (H3 ltac:(lia)) as (A1 & _). rewrite (Hnan k' ltac:(lia) (Hpre k' H)) in A1. discriminate.
    - specialize (H2 k H). rewrite Hin in H2 by lia. discriminate. }
  assert (K' = K) as ->.
  { destruct (Nat.lt_trichotomy K' K) as [H|[H|H]]; [|assumption|]; exfalso.
    - destruct (H5 ltac:(lia)) as [A _]. rewrite Hin in A by lia. discriminate.
    - specialize (H4 K ltac:(lia)). rewrite (Hnan K ltac:(lia) (Hpost ltac:(lia))) in H4. discriminate. }
  reflexivity.
Qed.

(** ** Indexing *)
Lemma wrap_index_ok n i z : (i < n)%nat -> (z = Z.of_nat i \/ z = Z.of_nat i - Z.of_nat n)%Z -> wrap_index n z = Some i.
Proof.
  intros Hi Hz. unfold wrap_index.
  destruct (Z.leb_spec (- Z.of_nat n) z); [|lia]. destruct (Z.ltb_spec z (Z.of_nat n)); [|lia]. cbn [andb].
  destruct (Z.ltb_spec z 0); f_equal; lia.
Qed.

Lemma wrap_all_ok sh : forall ix t, indexes sh ix t -> forall rest, wrap_all (sh ++ rest) t = Some ix.
Proof.
  induction sh as [|n sh IH]; intros [|i ix] [|z t] H rest; cbn in H; try contradiction.
  - destruct rest; reflexivity.
  - destruct H as (Hi & Hz & H). cbn. rewrite (wrap_index_ok n i z Hi Hz), (IH _ _ H). reflexivity.
Qed.

Lemma indexes_length sh : forall ix t, indexes sh ix t -> length t = length sh.
Proof.
  induction sh as [|n sh IH]; intros [|i ix] [|z t] H; cbn in H; try contradiction; [reflexivity|].
  destruct H as (_ & _ & H). cbn. f_equal. eauto.
Qed.

(** ** Argument checks *)
Section Check.
  Context {F : Type}.
  Definition given_ref (r : @refarg F) := match r with RNone => false | _ => true end.
  Definition given_iso (v : option F) := match v with None => false | _ => true end.

  Lemma check_ref_iff a (ref : @refarg F) iso pc (pp : @pinp F) sh :
    check_ref a ref iso pc pp sh = Ok tt <->
      (if given_ref ref then given_iso iso = true \/ (pc <> CNone /\ pp <> PNone) else pc <> CNone /\ pp <> PNone)
      /\ match ref with
         | RNone => True
         | RFloat _ => a = Potential
         | RPair _ _ => a = Anomaly
         | ROther => False
         end
      /\ can_index sh pc = true /\ pp <> POther.
  Proof.
    unfold check_ref, given_ref, given_iso.
    assert (HA : is_none_c pc = false <-> pc <> CNone) by (destruct pc; cbn; split; congruence).
    assert (HB : is_none_p pp = false <-> pp <> PNone) by (destruct pp; cbn; split; congruence).
    generalize dependent (is_none_c pc). intros bc HA. generalize (can_index sh pc). intros ci.
    generalize dependent (pc <> CNone). intros Q HA.
    destruct pp; cbn in HB |- *; destruct bc, ci, ref, iso, a; cbn; split; intros H;
      try discriminate; try tauto;
      try (destruct H as (H1 & H2 & H3 & H4); try discriminate; try congruence; try tauto);
      try (repeat split; auto; try discriminate; try tauto; left; reflexivity);
      try (destruct H1; try discriminate; tauto).
    all: intuition congruence.
  Qed.
End Check.

(** ** Whole surfaces *)
Section Surface.
  Variable ppc_fn : list xr -> list xr -> res (list (list xr)).
  Variable rel : nat -> (nat -> R) -> (nat -> R) -> (R -> R) -> Prop.
  Hypothesis Hppc : interpolator ppc_fn rel.
  Variable tol : R.
  Hypothesis Htol : 0 < tol.
  Variables (D : domain) (eos : xr -> xr -> xr -> res xr) (rho : R -> R -> R -> R).
  Hypothesis Heos : eos_on D eos rho.
  Variables (nz : nat) (casts : nd column).
  Hypothesis Hcasts : Forall any_cast (elems casts).
  Hypothesis Hdom : Forall (cast_in D) (elems casts).

  Notation pinned_at := (pinned_at rel casts).
  Notation pin_ok := (pin_ok casts).

  Lemma column_at_ok t n pp gS gT : pinned_at t n pp gS gT ->
    exists c, nth_error (elems casts) n = Some c /\ column_at casts (CTuple t) = Ok (n, c).
  Proof.
    intros (ix & c & lo & hi & Hix & -> & Hn & _). exists c. split; [assumption|].
    unfold column_at, ndim. rewrite (indexes_length _ _ _ Hix), Nat.eqb_refl.
    pose proof (wrap_all_ok _ _ _ Hix []) as E. rewrite app_nil_r in E. rewrite E.
    rewrite (get_ok _ _ _ Hn). reflexivity.
  Qed.

  (** the interpolants found by the code *)
  Lemma column_values_ok c k K ss ts ps pp :
    cast (fst (fst c)) (snd (fst c)) (snd c) k K ss ts ps -> (k + 1 < K)%nat -> ps k <= pp <= ps (K - 1)%nat ->
    exists gS gT, profile rel c gS gT (ps k) (ps (K - 1)%nat)
      /\ column_values ppc_fn c (Fin pp) = Ok (Fin (gS pp), Fin (gT pp)).
  Proof.
    destruct c as [[Sc Tc] Pc]. cbn [fst snd]. intros HC H2 Hp.
    destruct (cast_interpolants ppc_fn rel Hppc Sc Tc Pc k K ss ts ps HC H2)
      as (Sppc & Tppc & gS & gT & E1 & E2 & R1 & R2 & C1 & C2 & W1 & W2 & Hv & G0 & G1).
    exists gS, gT. split.
    - split; [|assumption|assumption]. exists k, K, ss, ts, ps. cbn [fst snd]. auto 10.
    - unfold column_values. rewrite (sum_range _ _ _ _ _ _ _ _ HC). cbn [bind]. rewrite E1, E2. cbn [bind].
      apply Hv. assumption.
  Qed.

  Lemma pin_found t n pp : pin_ok t n pp -> exists c gS gT,
    pinned_at t n pp gS gT /\ nth_error (elems casts) n = Some c /\ column_at casts (CTuple t) = Ok (n, c)
    /\ column_values ppc_fn c (Fin pp) = Ok (Fin (gS pp), Fin (gT pp)).
  Proof.
    intros (ix & c & k & K & ss & ts & ps & Hix & -> & Hn & HC & H2 & Hp).
    destruct (column_values_ok c k K ss ts ps pp HC H2 Hp) as (gS & gT & Hpr & E).
    assert (Hpin : pinned_at t (ravel (shape casts) ix) pp gS gT).
    { exists ix, c, (ps k), (ps (K - 1)%nat). auto. }
    destruct (column_at_ok _ _ _ _ _ Hpin) as (c' & Hc' & Ec). rewrite Hn in Hc'. injection Hc' as <-.
    exists c, gS, gT. auto.
  Qed.

  Lemma can_index_pin t n pp : pin_ok t n pp -> can_index (shape casts ++ [nz]) (CTuple t) = true.
  Proof.
    intros (ix & c & k & K & ss & ts & ps & Hix & _). unfold can_index.
    rewrite (wrap_all_ok _ _ _ Hix). reflexivity.
  Qed.

  (** result of pinning the solved surface *)
  Lemma pin_step H t n pp x : pin_ok t n pp -> Forall2 (surface_point rel H tol) (elems casts) x ->
    exists gS gT x', pinned_at t n pp gS gT
      /\ (let! nc := column_at casts (CTuple t) in
          let! st := column_values ppc_fn (snd nc) (Fin pp) in
          set x (fst nc) (fst st, snd st, Fin pp)) = Ok x'
      /\ nth_error x' n = Some (Fin (gS pp), Fin (gT pp), Fin pp)
      /\ length x' = length x
      /\ (forall m c r, m <> n -> nth_error (elems casts) m = Some c -> nth_error x' m = Some r -> surface_point rel H tol c r).
  Proof.
    intros Hpin Hx. destruct (pin_found _ _ _ Hpin) as (c & gS & gT & Hp & Hn & Ec & Ev).
    assert (Hl : length (elems casts) = length x) by (clear - Hx; induction Hx; cbn; congruence).
    assert (Hlt : (n < length x)%nat) by (rewrite <- Hl; apply nth_error_Some; congruence).
    exists gS, gT, (upd x n (Fin (gS pp), Fin (gT pp), Fin pp)). split; [assumption|].
    rewrite Ec. cbn [bind snd fst]. rewrite Ev. cbn [bind snd fst]. split; [apply set_ok; assumption|].
    split; [apply nth_error_upd_eq; assumption|]. split; [apply length_upd|].
    intros m c' r Hm Hc Hr. rewrite nth_error_upd_neq in Hr by congruence.
    clear - Hx Hc Hr. revert m Hc Hr. induction Hx as [|a b l l' Hab Hx IH]; intros [|m]; cbn; try discriminate.
    - intros [= <-] [= <-]. assumption.
    - apply IH.
  Qed.

  Lemma pinned_in t n pp gS gT : pinned_at t n pp gS gT -> dS D (gS pp) /\ dT D (gT pp) /\ dP D pp.
  Proof.
    intros (ix & c & lo & hi & _ & _ & Hn & Hp & Hr). apply (profile_in D rel c gS gT lo hi); auto.
    rewrite Forall_forall in Hdom. apply Hdom. eapply nth_error_In. eassumption.
  Qed.

  Notation refof o := (match o with Some r => RFloat (Fin r) | None => RNone end).
  Notation isoof o := (match o with Some v => Some (Fin v) | None => None end).

  (** potential density, no pin *)
  Lemma potential_unpinned ref iso pc : dP D ref -> can_index (shape casts ++ [nz]) pc = true ->
    exists x, (forall fuel, Forall (enough_fuel fuel tol) (elems casts) ->
        isopycnal eos ppc_fn fuel Potential (RFloat (Fin ref)) (Some (Fin iso)) pc PNone nz casts (Fin tol)
        = Ok (x, RFloat (Fin ref), Fin iso))
      /\ Forall2 (surface_point rel (potential_of rho ref iso) tol) (elems casts) x.
  Proof.
    intros Href Hci. destruct (vertsolve_potential ppc_fn rel Hppc tol Htol D eos rho Heos ref iso (elems casts) Href Hcasts Hdom) as (x & E & Hx).
    exists x. split; [|assumption]. intros fuel Hf. unfold isopycnal.
    replace (check_ref _ _ _ _ _ _) with (@Ok unit tt).
    2:{ symmetry. apply check_ref_iff. cbn. repeat split; auto; discriminate. }
    cbn [bind choose_ref_isoval solve_surface]. rewrite E by assumption. reflexivity.
  Qed.

  Lemma anomaly_unpinned s0 t0 iso pc : dS D s0 -> dT D t0 -> can_index (shape casts ++ [nz]) pc = true ->
    exists x, (forall fuel, Forall (enough_fuel fuel tol) (elems casts) ->
        isopycnal eos ppc_fn fuel Anomaly (RPair (Some (Fin s0)) (Some (Fin t0))) (Some (Fin iso)) pc PNone nz casts (Fin tol)
        = Ok (x, RPair (Some (Fin s0)) (Some (Fin t0)), Fin iso))
      /\ Forall2 (surface_point rel (anomaly_of rho s0 t0 iso) tol) (elems casts) x.
  Proof.
    intros Hs0 Ht0 Hci. destruct (vertsolve_anomaly ppc_fn rel Hppc tol Htol D eos rho Heos s0 t0 iso (elems casts) Hs0 Ht0 Hcasts Hdom) as (x & E & Hx).
    exists x. split; [|assumption]. intros fuel Hf. unfold isopycnal.
    replace (check_ref _ _ _ _ _ _) with (@Ok unit tt).
    2:{ symmetry. apply check_ref_iff. cbn. repeat split; auto; discriminate. }
    cbn [bind choose_ref_isoval solve_surface]. rewrite E by assumption. reflexivity.
  Qed.

  (** with a pin: ref and isoval may be given or not, except isoval alone *)
  Lemma potential_pinned (ref iso : option R) t n pp : (ref = None -> iso = None) -> (forall r, ref = Some r -> dP D r) -> pin_ok t n pp ->
    exists gS gT x rv iv,
      pinned_at t n pp gS gT
      /\ (forall fuel, Forall (enough_fuel fuel tol) (elems casts) ->
            isopycnal eos ppc_fn fuel Potential (refof ref) (isoof iso) (CTuple t) (PFloat (Fin pp)) nz casts (Fin tol)
            = Ok (x, RFloat (Fin rv), Fin iv))
      /\ rv = match ref with Some r => r | None => pp end
      /\ iv = match iso with Some v => v | None => rho (gS pp) (gT pp) rv end
      /\ nth_error x n = Some (Fin (gS pp), Fin (gT pp), Fin pp)
      /\ length x = length (elems casts)
      /\ (forall m c r, m <> n -> nth_error (elems casts) m = Some c -> nth_error x m = Some r ->
            surface_point rel (potential_of rho rv iv) tol c r).
  Proof.
    intros Hri Hrd Hpin. destruct (pin_found _ _ _ Hpin) as (c & gS0 & gT0 & Hp0 & Hn0 & Ec0 & Ev0).
    destruct (pinned_in _ _ _ _ _ Hp0) as (D1 & D2 & D3).
    set (rv := match ref with Some r => r | None => pp end).
    set (iv := match iso with Some v => v | None => rho (gS0 pp) (gT0 pp) rv end).
    assert (Hrv : dP D rv) by (unfold rv; destruct ref; auto).
    destruct (vertsolve_potential ppc_fn rel Hppc tol Htol D eos rho Heos rv iv (elems casts) Hrv Hcasts Hdom) as (x & E & Hx).
    destruct (pin_step _ t n pp x Hpin Hx) as (gS & gT & x' & Hp & Es & Hn & Hl & Hm).
    assert (Hlx : length (elems casts) = length x) by (clear - Hx; induction Hx; cbn; congruence).
    assert (Heq : gS pp = gS0 pp /\ gT pp = gT0 pp).
    { revert Es. rewrite Ec0. cbn [bind snd fst]. rewrite Ev0. cbn [bind snd fst]. rewrite set_ok.
      - intros [= <-]. rewrite nth_error_upd_eq in Hn; [injection Hn; auto|].
        rewrite <- Hlx. apply nth_error_Some. congruence.
      - rewrite <- Hlx. apply nth_error_Some. congruence. }
    destruct Heq as [Heq1 Heq2].
    exists gS, gT, x', rv, iv. split; [assumption|]. split; [|].
    2:{ split; [reflexivity|]. split; [unfold iv; rewrite Heq1, Heq2; reflexivity|].
        split; [assumption|]. split; [congruence|]. assumption. }
    intros fuel Hf. unfold isopycnal.
    replace (check_ref _ _ _ _ _ _) with (@Ok unit tt).
    2:{ symmetry. apply check_ref_iff. split; [destruct ref; cbn; [right|]; split; discriminate|].
        split; [destruct ref; reflexivity|]. split; [eapply can_index_pin; eassumption|discriminate]. }
    cbn [bind].
    replace (choose_ref_isoval _ _ _ _ _ _ _ _) with (@Ok (@refarg xr * xr) (RFloat (Fin rv), Fin iv)).
    2:{ symmetry. unfold choose_ref_isoval. destruct iso as [v|].
        - destruct ref as [r|]; [reflexivity|]. discriminate (Hri eq_refl).
        - rewrite Ec0. cbn [bind snd]. rewrite Ev0. cbn [bind]. unfold rv, iv in *. destruct ref; cbn [bind]; rewrite Heos by assumption; reflexivity. }
    cbn [bind solve_surface]. rewrite E by assumption. cbn [bind]. rewrite Es. reflexivity.
  Qed.

  Lemma anomaly_pinned (ref : option (R * R)) (iso : option R) t n pp : (ref = None -> iso = None) ->
    (forall r, ref = Some r -> dS D (fst r) /\ dT D (snd r)) -> pin_ok t n pp ->
    exists gS gT x s0 t0 iv,
      pinned_at t n pp gS gT
      /\ (forall fuel, Forall (enough_fuel fuel tol) (elems casts) ->
            isopycnal eos ppc_fn fuel Anomaly (match ref with Some r => RPair (Some (Fin (fst r))) (Some (Fin (snd r))) | None => RNone end)
              (isoof iso) (CTuple t) (PFloat (Fin pp)) nz casts (Fin tol)
            = Ok (x, RPair (Some (Fin s0)) (Some (Fin t0)), Fin iv))
      /\ (s0, t0) = match ref with Some r => r | None => (gS pp, gT pp) end
      /\ iv = match iso with Some v => v | None => rho (gS pp) (gT pp) pp - rho s0 t0 pp end
      /\ nth_error x n = Some (Fin (gS pp), Fin (gT pp), Fin pp)
      /\ length x = length (elems casts)
      /\ (forall m c r, m <> n -> nth_error (elems casts) m = Some c -> nth_error x m = Some r ->
            surface_point rel (anomaly_of rho s0 t0 iv) tol c r).
  Proof.
    intros Hri Hrd Hpin. destruct (pin_found _ _ _ Hpin) as (c & gS0 & gT0 & Hp0 & Hn0 & Ec0 & Ev0).
    destruct (pinned_in _ _ _ _ _ Hp0) as (D1 & D2 & D3).
    set (s0 := match ref with Some r => fst r | None => gS0 pp end).
    set (t0 := match ref with Some r => snd r | None => gT0 pp end).
    set (iv := match iso with Some v => v | None => rho (gS0 pp) (gT0 pp) pp - rho s0 t0 pp end).
    assert (Hs0 : dS D s0) by (unfold s0; destruct ref as [r0|]; [apply (Hrd r0 eq_refl)|assumption]).
    assert (Ht0 : dT D t0) by (unfold t0; destruct ref as [r0|]; [apply (Hrd r0 eq_refl)|assumption]).
    destruct (vertsolve_anomaly ppc_fn rel Hppc tol Htol D eos rho Heos s0 t0 iv (elems casts) Hs0 Ht0 Hcasts Hdom) as (x & E & Hx).
    destruct (pin_step _ t n pp x Hpin Hx) as (gS & gT & x' & Hp & Es & Hn & Hl & Hm).
    assert (Hlx : length (elems casts) = length x) by (clear - Hx; induction Hx; cbn; congruence).
    assert (Heq : gS pp = gS0 pp /\ gT pp = gT0 pp).
    { revert Es. rewrite Ec0. cbn [bind snd fst]. rewrite Ev0. cbn [bind snd fst]. rewrite set_ok.
      - intros [= <-]. rewrite nth_error_upd_eq in Hn; [injection Hn; auto|].
        rewrite <- Hlx. apply nth_error_Some. congruence.
      - rewrite <- Hlx. apply nth_error_Some. congruence. }
    destruct Heq as [Heq1 Heq2].
    exists gS, gT, x', s0, t0, iv. split; [assumption|]. split; [|].
    2:{ split; [unfold s0, t0; destruct ref as [[? ?]|]; [reflexivity|congruence]|].
        split; [unfold iv; rewrite Heq1, Heq2; reflexivity|].
        split; [assumption|]. split; [congruence|]. assumption. }
    intros fuel Hf. unfold isopycnal.
    replace (check_ref _ _ _ _ _ _) with (@Ok unit tt).
    2:{ symmetry. apply check_ref_iff. split; [destruct ref; cbn; [right|]; split; discriminate|].
        split; [destruct ref; reflexivity|]. split; [eapply can_index_pin; eassumption|discriminate]. }
    cbn [bind].
    replace (choose_ref_isoval _ _ _ _ _ _ _ _) with (@Ok (@refarg xr * xr) (RPair (Some (Fin s0)) (Some (Fin t0)), Fin iv)).
    2:{ symmetry. unfold choose_ref_isoval. destruct iso as [v|].
        - destruct ref as [r|]; [reflexivity|]. discriminate (Hri eq_refl).
        - rewrite Ec0. cbn [bind snd]. rewrite Ev0. cbn [bind]. unfold s0, t0, iv in *.
          destruct ref; cbn [bind fst snd]; rewrite !Heos by assumption; cbn [bind]; xsimp; reflexivity. }
    cbn [bind solve_surface]. rewrite E by assumption. cbn [bind]. rewrite Es. reflexivity.
  Qed.

  (** *** pinning pressure outside the column: the isovalue is NaN *)
  Hypothesis Hnan : forall p, eos NaN NaN p = Ok NaN.

  Lemma guess_nan f a b x : a <= b -> (forall y, f y = Ok NaN) ->
    forall fuel, (13 <= fuel)%nat -> guess_to_bounds f fuel (Fin x) (Fin a) (Fin b) = Ok (NaN, NaN).
  Proof.
    intros Hab Hf fuel Hfu.
    assert (E1 : ltb (@lit xr _ 0 0) NaN = false) by reflexivity.
    assert (E2 : ltb (@lit xr _ 0 0) (Fin (-1)) = false) by (xsimp; apply Rltb_false; lra).
    assert (E3 : eqb NaN (@lit xr _ 0 0) = false) by reflexivity.
    assert (E4 : eqb (Fin (-1)) (@lit xr _ 0 0) = false) by (xsimp; apply Reqb_false; lra).
    set (f' := fun _ : xr => @Ok xr (Fin (-1))).
    assert (Hf' : forall y, f' y = Ok (Fin (-1))) by reflexivity. clearbody f'.
    assert (E : guess_to_bounds f fuel (Fin x) (Fin a) (Fin b) = guess_to_bounds f' fuel (Fin x) (Fin a) (Fin b)).
    { assert (Hb : forall x st, gtb_body f x (Fin a) (Fin b) st = gtb_body f' x (Fin a) (Fin b) st).
      { intros y st. unfold gtb_body, gtb_left, gtb_right. destruct st as [ga gb gm gp fa fb].
        rewrite ?Hf, ?Hf'. cbn [bind]. rewrite ?E1, ?E2.
        destruct (ltb (Fin a) ga).
        { destruct (differ (Some false) fb) as [[|]|]; cbn [bind]; try reflexivity. rewrite ?Hf, ?Hf'. cbn [bind]. rewrite ?E1, ?E2. reflexivity. }
        destruct (eqb gb (Fin b)).
        { destruct (differ fa fb) as [[|]|]; reflexivity. }
        cbn [bind]. rewrite ?Hf, ?Hf'. cbn [bind]. rewrite ?E1, ?E2. reflexivity. }
      assert (Hl : forall fuel x st, loop fuel (gtb_body f x (Fin a) (Fin b)) st = loop fuel (gtb_body f' x (Fin a) (Fin b)) st).
      { induction fuel0 as [|n IH]; intros y st; [reflexivity|]. cbn [loop]. rewrite Hb.
        destruct (gtb_body _ y (Fin a) (Fin b) st) as [[?|?]|]; cbn [bind]; auto. }
      unfold guess_to_bounds. rewrite ?Hf, ?Hf'. cbn [bind]. rewrite ?E3, ?E4, ?Hf, ?Hf'. cbn [bind]. rewrite ?E3, ?E4.
      destruct (sdiv _ _); cbn [bind]; [|reflexivity]. destruct (sdiv _ _); cbn [bind]; [|reflexivity].
      cbv zeta. rewrite ?Hf, ?Hf'. cbn [bind]. rewrite ?E1, ?E2, ?Hf, ?Hf'. cbn [bind]. rewrite ?E1, ?E2.
      destruct (ltb (Fin a) _); cbn [bind]; [apply Hl|]. destruct (eqb _ (Fin b)); cbn [bind]; apply Hl. }
    rewrite E. destruct (guess_to_bounds_correct f' (fun _ => -1) (Fin x) a b Hab) as (r & Hr & Hc);
      [discriminate|intros; apply Hf'|]. rewrite Hr by assumption.
    destruct Hc as [[_ H]|[[_ H]|[(? & ? & _ & _ & _ & [[? ?]|[? ?]])|[-> _]]]]; try lra. reflexivity.
  Qed.

  (** with a NaN isovalue every column gives NaN *)
  Lemma vertsolve_1_nan ref c : dP D ref -> any_cast c -> cast_in D c -> forall fuel, enough_fuel fuel tol c ->
    vertsolve_1 ppc_fn fuel (zero_potential eos (Fin ref) NaN) (Fin tol) c = Ok (NaN, NaN, NaN).
  Proof.
    intros Href Hc Hin fuel [F1 F2]. destruct c as [[Sc Tc] Pc]. destruct Hc as [Hs|(k & K & ss & ts & ps & HC & H2)].
    - destruct (short_cast_range Sc Pc Hs) as (k & K & E & HK & _ & _).
      unfold vertsolve_1. rewrite E. cbn [bind]. destruct (Nat.ltb_spec 1 (K - k)); [lia|]. reflexivity.
    - destruct (cast_interpolants ppc_fn rel Hppc Sc Tc Pc k K ss ts ps HC H2)
        as (Sppc & Tppc & gS & gT & E1 & E2 & R1 & R2 & C1 & C2 & W1 & W2 & Hv & G0 & G1).
      pose proof (ps_le Sc Tc Pc k K ss ts ps HC H2) as Hle.
      unfold vertsolve_1. rewrite (cast_range _ _ _ _ _ _ _ _ HC). cbn [bind].
      destruct (Nat.ltb_spec 1 (K - k)); [|lia]. rewrite E1, E2, G0, G1. cbn [bind]. xsimp.
      rewrite (guess_nan _ _ _ _ Hle); [reflexivity| |assumption].
      intros y. unfold zero_potential.
      assert (Hval : exists s t, ppval_1_nonan_two y (slice Pc k K) Sppc Tppc 0 = Ok (s, t) /\ exists v, eos s t (Fin ref) = Ok v).
      { assert (Hout : locate_nonan y (slice Pc k K) = Ok None ->
          exists s t, ppval_1_nonan_two y (slice Pc k K) Sppc Tppc 0 = Ok (s, t) /\ exists v, eos s t (Fin ref) = Ok v).
        { intros E. exists NaN, NaN. unfold ppval_1_nonan_two. rewrite E. cbn [bind]. split; [reflexivity|]. rewrite Hnan. eauto. }
        destruct y as [y| | |].
        - destruct (Rle_dec (ps k) y) as [Hy|Hy]; [destruct (Rle_dec y (ps (K - 1)%nat)) as [Hy'|Hy']|].
          + exists (Fin (gS y)), (Fin (gT y)). split; [apply Hv; lra|].
            destruct (values_in D Sc Tc Pc k K ss ts ps HC H2 gS gT Hin W1 W2 y ltac:(lra)) as (D1 & D2 & D3).
            rewrite Heos by assumption. eauto.
          + apply Hout. unfold locate_nonan. rewrite G0, G1. cbn [bind]. xsimp.
            rewrite Rltb_false by lra. rewrite Rltb_true by lra. reflexivity.
          + apply Hout. unfold locate_nonan. rewrite G0. cbn [bind]. xsimp. rewrite Rltb_true by lra. reflexivity.
        - apply Hout. unfold locate_nonan. rewrite G0, G1. cbn [bind]. xsimp. reflexivity.
        - apply Hout. unfold locate_nonan. rewrite G0. cbn [bind]. xsimp. reflexivity.
        - apply Hout. reflexivity. }
      destruct Hval as (s & t & -> & v & Ev). cbn [bind]. rewrite Ev. cbn [bind].
      destruct v; reflexivity.
  Qed.

  Lemma column_values_outside c k K ss ts ps pp :
    cast (fst (fst c)) (snd (fst c)) (snd c) k K ss ts ps -> (k + 1 < K)%nat -> pp < ps k \/ ps (K - 1)%nat < pp ->
    column_values ppc_fn c (Fin pp) = Ok (NaN, NaN).
  Proof.
    destruct c as [[Sc Tc] Pc]. cbn [fst snd]. intros HC H2 Hp.
    destruct (cast_interpolants ppc_fn rel Hppc Sc Tc Pc k K ss ts ps HC H2)
      as (Sppc & Tppc & gS & gT & E1 & E2 & R1 & R2 & C1 & C2 & W1 & W2 & Hv & G0 & G1).
    unfold column_values. rewrite (sum_range _ _ _ _ _ _ _ _ HC). cbn [bind]. rewrite E1, E2. cbn [bind].
    destruct HC as [HB HlT HT]. pose proof (blk_len _ _ _ _ _ _ HB) as Hl. pose proof (blk_K _ _ _ _ _ _ HB) as HK.
    assert (B1 : block (slice Pc k K) (slice Sc k K) 0 (length (slice Pc k K)) (from k ps) (from k ss)).
    { apply (block_slice Pc Sc Sc k K ps ss ss HB); [lia|]. apply (blk_Y _ _ _ _ _ _ HB). }
    assert (Hls : length (slice Pc k K) = (K - k)%nat) by (apply length_slice; lia).
    destruct (Hppc _ _ _ _ B1) as (C & g & S1 & S2 & _); [lia|]. rewrite E1 in S1. injection S1 as <-.
    unfold ppval_1_two. rewrite S2.
    rewrite (locate_outside _ _ _ _ _ _ B1 (Fin pp)); [reflexivity|].
    right. right. right. right. exists pp. split; [reflexivity|].
    unfold from. rewrite Hls. replace (k + 0)%nat with k by lia. replace (k + (K - k - 1))%nat with (K - 1)%nat by lia. assumption.
  Qed.

  Lemma potential_pinned_outside (ref : option R) t ix c k K ss ts ps pp fuel :
    indexes (shape casts) ix t -> nth_error (elems casts) (ravel (shape casts) ix) = Some c ->
    cast (fst (fst c)) (snd (fst c)) (snd c) k K ss ts ps -> (k + 1 < K)%nat -> pp < ps k \/ ps (K - 1)%nat < pp ->
    dP D (match ref with Some r => r | None => pp end) -> Forall (enough_fuel fuel tol) (elems casts) ->
    exists x rv,
      isopycnal eos ppc_fn fuel Potential (refof ref) None (CTuple t) (PFloat (Fin pp)) nz casts (Fin tol)
      = Ok (x, RFloat (Fin rv), NaN)
      /\ length x = length (elems casts)
      /\ nth_error x (ravel (shape casts) ix) = Some (NaN, NaN, Fin pp)
      /\ (forall m r, m <> ravel (shape casts) ix -> nth_error x m = Some r -> r = (NaN, NaN, NaN)).
  Proof.
    intros Hix Hn HC H2 Hpp Hrv Hf. set (n := ravel (shape casts) ix) in *.
    assert (Ec : column_at casts (CTuple t) = Ok (n, c)).
    { unfold column_at, ndim. rewrite (indexes_length _ _ _ Hix), Nat.eqb_refl.
      pose proof (wrap_all_ok _ _ _ Hix []) as E. rewrite app_nil_r in E. rewrite E.
      fold n. rewrite (get_ok _ _ _ Hn). reflexivity. }
    pose proof (column_values_outside c k K ss ts ps pp HC H2 Hpp) as Ev.
    set (rv := match ref with Some r => r | None => pp end) in *.
    assert (Hlt : (n < length (elems casts))%nat) by (apply nth_error_Some; congruence).
    exists (upd (repeat (NaN, NaN, NaN) (length (elems casts))) n (NaN, NaN, Fin pp)), rv. split; [|split; [|split]].
    - unfold isopycnal.
      replace (check_ref _ _ _ _ _ _) with (@Ok unit tt).
      2:{ symmetry. apply check_ref_iff. split; [destruct ref; cbn; [right|]; split; discriminate|].
          split; [destruct ref; reflexivity|]. split; [|discriminate].
          unfold can_index. rewrite (wrap_all_ok _ _ _ Hix). reflexivity. }
      cbn [bind].
      replace (choose_ref_isoval _ _ _ _ _ _ _ _) with (@Ok (@refarg xr * xr) (RFloat (Fin rv), NaN)).
      2:{ symmetry. unfold choose_ref_isoval. rewrite Ec. cbn [bind snd]. rewrite Ev. cbn [bind]. unfold rv.
          destruct ref; cbn [bind]; rewrite Hnan; reflexivity. }
      cbn [bind solve_surface].
      replace (vertsolve _ _ _ _ _) with (@Ok (list bottle) (repeat (NaN, NaN, NaN) (length (elems casts)))).
      2:{ symmetry. clear - Heos Hnan Hppc Hrv Hcasts Hdom Hf. revert Hdom Hf. induction Hcasts as [|c l Hc Hl IH]; intros Hd Hf; [reflexivity|].
          inversion Hf as [|? ? F1 F2]; inversion Hd as [|? ? G1 G2]; subst. unfold vertsolve in *. cbn [mapM length repeat].
          rewrite (vertsolve_1_nan rv c Hrv Hc G1 _ F1). cbn [bind]. rewrite IH by assumption. reflexivity. }
      cbn [bind]. rewrite Ec. cbn [bind snd fst]. rewrite Ev. cbn [bind snd fst].
      rewrite set_ok; [reflexivity|]. rewrite repeat_length. assumption.
    - rewrite length_upd. apply repeat_length.
    - apply nth_error_upd_eq. rewrite repeat_length. assumption.
    - intros m r Hm Hr. rewrite nth_error_upd_neq in Hr by congruence.
      apply nth_error_In in Hr. apply repeat_spec in Hr. assumption.
  Qed.
End Surface.
