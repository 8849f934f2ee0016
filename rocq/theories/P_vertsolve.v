(** * Surfaces found column by column: proofs *)
From Coq Require Import ZArith Bool Reals Lra Lia List.
From Verif Require Import Num XR Res Arr ArrLemmas Nd NdLemmas XRlemmas M_fzero S_fzero P_fzero M_ppinterp S_interp P_ppinterp
  P_pval P_pchip P_interp P_coeffs NumLaws P_interp2 M_traj S_traj P_traj M_vertsolve S_vertsolve.
Import ListNotations.
Local Open Scope R_scope.

(** the two root finders in sequence *)
Lemma search_correct (f : xr -> res xr) h x a b tol :
  a <= b -> x <> NaN -> 0 < tol -> (forall y, a <= y <= b -> f (Fin y) = Ok (Fin (h y))) ->
  ((forall fuel, (13 <= fuel)%nat -> guess_to_bounds f fuel x (Fin a) (Fin b) = Ok (NaN, NaN)) /\ 0 < h a * h b)
  \/ exists a' b' p,
       (forall fuel, (13 <= fuel)%nat -> guess_to_bounds f fuel x (Fin a) (Fin b) = Ok (Fin a', Fin b'))
       /\ (forall fuel, 2 * (b - a) / tol + 1 <= INR fuel -> brent f fuel (Fin a') (Fin b') (Fin tol) = Ok (Fin p))
       /\ a <= p <= b /\ near_root h a b p (brent_tol p tol).
Proof.
  intros Hab Hx Ht Hf.
  destruct (guess_to_bounds_correct f h x a b Hab Hx Hf) as (r & Hr & Hcases).
  assert (Hbr : forall a' b', a <= a' -> a' <= b' -> b' <= b -> h a' * h b' <= 0 -> r = (Fin a', Fin b') ->
     exists a' b' p,
       (forall fuel, (13 <= fuel)%nat -> guess_to_bounds f fuel x (Fin a) (Fin b) = Ok (Fin a', Fin b'))
       /\ (forall fuel, 2 * (b - a) / tol + 1 <= INR fuel -> brent f fuel (Fin a') (Fin b') (Fin tol) = Ok (Fin p))
       /\ a <= p <= b /\ near_root h a b p (brent_tol p tol)).
  { intros a' b' h1 h2 h3 h4 Er.
    destruct (brent_correct f h a' b' tol h2 Ht) as (y & Hy & Hy1 & Hy2); auto.
    { intros z Hz. apply Hf. lra. }
    exists a', b', y. split; [|split; [|split; [lra|]]].
    - intros fuel Hfu. rewrite Hr by assumption. rewrite Er. reflexivity.
    - intros fuel Hfu. apply Hy. eapply Rle_trans; [|exact Hfu]. apply Rplus_le_compat_r.
      unfold Rdiv. apply Rmult_le_compat_r; [left; apply Rinv_0_lt_compat; assumption|lra].
    - destruct Hy2 as [E|(c & Hc & Hd & Ho)]; [left; assumption|right]. exists c. repeat split; auto; lra. }
  destruct Hcases as [[Er E0]|[[Er E0]|[(a' & b' & Er & h1 & h2 & Ho)|[Er E0]]]].
  - right. apply (Hbr a a); auto; try lra; nra.
  - right. apply (Hbr b b); auto; try lra; nra.
  - right. apply (Hbr a' b'); auto; try lra. destruct Ho as [[? ?]|[? ?]]; nra.
  - left. split; [|assumption]. intros fuel Hfu. rewrite Hr by assumption. rewrite Er. reflexivity.
Qed.

(** the water of a column is in the ranges of its data *)
Lemma profile_in D rel c gS gT lo hi : cast_in D c -> profile rel c gS gT lo hi ->
  forall x, lo <= x <= hi -> dS D (gS x) /\ dT D (gT x) /\ dP D x.
Proof.
  intros Hin [(k & K & ss & ts & ps & HC & H2 & _ & _ & W1 & W2 & -> & ->) _ _].
  destruct c as [[Sc Tc] Pc]. cbn [fst snd] in *. apply (values_in D Sc Tc Pc k K ss ts ps HC H2); assumption.
Qed.

Section Solve.
  Variable ppc_fn : list xr -> list xr -> res (list (list xr)).
  Variable rel : nat -> (nat -> R) -> (nat -> R) -> (R -> R) -> Prop.
  Hypothesis Hppc : interpolator ppc_fn rel.
  Variable tol : R.
  Hypothesis Htol : 0 < tol.

  Lemma cast_range S T P k K ss ts ps : cast S T P k K ss ts ps -> valid_range_1_two S P = Ok (k, K).
  Proof.
    intros HC. rewrite valid_range_swap; [|symmetry; apply (blk_len _ _ _ _ _ _ (cast_blk _ _ _ _ _ _ _ _ HC))].
    apply (block_valid_range _ _ _ _ _ _ (cast_blk _ _ _ _ _ _ _ _ HC)).
  Qed.

  (** a function that evaluates the interpolants and then H *)
  Variable D : domain.
  Definition evaluates (zf : list xr -> list (list xr) -> list (list xr) -> xr -> res xr) (H : R -> R -> R -> R) : Prop :=
    forall P Sppc Tppc p s t, ppval_1_nonan_two (Fin p) P Sppc Tppc 0 = Ok (Fin s, Fin t) ->
      dS D s -> dT D t -> dP D p ->
      zf P Sppc Tppc (Fin p) = Ok (Fin (H s t p)).

  Lemma vertsolve_1_correct zf H c : evaluates zf H -> any_cast c -> cast_in D c ->
    exists r, (forall fuel, enough_fuel fuel tol c -> vertsolve_1 ppc_fn fuel zf (Fin tol) c = Ok r)
      /\ surface_point rel H tol c r.
  Proof.
    intros Hz Hc Hin. destruct c as [[Sc Tc] Pc]. destruct Hc as [Hs|(k & K & ss & ts & ps & HC & H2)].
    - exists (NaN, NaN, NaN). split; [|left; auto]. intros fuel _.
      destruct (short_cast_range Sc Pc Hs) as (k & K & E & HK & _ & _).
      unfold vertsolve_1. rewrite E. cbn [bind]. destruct (Nat.ltb_spec 1 (K - k)); [lia|]. reflexivity.
    - destruct (cast_interpolants ppc_fn rel Hppc Sc Tc Pc k K ss ts ps HC H2)
        as (Sppc & Tppc & gS & gT & E1 & E2 & R1 & R2 & C1 & C2 & W1 & W2 & Hv & G0 & G1).
      pose proof (ps_le Sc Tc Pc k K ss ts ps HC H2) as Hle.
      set (h := fun p => H (gS p) (gT p) p).
      assert (Hpr : profile rel (Sc, Tc, Pc) gS gT (ps k) (ps (K - 1)%nat)).
      { split; [|assumption|assumption]. exists k, K, ss, ts, ps. cbn [fst snd]. auto 10. }
      destruct (search_correct (zf (slice Pc k K) Sppc Tppc) h
                  (Fin ((ps k + ps (K - 1)%nat) * / 2)) (ps k) (ps (K - 1)%nat) tol Hle) as [[Hg Hn]|(a & b & p & Hg & Hb & Hp & Hr)];
        [discriminate|assumption| | |].
      + intros y Hy. destruct (values_in D Sc Tc Pc k K ss ts ps HC H2 gS gT Hin W1 W2 y Hy) as (D1 & D2 & D3).
        apply Hz; [apply Hv|..]; assumption.
      + exists (NaN, NaN, NaN). split; [|right; exists gS, gT, (ps k), (ps (K - 1)%nat); split; [assumption|left; auto]].
        intros fuel [F1 F2]. specialize (F2 _ _ _ _ _ HC).
        unfold vertsolve_1. rewrite (cast_range _ _ _ _ _ _ _ _ HC). cbn [bind].
        destruct (Nat.ltb_spec 1 (K - k)); [|lia]. rewrite E1, E2, G0, G1. cbn [bind]. xsimp.
        rewrite Hg by assumption. reflexivity.
      + exists (Fin (gS p), Fin (gT p), Fin p). split.
        2:{ right. exists gS, gT, (ps k), (ps (K - 1)%nat). split; [assumption|]. right. exists p. auto. }
        intros fuel [F1 F2]. specialize (F2 _ _ _ _ _ HC).
        unfold vertsolve_1. rewrite (cast_range _ _ _ _ _ _ _ _ HC). cbn [bind].
        destruct (Nat.ltb_spec 1 (K - k)); [|lia]. rewrite E1, E2, G0, G1. cbn [bind]. xsimp.
        rewrite Hg by assumption. cbn [bind]. xsimp. rewrite Hb by assumption. cbn [bind].
        rewrite (proj1 (Hv p Hp)). reflexivity.
  Qed.

  Lemma vertsolve_correct zf H casts : evaluates zf H -> Forall any_cast casts -> Forall (cast_in D) casts ->
    exists x, (forall fuel, Forall (enough_fuel fuel tol) casts -> vertsolve ppc_fn fuel zf (Fin tol) casts = Ok x)
      /\ Forall2 (surface_point rel H tol) casts x.
  Proof.
    intros Hz Ha Hi. induction Ha as [|c casts Hc Ha IH0].
    - exists []. split; [reflexivity|constructor].
    - inversion Hi as [|? ? Hi1 Hi2]; subst. destruct (IH0 Hi2) as (x & E & IH).
      destruct (vertsolve_1_correct zf H c Hz Hc Hi1) as (r & Er & Hr). exists (r :: x). split; [|constructor; assumption].
      intros fuel Hf. inversion Hf as [|? ? F1 F2]; subst. unfold vertsolve. cbn [mapM]. rewrite Er by assumption. cbn [bind].
      fold (vertsolve ppc_fn fuel zf (Fin tol)). unfold vertsolve in E. rewrite E by assumption. reflexivity.
  Qed.

  Variables (eos : xr -> xr -> xr -> res xr) (rho : R -> R -> R -> R).
  Hypothesis Heos : eos_on D eos rho.

  Lemma zero_potential_eval ref iso : dP D ref -> evaluates (zero_potential eos (Fin ref) (Fin iso)) (potential_of rho ref iso).
  Proof.
    intros Href P Sppc Tppc p s t E D1 D2 D3. unfold zero_potential. rewrite E. cbn [bind]. rewrite Heos by assumption. cbn [bind]. xsimp. reflexivity.
  Qed.
  Lemma zero_anomaly_eval s0 t0 iso : dS D s0 -> dT D t0 -> evaluates (zero_anomaly eos (Fin s0, Fin t0) (Fin iso)) (anomaly_of rho s0 t0 iso).
  Proof.
    intros Hs0 Ht0 P Sppc Tppc p s t E D1 D2 D3. unfold zero_anomaly. rewrite E. cbn [bind fst snd]. rewrite !Heos by assumption. cbn [bind]. xsimp. reflexivity.
  Qed.

  Lemma vertsolve_potential ref iso casts : dP D ref -> Forall any_cast casts -> Forall (cast_in D) casts ->
    exists x, (forall fuel, Forall (enough_fuel fuel tol) casts ->
        vertsolve ppc_fn fuel (zero_potential eos (Fin ref) (Fin iso)) (Fin tol) casts = Ok x)
      /\ Forall2 (surface_point rel (potential_of rho ref iso) tol) casts x.
  Proof. intros. apply vertsolve_correct; auto. apply zero_potential_eval. assumption. Qed.
  Lemma vertsolve_anomaly s0 t0 iso casts : dS D s0 -> dT D t0 -> Forall any_cast casts -> Forall (cast_in D) casts ->
    exists x, (forall fuel, Forall (enough_fuel fuel tol) casts ->
        vertsolve ppc_fn fuel (zero_anomaly eos (Fin s0, Fin t0) (Fin iso)) (Fin tol) casts = Ok x)
      /\ Forall2 (surface_point rel (anomaly_of rho s0 t0 iso) tol) casts x.
  Proof. intros. apply vertsolve_correct; auto. apply zero_anomaly_eval; assumption. Qed.

  (** ** omega *)
  Lemma omega_zero fuel c x : vertsolve_omega_1 eos ppc_fn fuel (Fin tol) x c (Fin 0) = Ok x.
  Proof. unfold vertsolve_omega_1. xsimp. rewrite Reqb_true by reflexivity. reflexivity. Qed.

  Lemma omega_nan fuel c x : any_cast c -> vertsolve_omega_1 eos ppc_fn fuel (Fin tol) x c NaN = Ok (NaN, NaN, NaN).
  Proof.
    intros Hc. destruct c as [[Sc Tc] Pc]. unfold vertsolve_omega_1. xsimp.
    assert (E : exists k K, valid_range_1_two Sc Pc = Ok (k, K)).
    { destruct Hc as [Hs|(k & K & ss & ts & ps & HC & H2)].
      - destruct (short_cast_range Sc Pc Hs) as (k & K & E & _). eauto.
      - eauto using cast_range. }
    destruct E as (k & K & ->). cbn [bind]. rewrite andb_false_r. reflexivity.
  Qed.

  Lemma omega_short fuel c x ϕ : short_cast (fst (fst c)) (snd c) -> ϕ <> 0 ->
    vertsolve_omega_1 eos ppc_fn fuel (Fin tol) x c (Fin ϕ) = Ok (NaN, NaN, NaN).
  Proof.
    intros Hs Hϕ. destruct c as [[Sc Tc] Pc]. cbn [fst snd] in Hs. unfold vertsolve_omega_1. xsimp.
    rewrite Reqb_false by assumption.
    destruct (short_cast_range Sc Pc Hs) as (k & K & E & HK & _ & _). rewrite E. cbn [bind].
    destruct (Nat.ltb_spec 1 (K - k)); [lia|]. reflexivity.
  Qed.

  Lemma omega_correct c s t p ϕ : any_cast c -> cast_in D c -> dS D s -> dT D t -> dP D p -> ϕ <> 0 ->
    exists r, (forall fuel, enough_fuel fuel tol c ->
        vertsolve_omega_1 eos ppc_fn fuel (Fin tol) (Fin s, Fin t, Fin p) c (Fin ϕ) = Ok r)
      /\ surface_point rel (potential_of rho p (rho s t p + ϕ)) tol c r.
  Proof.
    intros Hc Hin Ds Dt Dp Hϕ. destruct c as [[Sc Tc] Pc]. destruct Hc as [Hs|(k & K & ss & ts & ps & HC & H2)].
    - exists (NaN, NaN, NaN). split; [|left; auto]. intros fuel _. apply omega_short; assumption.
    - destruct (cast_interpolants ppc_fn rel Hppc Sc Tc Pc k K ss ts ps HC H2)
        as (Sppc & Tppc & gS & gT & E1 & E2 & R1 & R2 & C1 & C2 & W1 & W2 & Hv & G0 & G1).
      pose proof (ps_le Sc Tc Pc k K ss ts ps HC H2) as Hle.
      set (H := potential_of rho p (rho s t p + ϕ)). set (h := fun p => H (gS p) (gT p) p).
      assert (Hpr : profile rel (Sc, Tc, Pc) gS gT (ps k) (ps (K - 1)%nat)).
      { split; [|assumption|assumption]. exists k, K, ss, ts, ps. cbn [fst snd]. auto 10. }
      destruct (search_correct (zero_potential eos (Fin p) (Fin (rho s t p + ϕ)) (slice Pc k K) Sppc Tppc) h
                  (Fin p) (ps k) (ps (K - 1)%nat) tol Hle) as [[Hg Hn]|(a & b & q & Hg & Hb & Hq & Hr)];
        [discriminate|assumption| | |].
      + intros y Hy. destruct (values_in D Sc Tc Pc k K ss ts ps HC H2 gS gT Hin W1 W2 y Hy) as (D1 & D2 & D3).
        apply zero_potential_eval; [assumption|apply Hv|..]; assumption.
      + exists (NaN, NaN, NaN). split; [|right; exists gS, gT, (ps k), (ps (K - 1)%nat); split; [assumption|left; auto]].
        intros fuel [F1 F2]. specialize (F2 _ _ _ _ _ HC).
        unfold vertsolve_omega_1. xsimp. rewrite Reqb_false by assumption.
        rewrite (cast_range _ _ _ _ _ _ _ _ HC). cbn [bind].
        destruct (Nat.ltb_spec 1 (K - k)); [|lia]. cbn [andb]. rewrite E1, E2, Heos, G0, G1 by assumption. cbn [bind]. xsimp.
        rewrite Hg by assumption. reflexivity.
      + exists (Fin (gS q), Fin (gT q), Fin q). split.
        2:{ right. exists gS, gT, (ps k), (ps (K - 1)%nat). split; [assumption|]. right. exists q. auto. }
        intros fuel [F1 F2]. specialize (F2 _ _ _ _ _ HC).
        unfold vertsolve_omega_1. xsimp. rewrite Reqb_false by assumption.
        rewrite (cast_range _ _ _ _ _ _ _ _ HC). cbn [bind].
        destruct (Nat.ltb_spec 1 (K - k)); [|lia]. cbn [andb]. rewrite E1, E2, Heos, G0, G1 by assumption. cbn [bind]. xsimp.
        rewrite Hg by assumption. cbn [bind]. xsimp. rewrite Hb by assumption. cbn [bind].
        rewrite (proj1 (Hv q Hq)). reflexivity.
  Qed.
End Solve.

(** ** Exact roots nearby *)
Lemma surface_exact D rel H tol c gS gT lo hi p :
  0 < tol -> continuous3 D H -> cast_in D c -> profile rel c gS gT lo hi -> lo <= p <= hi ->
  near_root (fun p => H (gS p) (gT p) p) lo hi p (brent_tol p tol) ->
  exists q, lo <= q <= hi /\ H (gS q) (gT q) q = 0 /\ Rabs (p - q) <= brent_tol p tol.
Proof.
  intros Ht Hc Hin Hpr Hp Hn.
  destruct (near_root_continuous (fun p => H (gS p) (gT p) p) lo hi p (brent_tol p tol) Hp) as (q & Q1 & Q2 & Q3).
  - left. apply brent_tol_pos. assumption.
  - intros x Hx. destruct (profile_in D rel c gS gT lo hi Hin Hpr x Hx) as (D1 & D2 & D3).
    apply (Hc gS gT (fun p => p)); [apply Hpr|apply Hpr| |assumption..].
    apply derivable_continuous_pt, derivable_pt_id.
  - assumption.
  - exists q. auto.
Qed.

Lemma surface_root D rel H tol c r : 0 < tol -> continuous3 D H -> cast_in D c -> surface_point rel H tol c r ->
  r = (NaN, NaN, NaN) \/ exists gS gT lo hi p q, profile rel c gS gT lo hi /\ r = (Fin (gS p), Fin (gT p), Fin p)
    /\ lo <= p <= hi /\ lo <= q <= hi /\ H (gS q) (gT q) q = 0 /\ Rabs (p - q) <= brent_tol p tol.
Proof.
  intros Ht Hc Hin [[_ ->]|(gS & gT & lo & hi & Hp & [[-> _]|(p & -> & Hp1 & Hn)])]; [left; reflexivity|left; reflexivity|right].
  destruct (surface_exact D rel H tol c gS gT lo hi p Ht Hc Hin Hp Hp1 Hn) as (q & Q1 & Q2 & Q3).
  exists gS, gT, lo, hi, p, q. auto 10.
Qed.

Lemma continuous_potential D rho ref iso : dP D ref -> continuous3 D rho -> continuous3 D (potential_of rho ref iso).
Proof.
  intros Href Hr a b c x Ha Hb Hc Da Db Dc. unfold potential_of.
  apply (continuity_pt_minus (fun x => rho (a x) (b x) ref) (fun _ => iso)).
  - apply (Hr a b (fun _ => ref)); auto. apply continuity_pt_const. intros ? ?; reflexivity.
  - apply continuity_pt_const. intros ? ?; reflexivity.
Qed.
Lemma continuous_anomaly D rho s0 t0 iso : dS D s0 -> dT D t0 -> continuous3 D rho -> continuous3 D (anomaly_of rho s0 t0 iso).
Proof.
  intros Hs0 Ht0 Hr a b c x Ha Hb Hc Da Db Dc. unfold anomaly_of.
  assert (Hk : forall k : R, forall x, continuity_pt (fun _ : R => k) x).
  { intros k y. apply continuity_pt_const. intros ? ?; reflexivity. }
  apply (continuity_pt_minus (fun x => rho (a x) (b x) (c x) - rho s0 t0 (c x)) (fun _ => iso)); [|apply Hk].
  apply (continuity_pt_minus (fun x => rho (a x) (b x) (c x)) (fun x => rho s0 t0 (c x))).
  - apply (Hr a b c); auto.
  - apply (Hr (fun _ => s0) (fun _ => t0) c); auto.
Qed.

(** on a column where h is monotonic the root is found whenever there is one *)
Lemma monotone_near_root h lo hi p q tol : 0 <= tol -> strictly_monotone h lo hi -> lo <= p <= hi -> lo <= q <= hi ->
  h q = 0 -> near_root h lo hi p tol -> Rabs (p - q) <= tol.
Proof.
  intros Ht Hm Hp Hq Eq Hn.
  destruct (Rtotal_order p q) as [H|[->|H]].
  - destruct Hn as [E|(c & Hc & Hd & Ho)].
    + destruct Hm as [Hm|Hm]; pose proof (Hm p q ltac:(lra) H ltac:(lra)); lra.
    + destruct (Rle_lt_dec q c) as [Hqc|Hqc]; [unfold Rabs in *; repeat destruct (Rcase_abs _); lra|]. exfalso.
      destruct Hm as [Hm|Hm]; pose proof (Hm p q ltac:(lra) H ltac:(lra)); pose proof (Hm c q ltac:(lra) Hqc ltac:(lra));
        destruct Ho as [[? ?]|[? ?]]; lra.
  - rewrite Rminus_diag_eq by reflexivity. rewrite Rabs_R0. assumption.
  - destruct Hn as [E|(c & Hc & Hd & Ho)].
    + destruct Hm as [Hm|Hm]; pose proof (Hm q p ltac:(lra) H ltac:(lra)); lra.
    + destruct (Rle_lt_dec c q) as [Hqc|Hqc]; [unfold Rabs in *; repeat destruct (Rcase_abs _); lra|]. exfalso.
      destruct Hm as [Hm|Hm]; pose proof (Hm q p ltac:(lra) H ltac:(lra)); pose proof (Hm q c ltac:(lra) Hqc ltac:(lra));
        destruct Ho as [[? ?]|[? ?]]; lra.
Qed.

Lemma surface_monotone rel H tol c r : 0 < tol -> surface_point rel H tol c r ->
  (short_cast (fst (fst c)) (snd c) /\ r = (NaN, NaN, NaN))
  \/ exists gS gT lo hi, profile rel c gS gT lo hi /\
       let h p := H (gS p) (gT p) p in
       strictly_monotone h lo hi -> forall q, lo <= q <= hi -> h q = 0 ->
       exists p, r = (Fin (gS p), Fin (gT p), Fin p) /\ lo <= p <= hi /\ Rabs (p - q) <= brent_tol p tol.
Proof.
  intros Ht [Hs|(gS & gT & lo & hi & Hp & Hr)]; [left; assumption|right]. exists gS, gT, lo, hi. split; [assumption|].
  intros h Hm q Hq Eq. fold h in Hr. cbv zeta in Hr. destruct Hr as [[_ Hpos]|(p & -> & Hp1 & Hn)].
  - exfalso. assert (Hpos' : 0 < h lo * h hi) by exact Hpos.
    destruct (Req_dec lo q) as [->|Hl]; [rewrite Eq in Hpos'; lra|].
    destruct (Req_dec q hi) as [<-|Hh]; [rewrite Eq in Hpos'; lra|].
    destruct Hm as [Hm|Hm]; pose proof (Hm lo q ltac:(lra) ltac:(lra) ltac:(lra)); pose proof (Hm q hi ltac:(lra) ltac:(lra) ltac:(lra)); nra.
  - exists p. split; [reflexivity|]. split; [assumption|].
    apply (monotone_near_root h lo hi); auto. left. apply brent_tol_pos. assumption.
Qed.

(** ** omega: all columns *)
Section Omega.
  Variable ppc_fn : list xr -> list xr -> res (list (list xr)).
  Variable rel : nat -> (nat -> R) -> (nat -> R) -> (R -> R) -> Prop.
  Hypothesis Hppc : interpolator ppc_fn rel.
  Variable tol : R.
  Hypothesis Htol : 0 < tol.
  Variables (eos : xr -> xr -> xr -> res xr) (rho : R -> R -> R -> R).
  Variable D : domain.
  Hypothesis Heos : eos_on D eos rho.

  Lemma omega_1_output c x ϕ : any_cast c -> cast_in D c -> omega_input D x ϕ ->
    exists y, (forall fuel, enough_fuel fuel tol c -> vertsolve_omega_1 eos ppc_fn fuel (Fin tol) x c ϕ = Ok y)
      /\ omega_output rel rho tol c x ϕ y.
  Proof.
    intros Hc Hin [->|[->|[(s & t & p & -> & Ds & Dt & Dp) (d & ->)]]].
    - exists x. split; [intros; apply omega_zero|]. split; [auto|]. split; [discriminate|]. intros s t p d _ [= <-] H. lra.
    - exists (NaN, NaN, NaN). split; [intros; apply omega_nan; assumption|]. split; [discriminate|]. split; [auto|]. discriminate.
    - destruct (Req_dec d 0) as [->|Hd].
      + exists (Fin s, Fin t, Fin p). split; [intros; apply omega_zero|]. split; [auto|]. split; [discriminate|].
        intros ? ? ? ? _ [= <-] H. lra.
      + destruct (omega_correct ppc_fn rel Hppc tol Htol D eos rho Heos c s t p d Hc Hin Ds Dt Dp Hd) as (r & E & Hr).
        exists r. split; [assumption|]. split; [intros [= E0]; lra|]. split; [discriminate|].
        intros s' t' p' d' [= <- <- <-] [= <-] _. exact Hr.
  Qed.

  Lemma vertsolve_omega_correct xs casts ϕ : length casts = length xs -> length ϕ = length xs ->
    Forall any_cast casts -> Forall (cast_in D) casts ->
    (forall n x f, nth_error xs n = Some x -> nth_error ϕ n = Some f -> omega_input D x f) ->
    exists ys, (forall fuel, Forall (enough_fuel fuel tol) casts ->
        vertsolve_omega eos ppc_fn fuel (Fin tol) xs casts ϕ = Ok ys)
      /\ length ys = length xs
      /\ forall n x c f y, nth_error xs n = Some x -> nth_error casts n = Some c -> nth_error ϕ n = Some f ->
           nth_error ys n = Some y -> omega_output rel rho tol c x f y.
  Proof.
    intros Hl1 Hl2 Hc Hci Hin.
    assert (H : forall k n, (n + k = length xs)%nat ->
      exists ys, (forall fuel, Forall (enough_fuel fuel tol) casts ->
        mapM (fun n => let! x := get xs n in let! f := get ϕ n in let! c := get casts n in
              vertsolve_omega_1 eos ppc_fn fuel (Fin tol) x c f) (seq n k) = Ok ys)
      /\ length ys = k
      /\ forall i x c f y, nth_error xs (n + i) = Some x -> nth_error casts (n + i) = Some c -> nth_error ϕ (n + i) = Some f ->
           nth_error ys i = Some y -> omega_output rel rho tol c x f y).
    { induction k as [|k IH]; intros n Hn.
      - exists []. split; [reflexivity|]. split; [reflexivity|]. intros [|i] ? ? ? ? _ _ _; discriminate.
      - destruct (IH (S n) ltac:(lia)) as (ys & E & L & Hy).
        destruct (nth_error xs n) as [x|] eqn:Ex; [|apply nth_error_None in Ex; lia].
        destruct (nth_error casts n) as [c|] eqn:Ec; [|apply nth_error_None in Ec; lia].
        destruct (nth_error ϕ n) as [f|] eqn:Ef; [|apply nth_error_None in Ef; lia].
        assert (Hcc : any_cast c) by (rewrite Forall_forall in Hc; apply Hc; eapply nth_error_In; eassumption).
        assert (Hcd : cast_in D c) by (rewrite Forall_forall in Hci; apply Hci; eapply nth_error_In; eassumption).
        destruct (omega_1_output c x f Hcc Hcd (Hin n x f Ex Ef)) as (y & Ey & Ho).
        exists (y :: ys). split; [|split; [cbn; congruence|]].
        + intros fuel Hf. cbn [seq mapM]. rewrite (get_ok _ _ _ Ex), (get_ok _ _ _ Ef), (get_ok _ _ _ Ec). cbn [bind].
          rewrite Ey by (rewrite Forall_forall in Hf; apply Hf; eapply nth_error_In; eassumption). cbn [bind].
          rewrite E by assumption. reflexivity.
        + intros [|i] x' c' f' y'.
          * rewrite Nat.add_0_r, Ex, Ec, Ef. cbn. intros [= <-] [= <-] [= <-] [= <-]. assumption.
          * replace (n + S i)%nat with (S n + i)%nat by lia. cbn [nth_error]. apply Hy. }
    destruct (H (length xs) 0%nat ltac:(lia)) as (ys & E & L & Hy). exists ys. split; [exact E|]. split; [exact L|]. exact Hy.
  Qed.

  (** a missing surface pressure with a finite perturbation: no result *)
  Lemma omega_nan_pressure c k K ss ts ps s t d :
    (forall s t, eos s t NaN = Ok NaN) -> cast (fst (fst c)) (snd (fst c)) (snd c) k K ss ts ps -> (k + 1 < K)%nat -> d <> 0 ->
    forall fuel, vertsolve_omega_1 eos ppc_fn fuel (Fin tol) (s, t, NaN) c (Fin d) = Err OutOfFuel.
  Proof.
    intros He HC H2 Hd fuel. destruct c as [[Sc Tc] Pc]. cbn [fst snd] in HC.
    destruct (cast_interpolants ppc_fn rel Hppc Sc Tc Pc k K ss ts ps HC H2)
      as (Sppc & Tppc & gS & gT & E1 & E2 & R1 & R2 & C1 & C2 & W1 & W2 & Hv & G0 & G1).
    pose proof (ps_le Sc Tc Pc k K ss ts ps HC H2) as Hle.
    unfold vertsolve_omega_1. xsimp. rewrite Reqb_false by assumption. rewrite (cast_range _ _ _ _ _ _ _ _ HC). cbn [bind].
    destruct (Nat.ltb_spec 1 (K - k)); [|lia]. cbn [andb]. rewrite E1, E2, He, G0, G1. cbn [bind]. xsimp.
    rewrite guess_to_bounds_all_nan; [reflexivity| | |].
    - unfold zero_potential. rewrite (proj1 (Hv (ps k) ltac:(lra))). cbn [bind]. rewrite He. reflexivity.
    - unfold zero_potential. rewrite (proj1 (Hv (ps (K - 1)%nat) ltac:(lra))). cbn [bind]. rewrite He. reflexivity.
    - unfold zero_potential, ppval_1_nonan_two, locate_nonan. cbn [isnan xrNum xr_isnan bind]. rewrite He. reflexivity.
  Qed.
End Omega.
