(** * Surfaces found column by column in binary64: proofs *)
From Coq Require Import ZArith Bool Reals Lra Lia List SpecFloat.
From Flocq Require Import Core.Raux.
From Verif Require Import Num XR SF Res Arr ArrLemmas XRlemmas M_fzero S_fzero S_fzero64 M_ppinterp S_float S_interp S_domain S_traj
  M_vertsolve S_vertsolve S_vert64 P_float P_fl P_fzero64 P_holds P_ppinterp P_traj P_vertsolve P_linear64.
Import ListNotations.
Local Open Scope R_scope.

(** ** The two root finders in sequence *)
Lemma found_mono (f : f64 -> res f64) (A B a b t x : f64) : fval A <= fval a -> fval b <= fval B -> found f a b t x -> found f A B t x.
Proof.
  intros HA HB ([Fx Ix] & fx & Ex & Ffx & H). split; [split; [exact Fx|lra]|]. exists fx. split; [exact Ex|]. split; [exact Ffx|].
  destruct H as [H|(y & fy & [Fy Iy] & Ey & Ffy & Op & Ab & Di)]; [left; exact H|right].
  exists y, fy. split; [split; [exact Fy|lra]|]. split; [exact Ey|]. split; [exact Ffy|]. split; [exact Op|]. split; [exact Ab|exact Di].
Qed.

Lemma search64 (f : f64 -> res f64) (x A B t : f64) : finite64 x -> finite64 A -> finite64 B -> finite64 t ->
  ordinary (fval A) -> ordinary (fval B) -> tolerance_ok (fval t) -> fval A <= fval B ->
  apart (fval A) (Rmin (Rmax (fval x) (fval A)) (fval B)) -> apart (Rmin (Rmax (fval x) (fval A)) (fval B)) (fval B) ->
  defined_on f A B ->
  ((forall fuel, (13 <= fuel)%nat -> guess_to_bounds f fuel x A B = Ok (nan, nan)) /\ no_change f A B)
  \/ exists a b p,
       (forall fuel, (13 <= fuel)%nat -> guess_to_bounds f fuel x A B = Ok (a, b)) /\ finite64 a
       /\ (forall fuel, 5 * (fval B - fval A) / fval t + 1 <= INR fuel -> brent f fuel a b t = Ok p)
       /\ found f A B t p.
Proof.
  intros Fx FA FB Ft LA LB Lt AB XA XB Hf.
  destruct (gtb64 f x A B Fx FA FB LA LB AB XA XB Hf) as (r & Hr & Hc).
  assert (Tp : 0 < fval t) by (destruct Lt as [L _]; pose proof (powerRZ_lt 2 (-900) ltac:(lra)); lra).
  assert (K : forall (a b fa fb : f64), r = (a, b) -> between64 A B a -> between64 A B b -> fval a <= fval b ->
     f a = Ok fa -> f b = Ok fb -> fval fa * fval fb <= 0 ->
     exists a b p, (forall fuel, (13 <= fuel)%nat -> guess_to_bounds f fuel x A B = Ok (a, b)) /\ finite64 a
       /\ (forall fuel, 5 * (fval B - fval A) / fval t + 1 <= INR fuel -> brent f fuel a b t = Ok p)
       /\ found f A B t p).
  { intros a b fa fb Er [Fa Ia] [Fb Ib] Hab Ea Eb Hs.
    assert (OR : forall z, fval A <= z <= fval B -> ordinary z).
    { intros z Hz. unfold ordinary in *. apply Rabs_le_inv in LA. apply Rabs_le_inv in LB. apply Rabs_le. lra. }
    assert (Hf' : defined_on f a b).
    { intros z [Fz Iz]. apply Hf. split; [exact Fz|lra]. }
    destruct (brent64 f a b t fa fb Fa Fb Ft (OR _ Ia) (OR _ Ib) Lt Hab Hf' Ea Eb Hs) as (p & Hp & Hfd).
    exists a, b, p. split; [intros fuel Hfu; rewrite Hr by exact Hfu; rewrite Er; reflexivity|]. split; [exact Fa|].
    split; [|apply (found_mono f A B a b t p); [lra|lra|exact Hfd]].
    intros fuel Hfu. apply Hp. eapply Rle_trans; [|exact Hfu]. apply Rplus_le_compat_r.
    unfold Rdiv. apply Rmult_le_compat_r; [left; apply Rinv_0_lt_compat; exact Tp|lra]. }
  destruct Hc as [(Er & v & Ev & V0)|[(Er & v & Ev & V0)|[(a & b & fa & fb & Er & Ha & Hb & Hab & Ea & Eb & Op)|(Er & Hn)]]].
  - right. apply (K A A v v); [exact Er|split; [exact FA|lra]|split; [exact FA|lra]|lra|exact Ev|exact Ev|rewrite V0; lra].
  - right. apply (K B B v v); [exact Er|split; [exact FB|lra]|split; [exact FB|lra]|lra|exact Ev|exact Ev|rewrite V0; lra].
  - right. apply (K a b fa fb); [exact Er|exact Ha|exact Hb|lra|exact Ea|exact Eb|].
    destruct Op as [[O1 O2]|[O1 O2]]; nra.
  - left. split; [|exact Hn]. intros fuel Hfu. rewrite Hr by exact Hfu. rewrite Er. reflexivity.
Qed.

Lemma no_change_real (f : f64 -> res f64) (g : R -> R) delta (A B : f64) :
  (forall z y, between64 A B z -> f z = Ok y -> Rabs (fval y - g (fval z)) <= delta) -> fval A <= fval B -> no_change f A B ->
  no_change_up_to delta g (fval A) (fval B).
Proof.
  intros Hg AB (a & b & fa & fb & Fa & Fb & Va & Vb & Ea & Eb & No).
  assert (Ia : between64 A B a) by (split; [exact Fa|rewrite Va; split; [apply Rle_refl|exact AB]]).
  assert (Ib : between64 A B b) by (split; [exact Fb|rewrite Vb; split; [exact AB|apply Rle_refl]]).
  assert (G1 := Hg a fa Ia Ea). assert (G2 := Hg b fb Ib Eb).
  rewrite Va in G1. rewrite Vb in G2. apply abs_le_of in G1. apply abs_le_of in G2.
  split; intros [H1 H2]; apply No; [right|left]; lra.
Qed.


Lemma ordinary_small z : Rabs z <= 1000000 -> ordinary z.
Proof.
  intros H. unfold ordinary. eapply Rle_trans; [exact H|]. apply Rle_trans with (powerRZ 2 20); [simpl; lra|]. apply pow2_le. lia.
Qed.
Lemma apart_far a b : powerRZ 2 (-34) <= b - a -> apart a b.
Proof. intros H. right. eapply Rle_trans; [|exact H]. apply pow2_le. lia. Qed.

(** the middle of the column, as computed *)
Lemma guess_ok (A B : f64) : finite64 A -> finite64 B -> 0 <= fval A -> fval B <= 10000 -> powerRZ 2 (-30) <= fval B - fval A ->
  let x := mul (add A B) (lit 5 (-1)) : f64 in
  finite64 x /\ fval A + powerRZ 2 (-34) <= fval x <= fval B - powerRZ 2 (-34).
Proof.
  intros FA FB A0 B1 Hd x. destruct fl_half as [Fh Vh].
  assert (Bg : forall z, Rabs z <= 1000000 -> Rabs z <= big64).
  { intros z Hz. apply big_ge. eapply Rle_trans; [exact Hz|]. apply Rle_trans with (powerRZ 2 20); [simpl; lra|]. apply pow2_le. lia. }
  pose proof (pow2_pos (-30)) as P30.
  assert (Ee : eta64 <= powerRZ 2 (-39)) by (unfold eta64; apply pow2_le; lia).
  assert (U : u64 = / 9007199254740992) by reflexivity.
  assert (E34 : powerRZ 2 (-34) = / 17179869184) by (simpl; lra).
  assert (E30 : powerRZ 2 (-30) = / 1073741824) by (simpl; lra).
  assert (E39 : powerRZ 2 (-39) = / 549755813888) by (simpl; lra).
  assert (Q1 : Rabs (fval A + fval B) <= 1000000) by (rewrite Rabs_pos_eq; lra).
  destruct (sf_add_near A B FA FB (Bg _ Q1)) as [Fs Es]. rewrite (Rabs_pos_eq (fval A + fval B)) in Es by lra.
  change (sf_add A B) with (add A B) in *. apply abs_le_of in Es.
  assert (W1 : u64 * (fval A + fval B) <= u64 * 20000) by (apply Rmult_le_compat_l; [rewrite U; lra|lra]).
  assert (Q2 : Rabs (fval (add A B) * fval (lit 5 (-1) : f64)) <= 1000000).
  { rewrite Vh. rewrite U in *. apply Rabs_le. lra. }
  destruct (sf_mul_near (add A B) (lit 5 (-1) : f64) Fs Fh (Bg _ Q2)) as [Fm Em]. rewrite Vh in Em.
  change (sf_mul (add A B) (lit 5 (-1))) with (mul (add A B) (lit 5 (-1))) in *. fold x in Fm, Em.
  split; [exact Fm|]. apply abs_le_of in Em.
  assert (W2 : u64 * Rabs (fval (add A B) * / 2) <= u64 * 20000).
  { apply Rmult_le_compat_l; [rewrite U; lra|]. apply Rabs_le. rewrite U in *. lra. }
  rewrite U in *. lra.
Qed.

Section Column.
  Variable ppc_fn : list f64 -> list f64 -> res (list (list f64)).
  Variable rel : nat -> (nat -> R) -> (nat -> R) -> (R -> R) -> Prop.
  Variables (s0 pm e : R).
  Hypothesis Hpm : pm <= 10000.
  Hypothesis Hs0 : 0 <= s0.
  Hypothesis Hppc : interpolator64 ppc_fn rel (powerRZ 2 (-30)) 10000 42 e.

  Section Cast.
  Variables (S T P : list f64) (S' T' P' : list xr) (k K : nat) (ss ts ps : nat -> R).
  Hypothesis (HS : holds_all S S') (HT : holds_all T T') (HP : holds_all P P').
  Hypothesis HC : cast S' T' P' k K ss ts ps.
  Hypothesis H2 : (k + 1 < K)%nat.
  Hypothesis Hin : cast_in (sea s0 pm) (S', T', P').
  Hypothesis Hsp : column_spaced (S', T', P').

  Lemma cast_range64 : valid_range_1_two S P = Ok (k, K).
  Proof. rewrite (holds_valid_range_two S S' P P' HS HP). exact (cast_range _ _ _ _ _ _ _ _ HC). Qed.

  Lemma cast_apart : powerRZ 2 (-30) <= ps (K - 1)%nat - ps k.
  Proof.
    assert (B := cast_blk _ _ _ _ _ _ _ _ HC). pose proof (Hsp _ _ _ _ _ HC k ltac:(lia) ltac:(lia)) as D.
    pose proof (blk_mono_le _ _ _ _ _ _ B (k + 1) (K - 1) ltac:(lia) ltac:(lia) ltac:(lia)) as M. replace (k + 1)%nat with (Datatypes.S k) in M by lia. lra.
  Qed.

  Lemma cast_interpolants64 : exists Sppc Tppc gS gT (A B : f64),
    ppc_fn (slice P k K) (slice S k K) = Ok Sppc /\ ppc_fn (slice P k K) (slice T k K) = Ok Tppc
    /\ profile rel (S', T', P') gS gT (fval A) (fval B)
    /\ get (slice P k K) 0 = Ok A /\ get (slice P k K) (length (slice P k K) - 1) = Ok B
    /\ finite64 A /\ finite64 B /\ fval A = ps k /\ fval B = ps (K - 1)%nat
    /\ forall x : f64, finite64 x -> fval A <= fval x <= fval B -> exists s t : f64,
         ppval_1_nonan_two x (slice P k K) Sppc Tppc 0 = Ok (s, t)
         /\ S_float.within s (gS (fval x)) e /\ S_float.within t (gT (fval x)) e.
  Proof.
    assert (HB := cast_blk _ _ _ _ _ _ _ _ HC). assert (HlT := cast_lenT _ _ _ _ _ _ _ _ HC). assert (HcT := cast_T _ _ _ _ _ _ _ _ HC).
    pose proof (blk_len _ _ _ _ _ _ HB) as Hl. pose proof (blk_K _ _ _ _ _ _ HB) as HK.
    assert (B1 : block (slice P' k K) (slice S' k K) 0 (length (slice P' k K)) (from k ps) (from k ss)).
    { apply (block_slice P' S' S' k K ps ss ss HB); [lia|]. apply (blk_Y _ _ _ _ _ _ HB). }
    assert (B2 : block (slice P' k K) (slice T' k K) 0 (length (slice P' k K)) (from k ps) (from k ts)).
    { apply (block_slice P' S' T' k K ps ss ts HB); [lia|]. apply HcT. }
    assert (Hls : length (slice P' k K) = (K - k)%nat) by (apply length_slice; lia).
    assert (HPs := holds_slice P P' k K HP). assert (HSs := holds_slice S S' k K HS). assert (HTs := holds_slice T T' k K HT).
    assert (Hlp := holds_length _ _ HPs). specialize (Hin _ _ _ _ _ HC). specialize (Hsp _ _ _ _ _ HC).
    cbn [sea box dS dT dP] in Hin. unfold upto in Hin.
    assert (Sp : spaced (length (slice P' k K)) (from k ps) (powerRZ 2 (-30)) 10000).
    { intros i Hi. unfold from. replace (k + Datatypes.S i)%nat with (Datatypes.S (k + i)) by lia.
      split; [apply Hsp; lia|]. pose proof (Hin (k + i)%nat ltac:(lia)). pose proof (Hin (Datatypes.S (k + i)) ltac:(lia)). lra. }
    assert (Gt : (1 < length (slice P' k K))%nat) by lia.
    destruct (Hppc _ _ _ _ _ _ HPs HSs B1 Gt Sp) as (Sppc & gS & S1 & S3 & S4 & S6 & S5).
    { intros i Hi. pose proof (Hin (k + i)%nat ltac:(lia)). unfold from. apply Rabs_le. lra. }
    destruct (Hppc _ _ _ _ _ _ HPs HTs B2 Gt Sp) as (Tppc & gT & T1 & T3 & T4 & T6 & T5).
    { intros i Hi. pose proof (Hin (k + i)%nat ltac:(lia)). unfold from. apply Rabs_le. lra. }
    rewrite Hls in S3, T3, S6, T6.
    assert (E0 : from k ps 0 = ps k) by (unfold from; f_equal; lia).
    assert (E1 : from k ps (length (slice P' k K) - 1) = ps (K - 1)%nat) by (unfold from; f_equal; lia).
    assert (GA : exists A : f64, get (slice P k K) 0 = Ok A /\ finite64 A /\ fval A = ps k).
    { pose proof (blk_getX _ _ _ _ _ _ B1 0%nat ltac:(lia)) as G. rewrite E0 in G. pose proof (get_res _ _ 0 HPs) as R.
      rewrite G in R. destruct (get (slice P k K) 0) as [A|]; cbn [rres holds] in R; no_false R. exists A. split; [reflexivity|exact R]. }
    assert (GB : exists B : f64, get (slice P k K) (length (slice P k K) - 1) = Ok B /\ finite64 B /\ fval B = ps (K - 1)%nat).
    { pose proof (blk_getX _ _ _ _ _ _ B1 (length (slice P' k K) - 1)%nat ltac:(lia)) as G. rewrite E1 in G.
      pose proof (get_res _ _ (length (slice P' k K) - 1) HPs) as R. rewrite G in R. rewrite Hlp.
      destruct (get (slice P k K) (length (slice P' k K) - 1)) as [B|]; cbn [rres holds] in R; no_false R. exists B. split; [reflexivity|exact R]. }
    destruct GA as (A & GA & FA & VA). destruct GB as (B & GB & FB & VB).
    exists Sppc, Tppc, gS, gT, A, B. split; [exact S1|]. split; [exact T1|]. split.
    { split; [|exact S4|exact T4]. exists k, K, ss, ts, ps. cbn [fst snd]. rewrite VA, VB. auto 10. }
    split; [exact GA|]. split; [exact GB|]. split; [exact FA|]. split; [exact FB|]. split; [exact VA|]. split; [exact VB|].
    intros x Fx Ix. rewrite VA, VB, <- E0, <- E1 in Ix.
    destruct (S5 x Fx Ix) as (s & Es & Ws). destruct (T5 x Fx Ix) as (t & Et & Wt). exists s, t. split; [|split; [exact Ws|exact Wt]].
    unfold ppval_1_nonan in Es, Et. unfold ppval_1_nonan_two.
    destruct (locate_nonan x (slice P k K)) as [[i|]|]; [|discriminate Es + (cbn [bind] in Es; injection Es as <-; destruct Ws as [[] _])|discriminate Es].
    cbn [bind] in *. destruct (get (slice P k K) i); [|discriminate Es]. cbn [bind] in *.
    destruct (get Sppc i); [|discriminate Es]. destruct (get Tppc i); [|discriminate Et]. cbn [bind] in *.
    injection Es as <-. injection Et as <-. reflexivity.
  Qed.
  End Cast.

  (** a function that evaluates the interpolants and then H, up to d *)
  Definition evaluates64 (zf : list f64 -> list (list f64) -> list (list f64) -> f64 -> res f64) (H : R -> R -> R -> R) (d : R) : Prop :=
    forall P Sppc Tppc (p s t : f64) vs vt, ppval_1_nonan_two p P Sppc Tppc 0 = Ok (s, t) ->
      dS (sea s0 pm) vs -> dT (sea s0 pm) vt -> finite64 p -> dP (sea s0 pm) (fval p) ->
      S_float.within s vs e -> S_float.within t vt e ->
      exists y : f64, zf P Sppc Tppc p = Ok y /\ S_float.within y (H vs vt (fval p)) d.

  Lemma short_range64 S T P S' T' P' : holds_column (S, T, P) (S', T', P') -> short_cast S' P' ->
    exists k K, valid_range_1_two S P = Ok (k, K) /\ Nat.ltb 1 (K - k) = false.
  Proof.
    intros (HS & _ & HP) Hsh. destruct (short_cast_range S' P' Hsh) as (k & K & E & HK & _).
    exists k, K. rewrite (holds_valid_range_two S S' P P' HS HP). split; [exact E|]. apply Nat.ltb_ge. lia.
  Qed.

  (** the search on a column for a zero of H, from the guess x *)
  Lemma column_search64 zf H d (t x : f64) S T P S' T' P' k K ss ts ps : 0 <= d -> evaluates64 zf H d -> continuous3 (sea s0 pm) H ->
    finite64 t -> tolerance_ok (fval t) ->
    holds_column (S, T, P) (S', T', P') -> cast S' T' P' k K ss ts ps -> (k + 1 < K)%nat ->
    cast_in (sea s0 pm) (S', T', P') -> column_spaced (S', T', P') ->
    finite64 x -> apart (ps k) (Rmin (Rmax (fval x) (ps k)) (ps (K - 1)%nat)) ->
    apart (Rmin (Rmax (fval x) (ps k)) (ps (K - 1)%nat)) (ps (K - 1)%nat) ->
    exists Sppc Tppc (A B : f64), 
      ppc_fn (slice P k K) (slice S k K) = Ok Sppc /\ ppc_fn (slice P k K) (slice T k K) = Ok Tppc
      /\ get (slice P k K) 0 = Ok A /\ get (slice P k K) (length (slice P k K) - 1) = Ok B
      /\ finite64 A /\ finite64 B /\ fval A = ps k /\ fval B = ps (K - 1)%nat
      /\ (((forall fuel, (13 <= fuel)%nat -> guess_to_bounds (zf (slice P k K) Sppc Tppc) fuel x A B = Ok (nan, nan))
          /\ surface_point64 rel H (fval t) e d (S', T', P') (nan, nan, nan))
        \/ exists (a b p s' t' : f64),
          (forall fuel, (13 <= fuel)%nat -> guess_to_bounds (zf (slice P k K) Sppc Tppc) fuel x A B = Ok (a, b)) /\ finite64 a
          /\ (forall fuel, 5 * (ps (K - 1)%nat - ps k) / fval t + 1 <= INR fuel -> brent (zf (slice P k K) Sppc Tppc) fuel a b t = Ok p)
          /\ ppval_1_nonan_two p (slice P k K) Sppc Tppc 0 = Ok (s', t') /\ finite64 p
          /\ surface_point64 rel H (fval t) e d (S', T', P') (s', t', p)).
  Proof.
    intros Hd0 Hz HcH Ft Lt (HS & HT & HP) HC H2 Hin Hsp Fx XA XB.
    destruct (cast_interpolants64 S T P S' T' P' k K ss ts ps HS HT HP HC H2 Hin Hsp)
      as (Sppc & Tppc & gS & gT & A & B & E1 & E2 & Hpr & G0 & G1 & FA & FB & VA & VB & Hv).
    exists Sppc, Tppc, A, B. repeat (split; [assumption|]).
    pose proof (cast_apart S' T' P' k K ss ts ps HC H2 Hsp) as Hap. pose proof (pow2_pos (-30)) as P30.
    assert (AB : fval A <= fval B) by (rewrite VA, VB; lra).
    assert (IN := profile_in (sea s0 pm) rel (S', T', P') gS gT (fval A) (fval B) Hin Hpr).
    set (h := fun p => H (gS p) (gT p) p). set (f := zf (slice P k K) Sppc Tppc).
    assert (Ev : forall z : f64, between64 A B z -> exists y : f64, f z = Ok y /\ S_float.within y (h (fval z)) d).
    { intros z [Fz Iz]. destruct (Hv z Fz Iz) as (s & u & Ez & Ws & Wt). destruct (IN _ Iz) as (D1 & D2 & D3).
      exact (Hz _ _ _ z s u _ _ Ez D1 D2 Fz D3 Ws Wt). }
    assert (Hdef : defined_on f A B).
    { intros z Iz. destruct (Ev z Iz) as (y & Ey & [Fy _]). exists y. split; [exact Ey|exact Fy]. }
    assert (Herr : forall z y, between64 A B z -> f z = Ok y -> Rabs (fval y - h (fval z)) <= d).
    { intros z y Iz Ey. destruct (Ev z Iz) as (y' & Ey' & [_ Hy]). rewrite Ey in Ey'. injection Ey' as ->. exact Hy. }
    assert (OR : forall z, fval A <= z <= fval B -> ordinary z).
    { intros z Iz. apply ordinary_small. destruct (IN _ Iz) as (_ & _ & D3). cbn [sea box dP] in D3. unfold upto in D3. apply Rabs_le. lra. }
    rewrite <- VA, <- VB in XA, XB.
    destruct (search64 f x A B t Fx FA FB Ft (OR _ (conj (Rle_refl _) AB)) (OR _ (conj AB (Rle_refl _))) Lt AB XA XB Hdef) as [[Hg Hn]|(a & b & p & Hg & Fa & Hb & Hfd)].
    - left. split; [exact Hg|]. right. exists gS, gT, (fval A), (fval B). split; [exact Hpr|]. left. split; [reflexivity|].
      exact (no_change_real f h d A B Herr AB Hn).
    - right. destruct Hfd as [[Fp Ip] Hrest] eqn:Hfd'. destruct (Hv p Fp Ip) as (s' & t' & Ep & Ws & Wt).
      exists a, b, p, s', t'. split; [exact Hg|]. split; [exact Fa|]. split; [rewrite <- VA, <- VB; exact Hb|]. split; [exact Ep|]. split; [exact Fp|].
      assert (Tp : 0 < fval t) by (destruct Lt as [L _]; pose proof (pow2_pos (-900)); lra).
      assert (Hcont : continuous_on h (fval A) (fval B)).
      { intros y Iy. destruct (IN _ Iy) as (D1 & D2 & D3). apply (HcH gS gT (fun p => p)); [apply Hpr|apply Hpr| |assumption..].
        apply derivable_continuous_pt, derivable_pt_id. }
      destruct (found_root f h d A B t p Tp Hd0 Hcont Herr Hfd) as (r & Ir & Hr & Dr).
      right. exists gS, gT, (fval A), (fval B). split; [exact Hpr|]. right. exists s', t', p, r.
      split; [reflexivity|]. split; [exact Fp|]. split; [exact Ip|]. split; [exact Ws|]. split; [exact Wt|]. split; [exact Ir|]. split; [exact Hr|exact Dr].
  Qed.

  Variable tol : f64.
  Hypothesis Ftol : finite64 tol.
  Hypothesis Htol : tolerance_ok (fval tol).

  (** the middle of the column is a guess the search accepts *)
  Lemma mid_apart A B (x : f64) : A + powerRZ 2 (-34) <= fval x <= B - powerRZ 2 (-34) ->
    apart A (Rmin (Rmax (fval x) A) B) /\ apart (Rmin (Rmax (fval x) A) B) B.
  Proof.
    intros H. pose proof (pow2_pos (-34)). rewrite Rmax_left by lra. rewrite Rmin_left by lra. split; apply apart_far; lra.
  Qed.

  Lemma vertsolve_1_64 zf H d c c' : 0 <= d -> evaluates64 zf H d -> continuous3 (sea s0 pm) H ->
    holds_column c c' -> any_cast c' -> cast_in (sea s0 pm) c' -> column_spaced c' ->
    exists r, (forall fuel, enough_fuel64 fuel (fval tol) c' -> vertsolve_1 ppc_fn fuel zf tol c = Ok r)
      /\ surface_point64 rel H (fval tol) e d c' r.
  Proof.
    intros Hd0 Hz HcH Hh Ha Hin Hsp. destruct c as [[Sc Tc] Pc], c' as [[S' T'] P']. destruct Ha as [Hs|(k & K & ss & ts & ps & HC & H2)].
    - exists (nan, nan, nan). split; [|left; auto]. intros fuel _.
      destruct (short_range64 _ _ _ _ _ _ Hh Hs) as (k & K & E & HK). unfold vertsolve_1. rewrite E. cbn [bind]. rewrite HK. reflexivity.
    - pose proof (cast_apart S' T' P' k K ss ts ps HC H2 Hsp) as Hap.
      assert (Hlt : Nat.ltb 1 (K - k) = true) by (apply Nat.ltb_lt; lia).
      destruct (cast_interpolants64 Sc Tc Pc S' T' P' k K ss ts ps (proj1 Hh) (proj1 (proj2 Hh)) (proj2 (proj2 Hh)) HC H2 Hin Hsp)
        as (_ & _ & _ & _ & A & B & _ & _ & _ & G0 & G1 & FA & FB & VA & VB & _).
      assert (Dp := Hin _ _ _ _ _ HC). cbn [sea box dS dT dP] in Dp. unfold upto in Dp.
      pose proof (Dp k ltac:(lia)) as Dk. pose proof (Dp (K - 1)%nat ltac:(lia)) as DK.
      destruct (guess_ok A B FA FB ltac:(lra) ltac:(lra) ltac:(lra)) as [Fx Ix]. cbv zeta in Fx, Ix.
      set (x := mul (add A B) (lit 5 (-1)) : f64) in *.
      rewrite VA, VB in Ix. destruct (mid_apart _ _ x Ix) as [XA XB].
      destruct (column_search64 zf H d tol x Sc Tc Pc S' T' P' k K ss ts ps Hd0 Hz HcH Ftol Htol Hh HC H2 Hin Hsp Fx XA XB)
        as (Sppc & Tppc & A' & B' & E1 & E2 & G0' & G1' & _ & _ & _ & _ & Hc).
      rewrite G0 in G0'. injection G0' as <-. rewrite G1 in G1'. injection G1' as <-.
      assert (HR := cast_range64 Sc Pc S' T' P' k K ss ts ps (proj1 Hh) (proj2 (proj2 Hh)) HC).
      destruct Hc as [[Hg Hp]|(a & b & p & s' & t' & Hg & Fa & Hb & Ep & Fp & Hp)].
      + exists (nan, nan, nan). split; [|exact Hp]. intros fuel [F1 F2].
        unfold vertsolve_1. rewrite HR. cbn [bind]. rewrite Hlt, E1, E2, G0, G1. cbn [bind]. fold x. rewrite Hg by exact F1. reflexivity.
      + exists (s', t', p). split; [|exact Hp]. intros fuel [F1 F2]. specialize (F2 _ _ _ _ _ HC).
        unfold vertsolve_1. rewrite HR. cbn [bind]. rewrite Hlt, E1, E2, G0, G1. cbn [bind]. fold x. rewrite Hg by exact F1. cbn [bind].
        change (isfinite a) with (sf_isfinite a). rewrite (finite_isfinite a Fa). rewrite Hb by exact F2. cbn [bind]. rewrite Ep. reflexivity.
  Qed.

  Lemma vertsolve_64 zf H d casts casts' : 0 <= d -> evaluates64 zf H d -> continuous3 (sea s0 pm) H ->
    Forall2 holds_column casts casts' -> Forall any_cast casts' -> Forall (cast_in (sea s0 pm)) casts' -> Forall column_spaced casts' ->
    exists x, (forall fuel, Forall (enough_fuel64 fuel (fval tol)) casts' -> vertsolve ppc_fn fuel zf tol casts = Ok x)
      /\ Forall2 (surface_point64 rel H (fval tol) e d) casts' x.
  Proof.
    intros Hd0 Hz HcH Hh. induction Hh as [|c c' casts casts' Hc Hh IH]; intros Ha Hi Hs.
    - exists []. split; [reflexivity|constructor].
    - inversion Ha as [|? ? Ha1 Ha2]; subst. inversion Hi as [|? ? Hi1 Hi2]; subst. inversion Hs as [|? ? Hs1 Hs2]; subst.
      destruct (IH Ha2 Hi2 Hs2) as (x & E & Hx).
      destruct (vertsolve_1_64 zf H d c c' Hd0 Hz HcH Hc Ha1 Hi1 Hs1) as (r & Er & Hr). exists (r :: x). split; [|constructor; assumption].
      intros fuel Hf. inversion Hf as [|? ? F1 F2]; subst. unfold vertsolve. cbn [mapM]. rewrite Er by exact F1. cbn [bind].
      unfold vertsolve in E. rewrite E by exact F2. reflexivity.
  Qed.
End Column.
