(** * Periodic dimensions, interpolants at hand, and the TEOS-10 library *)
From Coq Require Import String ZArith Bool List Reals Lra Lia.
From Coquelicot Require Import Coquelicot.
From Verif Require Import Num Res Arr Nd M_ppinterp M_eos_base M_gsw M_wrap S_eos S_wrap P_gsw P_gsw2 P_gsw3 P_eosx P_eosocean P_eosocean2.
Import ListNotations.
Local Open Scope R_scope.

(** ** _process_wrap *)
Definition names (l : list string) : list witem := map WName l.

Lemma names_all l : forallb is_name (names l) = true.
Proof. induction l; [reflexivity|exact IHl]. Qed.
Lemma named_in_iff x l : named_in x (names l) = true <-> In x l.
Proof.
  unfold named_in, names. rewrite existsb_exists. split.
  - intros (w & Hw & E). apply in_map_iff in Hw as (s & <- & Hs). apply String.eqb_eq in E. now subst.
  - intros H. exists (WName x). split; [now apply in_map|apply String.eqb_refl].
Qed.

Lemma wrap_names w l d0 d1 diags : given_names w l ->
  exists flags, process_wrap w (Some [d0; d1]) diags = Ok (WSeq true (map WFlag flags)) /\ flags_of l [d0; d1] flags.
Proof.
  intros H. exists [named_in d0 (names l); named_in d1 (names l)]. split.
  - destruct H as [(s & -> & ->) | (tuple & ->)]; unfold process_wrap; [reflexivity|]. fold (names l). rewrite names_all. reflexivity.
  - repeat constructor; apply named_in_iff.
Qed.
Lemma wrap_flags tuple b0 b1 dims diags :
  process_wrap (WSeq tuple [WFlag b0; WFlag b1]) dims diags = Ok (WSeq tuple [WFlag b0; WFlag b1]).
Proof. reflexivity. Qed.
Lemma wrap_missing dims diags : process_wrap WNone dims diags = if diags then Err ValueError else Ok WNone.
Proof. reflexivity. Qed.

(** whatever is returned is None, or has two elements *)
Lemma wrap_result w dims diags r : process_wrap w dims diags = Ok r ->
  (w = WNone /\ r = WNone /\ diags = false) \/ exists tuple a b, r = WSeq tuple [a; b].
Proof.
  destruct w as [|s|tuple l|]; cbn [process_wrap]; try discriminate.
  - destruct diags; [discriminate|]. intros E. injection E as <-. auto.
  - cbn [forallb is_name andb]. destruct dims as [ds|]; [|discriminate]. cbn [bind fst snd].
    destruct (map _ ds) as [|a [|b [|c q]]]; cbn; try discriminate. intros E. injection E as <-. right. eauto.
  - destruct (forallb is_name l).
    + destruct dims as [ds|]; [|discriminate]. cbn [bind fst snd].
      destruct (map _ ds) as [|a [|b [|c q]]]; cbn; try discriminate. intros E. injection E as <-. right. eauto.
    + cbn [bind fst snd]. destruct l as [|a [|b [|c q]]]; cbn; try discriminate. intros E. injection E as <-. right. eauto.
Qed.
(** when it raises *)
Lemma wrap_raises w dims diags e : process_wrap w dims diags = Err e ->
  (e = ValueError /\ w = WNone /\ diags = true)
  \/ (e = TypeError /\ (w = WOther
       \/ (exists l, given_names w l /\ forall d0 d1, dims <> Some [d0; d1])
       \/ exists tuple l b, w = WSeq tuple l /\ In (WFlag b) l /\ length l <> 2%nat)).
Proof.
  assert (D : forall q, (let! w0 := match dims with Some ds => Ok (true, map (fun x => WFlag (named_in x q)) ds) | None => Err TypeError end in
      if Nat.eqb (length (snd w0)) 2 then Ok (WSeq (fst w0) (snd w0)) else Err TypeError) = Err e ->
      e = TypeError /\ forall d0 d1, dims <> Some [d0; d1]).
  { intros q E. destruct dims as [ds|]; [|injection E as <-; split; [reflexivity|discriminate]]. cbn [bind fst snd] in E.
    destruct ds as [|a [|b [|c r]]]; cbn in E; try discriminate; injection E as <-; split; try reflexivity; discriminate. }
  destruct w as [|s|tuple l|]; cbn [process_wrap]; try discriminate.
  - destruct diags; [|discriminate]. intros E. injection E as <-. auto.
  - cbn [forallb is_name andb]. intros E. destruct (D _ E) as [-> H].
    right. split; [reflexivity|]. right. left. exists [s]. split; [left; eauto|exact H].
  - destruct (forallb is_name l) eqn:A; intros E.
    + assert (Hn : exists q, l = names q).
      { clear - A. induction l as [|[s|b] l IH]; [exists []; reflexivity| |discriminate]. destruct (IH A) as (q & ->). exists (s :: q). reflexivity. }
      destruct Hn as (q & ->). destruct (D _ E) as [-> H].
      right. split; [reflexivity|]. right. left. exists q. split; [right; eauto|exact H].
    + cbn [bind fst snd] in E. destruct (Nat.eqb (length l) 2) eqn:N; [discriminate|]. injection E as <-. right. split; [reflexivity|].
      right. right. assert (B : exists b, In (WFlag b) l).
      { clear - A. induction l as [|[s|b] l IH]; [discriminate| |exists b; now left]. destruct (IH A) as (b & H). exists b. now right. }
      destruct B as (b & B). exists tuple, l, b. split; [reflexivity|]. split; [exact B|now apply Nat.eqb_neq].
  - intros E. injection E as <-. right. split; [reflexivity|]. now left.
Qed.

(** a name that is not a dimension is ignored; strings survive beside flags *)
Lemma wrap_unknown_refutes : exists l d0 d1 s, In s l /\ ~ In s [d0; d1] /\
  process_wrap (WSeq true (map WName l)) (Some [d0; d1]) true = Ok (WSeq true [WFlag false; WFlag false]).
Proof.
  exists ["lon"%string], "longitude"%string, "latitude"%string, "lon"%string. split; [now left|]. split; [cbn; intuition discriminate|reflexivity].
Qed.
Lemma wrap_mixed_refutes : exists w ds diags, process_wrap w ds diags = Ok (WSeq false [WName "longitude"; WFlag false]).
Proof. exists (WSeq false [WName "longitude"; WFlag false]), None, true. reflexivity. Qed.

(** ** _interp_casts *)
Section Casts.
  Context {F : Type}.
  Variable interp_fn : nd F -> nd F -> res (nd F).
  Variables (S T P : nd F) (ni nj nk : nat).
  Hypothesis HS : shape S = [ni; nj; nk].

  (** coefficients as interpolation gives them, with one row for each level, are computed again *)
  Lemma interp_again C D m m' Sppc Tppc :
    (Sppc = None \/ exists C', Sppc = Some C' /\ shape C' = [ni; nj; nk; m]) ->
    (Tppc = None \/ exists C', Tppc = Some C' /\ shape C' = [ni; nj; nk; m']) ->
    interp_fn P S = Ok C -> interp_fn P T = Ok D -> interp_casts interp_fn S T P Sppc Tppc = Ok (C, D).
  Proof.
    intros HC HD EC ED. unfold interp_casts. rewrite HS.
    assert (A : forall Y o k E, (o = None \/ exists C', o = Some C' /\ shape C' = [ni; nj; nk; k]) -> interp_fn P Y = Ok E -> provided interp_fn o ni nj nk P Y = Ok E).
    { intros Y o k E [-> | (C' & -> & H)] HE; [exact HE|]. unfold provided, usable. rewrite H. cbn [removelast map].
      destruct (list_eq_dec _ _ _) as [X|]; [|exact HE]. injection X as X. lia. }
    rewrite (A S _ _ C HC EC). cbn [bind]. rewrite (A T _ _ D HD ED). reflexivity.
  Qed.
  (** coefficients with one row less are used, whatever they are *)
  Lemma interp_given C D m m' : (0 < nk)%nat -> shape C = [ni; nj; nk - 1; m]%nat -> shape D = [ni; nj; nk - 1; m']%nat ->
    interp_casts interp_fn S T P (Some C) (Some D) = Ok (C, D).
  Proof.
    intros Hk HC HD. unfold interp_casts. rewrite HS.
    assert (A : forall Y E k, shape E = [ni; nj; nk - 1; k]%nat -> provided interp_fn (Some E) ni nj nk P Y = Ok E).
    { intros Y E k H. unfold provided, usable. rewrite H. cbn [removelast map]. rewrite Nat2Z.inj_sub by lia.
      destruct (list_eq_dec _ _ _) as [|X]; [reflexivity|]. exfalso. apply X. reflexivity. }
    rewrite (A S _ _ HC). cbn [bind]. rewrite (A T _ _ HD). reflexivity.
  Qed.
End Casts.
Lemma interp_shape {F} (fn : nd F -> nd F -> res (nd F)) S T P Sppc Tppc : length (shape S) <> 3%nat ->
  interp_casts fn S T P Sppc Tppc = Err ValueError.
Proof. unfold interp_casts. destruct (shape S) as [|a [|b [|c [|d q]]]]; cbn; try reflexivity. lia. Qed.

(** ** gswc.py *)
Lemma diff_inv (f : R -> R) x l : f x <> 0 -> derivable_pt_lim f x l -> derivable_pt_lim (fun y => / f y) x (- l / (f x * f x)).
Proof.
  intros N D. apply is_derive_Reals. apply is_derive_Reals in D.
  apply (is_derive_ext (fun y => / f y)); [reflexivity|].
  replace (- l / (f x * f x)) with (- l / (f x) ^ 2) by (simpl; field; exact N). now apply is_derive_inv.
Qed.

Lemma gswc_ok rho derivs (dv : R -> R -> res R) : teos_library rho derivs -> dv = sdiv \/ dv = adiv ->
  forall s t p, ocean s t p -> 0 < s -> exists v vs vt vp, gsw_specvol s t p = Ok v /\ gsw_specvol_s_t dv s t p = Ok (vs, vt) /\ gsw_specvol_p s t p = Ok vp
    /\ gswc_rho rho s t p = / v /\ gswc_rho_s_t derivs s t p = (- vs / (v * v), - vt / (v * v)) /\ gswc_rho_p derivs s t p = - vp / (v * v).
Proof.
  intros HL Hdv s t p HO Hs. destruct teos_all as (H & H0 & Ds & Dt & Dp & E). destruct (E dv Hdv s t p) as (E0 & E1 & E2 & _).
  destruct (teos_ocean dv Hdv s t p HO) as ((v & Ev & Pv) & _). rewrite E0 in Ev. injection Ev as Ev.
  exists (H 0 0 0 s t p)%nat, (H 1 0 0 s t p)%nat, (H 0 1 0 s t p)%nat, (H 0 0 1 s t p)%nat.
  split; [exact E0|]. split; [exact E1|]. split; [exact E2|]. destruct (HL s t p HO Hs) as [R0 R1].
  assert (N : H 0%nat 0%nat 0%nat s t p <> 0) by lra.
  split; [unfold gswc_rho; rewrite R0, H0; reflexivity|].
  unfold gswc_rho_s_t, gswc_rho_p. destruct (derivs s t p) as [[rs rt] rp]. destruct R1 as (R1 & R2 & R3).
  assert (X : forall f g : R -> R, forall x l l', (forall y, f y = g y) -> derivable_pt_lim f x l -> derivable_pt_lim g x l' -> l = l').
  { intros f g x l l' Hfg Hf Hg. apply (uniqueness_limite g x); [|exact Hg]. apply is_derive_Reals. apply is_derive_Reals in Hf.
    exact (is_derive_ext _ _ _ _ Hfg Hf). }
  assert (A1 := diff_inv (fun s' => H 0 0 0 s' t p)%nat s _ N (Ds 0 0 0 s t p ltac:(lia) Hs)%nat).
  assert (A2 := diff_inv (fun t' => H 0 0 0 s t' p)%nat t _ N (Dt 0 0 0 s t p)%nat).
  assert (A3 := diff_inv (fun p' => H 0 0 0 s t p')%nat p _ N (Dp 0 0 0 s t p)%nat).
  split.
  - f_equal.
    + apply (X _ _ _ _ _ (fun y => eq_sym (f_equal Rinv (H0 y t p))) R1 A1).
    + apply (X _ _ _ _ _ (fun y => eq_sym (f_equal Rinv (H0 s y p))) R2 A2).
  - assert (A4 : derivable_pt_lim (fun pa => / H O O O s t (pa / 10000)) (p * 10000) (/ 10000 * (- H O O 1%nat s t p / (H O O O s t p * H O O O s t p)))).
    { apply is_derive_Reals. apply is_derive_Reals in A3.
      assert (B : is_derive (fun pa => pa / 10000) (p * 10000) (/ 10000)) by (auto_derive; [trivial|lra]).
      apply (is_derive_comp (fun p' => / H 0%nat 0%nat 0%nat s t p') (fun pa => pa / 10000)); [|exact B].
      replace (p * 10000 / 10000) with p by field. exact A3. }
    rewrite (X _ _ _ _ _ (fun y => eq_sym (f_equal Rinv (H0 s t (y / 10000)))) R3 A4). cbn [mul lit RNum]. unfold Rlit. cbn. field. exact N.
Qed.

Lemma library_exists : exists rho derivs, teos_library rho derivs.
Proof.
  destruct teos_all as (H & H0 & Ds & Dt & Dp & E).
  exists (fun s t p => / teos_v s t p), (fun s t p => (- H 1%nat O O s t p / (H O O O s t p * H O O O s t p), - H O 1%nat O s t p / (H O O O s t p * H O O O s t p),
    / 10000 * (- H O O 1%nat s t p / (H O O O s t p * H O O O s t p)))).
  intros s t p HO Hs. split; [reflexivity|].
  destruct (E sdiv (or_introl eq_refl) s t p) as (E0 & _). destruct (teos_ocean sdiv (or_introl eq_refl) s t p HO) as ((v & Ev & Pv) & _). rewrite E0 in Ev. injection Ev as Ev.
  assert (N : H 0%nat 0%nat 0%nat s t p <> 0) by lra.
  assert (A1 := diff_inv (fun s' => H 0 0 0 s' t p)%nat s _ N (Ds 0 0 0 s t p ltac:(lia) Hs)%nat).
  assert (A2 := diff_inv (fun t' => H 0 0 0 s t' p)%nat t _ N (Dt 0 0 0 s t p)%nat).
  assert (A3 := diff_inv (fun p' => H 0 0 0 s t p')%nat p _ N (Dp 0 0 0 s t p)%nat).
  assert (X : forall f g : R -> R, forall x l, (forall y, f y = g y) -> derivable_pt_lim f x l -> derivable_pt_lim g x l).
  { intros f g x l Hfg Hf. apply is_derive_Reals. apply is_derive_Reals in Hf. exact (is_derive_ext _ _ _ _ Hfg Hf). }
  split; [exact (X _ _ _ _ (fun y => f_equal Rinv (H0 y t p)) A1)|].
  split; [exact (X _ _ _ _ (fun y => f_equal Rinv (H0 s y p)) A2)|].
  refine (X _ _ _ _ (fun y => f_equal Rinv (H0 s t (y / 10000))) _).
  apply is_derive_Reals. apply is_derive_Reals in A3.
  assert (B : is_derive (fun pa => pa / 10000) (p * 10000) (/ 10000)) by (auto_derive; [trivial|lra]).
  apply (is_derive_comp (fun p' => / H 0%nat 0%nat 0%nat s t p') (fun pa => pa / 10000)); [|exact B].
  replace (p * 10000 / 10000) with p by field. exact A3.
Qed.

(** ** examples *)
(** linear_coeffs for a single column *)
Definition lin1 (X Y : nd R) : res (nd R) :=
  let! C := linear_coeffs_1 0 (elems X) (elems Y) in Ok (mk_nd (shape Y ++ [2%nat]) (concat C)).
Definition wS : nd R := mk_nd [1; 1; 2]%nat [34; 35].
Definition wT : nd R := mk_nd [1; 1; 2]%nat [20; 10].
Definition wP : nd R := mk_nd [1; 1; 2]%nat [0; 500].
Lemma reuse_refutes : exists S T P C D C' D', lin1 P S = Ok C' /\ lin1 P T = Ok D' /\ shape C = shape C' /\ shape D = shape D' /\ C <> C' /\ D <> D'
  /\ interp_casts lin1 S T P (Some C) (Some D) = Ok (C', D').
Proof.
  exists wS, wT, wP, (mk_nd [1; 1; 2; 2]%nat [0; 0; 0; 0]), (mk_nd [1; 1; 2; 2]%nat [0; 0; 0; 0]).
  eexists. eexists. split; [reflexivity|]. split; [reflexivity|]. split; [reflexivity|]. split; [reflexivity|].
  split; [intros E; injection E; lra|]. split; [intros E; injection E; lra|]. reflexivity.
Qed.
Lemma wrap_example : process_wrap (WSeq false [WName "longitude"]) (Some ["longitude"; "latitude"]%string) true = Ok (WSeq true [WFlag true; WFlag false])
  /\ process_wrap (WStr "latitude") (Some ["longitude"; "latitude"]%string) true = Ok (WSeq true [WFlag false; WFlag true])
  /\ process_wrap (WSeq true []) (Some ["x"; "y"]%string) false = Ok (WSeq true [WFlag false; WFlag false])
  /\ process_wrap (WSeq true []) None false = Err TypeError.
Proof. repeat split; reflexivity. Qed.
