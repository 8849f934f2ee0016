(** * The entry points potential_surf and anomaly_surf *)
From Coq Require Import String ZArith Bool List Reals Lra Lia Arith.
From Verif Require Import Num XR Res Arr ArrLemmas Nd NdLemmas M_graph M_lib M_make_pp M_eos_base M_eostools M_mixed_layer M_ntp M_ppinterp M_vertsolve M_omega
  M_surfaces S_fzero S_graph S_lib S_eos S_interp S_traj S_vertsolve S_ntp S_mixed_layer S_named S_surfaces
  P_casts P_pin P_mixed_layer2 P_traj P_vertsolve P_isopycnal P_ntp P_named.
Import ListNotations.

Lemma no_edges_key {F} (grid : @gridarg F) : (forall e gd gp, grid <> M_ntp.GDict (Some e) gd gp) -> has_edges grid = false.
Proof. intros H. destruct grid as [l|[e|] gd gp|]; try reflexivity. elim (H e gd gp eq_refl). Qed.

Section Any.
  Context {F : Type} {Nm : Num F}.
  Notation bottle := (F * F * F)%type.
  Local Open Scope nat_scope.

  Lemma axis_mod m i z : axis_index m i z -> (z mod Z.of_nat m)%Z = Z.of_nat i /\ in_axis m z.
  Proof.
    intros [Hi [-> | ->]]; unfold in_axis.
    - split; [apply Z.mod_small; lia|lia].
    - split; [|lia]. rewrite <- (Z.mod_small (Z.of_nat i) (Z.of_nat m)) at 2 by lia.
      replace (Z.of_nat i - Z.of_nat m)%Z with (Z.of_nat i + (-1) * Z.of_nat m)%Z by lia. apply Z_mod_plus_full.
  Qed.

  Lemma vertical_process v i (X : @data F) : vertical v i X -> process_vert_dim v X = Ok i.
  Proof.
    assert (HI : forall z, axis_index (ndim (arr X)) i z -> process_vert_dim (VInt z) X = Ok i).
    { intros z Hz. pose proof (axis_mod _ _ _ Hz) as [E _]. destruct Hz as [Hi _]. rewrite process_vert_dim_int by lia. rewrite E, Nat2Z.id. reflexivity. }
    intros [HL HN]. destruct (dims X) as [ds|] eqn:Ed.
    - destruct (HL ds Ed) as (Hnd & Hl & name & Hi & _ & [-> | (z & -> & Hz)]); [|apply HI; exact Hz].
      eapply process_vert_dim_name; eassumption.
    - destruct (HN eq_refl) as (z & -> & Hz). apply HI; exact Hz.
  Qed.

  Lemma xr_in_out v (X : @data F) s1 n s2 : shape (arr X) = s1 ++ n :: s2 -> 0 < n -> labelled v (length s1) X ->
    exists c, xr_in X v = Ok c /\ forall a : nd F, shape a = s1 ++ s2 ->
      exists Y, xr_out a c = Ok Y /\ arr Y = a /\ labelled_like X (length s1) Y.
  Proof.
    intros Hs Hn HL. destruct (dims X) as [ds|] eqn:Ed.
    - destruct (HL ds Ed) as (Hnd & Hl & name & Hi & Hc & Hv).
      apply nth_error_split in Hi. destruct Hi as (d1 & d2 & -> & Hd1).
      assert (HL2 : length d2 = length s2).
      { unfold ndim in Hl. rewrite Hs, !app_length in Hl. cbn [length] in Hl. lia. }
      exists (Some (d1 ++ d2, s1 ++ s2)). split.
      + apply (xr_in_ok X d1 name d2 s1 n s2); trivial.
        destruct Hv as [Hv|(z & Hz & Ha)]; [left; exact Hv|]. right. exists z. pose proof (axis_mod _ _ _ Ha) as [Hm Hx]. rewrite Hd1. auto.
      + intros a Ha. unfold xr_out. destruct (list_eq_dec _ _ _) as [_|N]; [|congruence]. eexists. split; [reflexivity|]. split; [reflexivity|].
        unfold labelled_like. rewrite Ed. cbn [dims]. exists d1, name, d2. auto.
    - exists None. unfold xr_in. rewrite Ed. split; [reflexivity|]. intros a Ha. eexists. split; [reflexivity|]. split; [reflexivity|].
      unfold labelled_like. rewrite Ed. exact I.
  Qed.

  Lemma build_ext {A} sh (f g : list nat -> A) : (forall h, valid sh h -> f h = g h) -> build sh f = build sh g.
  Proof. intros H. unfold build. f_equal. apply map_ext_in. intros h Hin. apply H. apply in_all_idx. exact Hin. Qed.

  Lemma columns_ok (S T P : @data F) v s1 n s2 c : water_columns S T P v s1 n s2 c ->
    exists stp, process_casts S T P v = Ok stp /\ columns_of stp = Ok (build (s1 ++ s2) c, n).
  Proof.
    intros [[WS SS] [WT ST] Hn [Hv Hv'] [WP HP] Hc].
    assert (SP : shape (arr P) = s1 ++ n :: s2 \/ shape (arr P) = [n]) by (destruct HP as [[E _]|[E _]]; [left|right]; exact E).
    destruct (process_casts_ok S T P v s1 n s2 WS WT WP SS ST (vertical_process _ _ _ Hv) SP) as (s & t & p & Ec & Ls & Lt & Lp).
    exists (s, t, p). split; [exact Ec|]. unfold columns_of.
    pose proof Ls as (ES & _). pose proof Lt as (ET & _). pose proof Lp as (EP & _). rewrite ES, ET, EP.
    destruct (list_eq_dec Nat.eq_dec _ _) as [_|N]; [|congruence].
    rewrite app_assoc, rev_app_distr. cbn [rev app]. rewrite rev_involutive. do 2 f_equal.
    apply build_ext. intros h V. apply valid_app_inv in V. destruct V as (h1 & h2 & -> & V1 & V2).
    destruct (Hc h1 h2 V1 V2) as [C1 C2].
    destruct (c (h1 ++ h2)) as [[cs ct] cp] eqn:Ech. cbn [fst snd] in C1, C2.
    assert (C3 : M_mixed_layer.column p n (h1 ++ h2) = cp).
    { pose proof (column_cast _ s1 s2 n p h1 h2 Lp V1 V2) as C3.
      destruct HP as [[E HP]|[E HP]].
      - assert (Nat.eqb (ndim (arr P)) (ndim (arr S)) = true) as En by (apply Nat.eqb_eq; unfold ndim; rewrite E, SS; reflexivity).
        rewrite En in C3. specialize (HP h1 h2 V1 V2). rewrite Ech in HP. exact (cast_at_unique _ _ _ _ _ _ C3 HP).
      - specialize (HP (h1 ++ h2) (valid_app _ _ _ _ V1 V2)). rewrite Ech in HP. cbn [snd] in HP. subst cp.
        destruct C3 as [L3 H3]. unfold wf in WP. rewrite E in WP. cbn [prod] in WP.
        apply nth_error_ext. intros k. destruct (Nat.lt_ge_cases k n) as [Hk|Hk].
        + rewrite H3 by exact Hk. destruct (Nat.eqb (ndim (arr P)) (ndim (arr S))) eqn:En.
          * apply Nat.eqb_eq in En. unfold ndim in En. rewrite E, SS, app_length in En. cbn [length] in En.
            assert (s1 = []) as -> by (destruct s1; [reflexivity|cbn in En; lia]).
            assert (s2 = []) as -> by (destruct s2; [reflexivity|cbn in En; lia]).
            apply valid_length in V1, V2. destruct h1; [|discriminate]. destruct h2; [|discriminate].
            unfold at_. rewrite E. cbn [app ravel prod]. f_equal. lia.
          * apply valid_length in V1. rewrite <- V1, nth_app_mid. unfold at_. rewrite E. cbn [ravel prod]. f_equal. lia.
        + rewrite (proj2 (nth_error_None _ k)), (proj2 (nth_error_None _ k)) by lia. reflexivity. }
    pose proof (column_cast _ s1 s2 n s h1 h2 Ls V1 V2) as D1. pose proof (column_cast _ s1 s2 n t h1 h2 Lt V1 V2) as D2.
    rewrite (cast_at_unique _ _ _ _ _ _ D1 C1), (cast_at_unique _ _ _ _ _ _ D2 C2), C3. reflexivity.
  Qed.

  Lemma at_pos_nth sh x h : length x = prod sh -> valid sh h -> nth_error x (ravel sh h) = Some (at_pos sh x h).
  Proof. intros L V. apply nth_error_nth'. rewrite L. apply ravel_lt. exact V. Qed.

  Lemma outputs (S T : @data F) v s1 n s2 (x : list bottle) :
    shape (arr S) = s1 ++ n :: s2 -> shape (arr T) = s1 ++ n :: s2 -> 0 < n -> labelled v (length s1) S -> labelled v (length s1) T ->
    length x = prod (s1 ++ s2) ->
    exists sx tx, xrs_in S T v = Ok (sx, tx, sx) /\ exists s t p,
      xr_out (s_of (s1 ++ s2) x) sx = Ok s /\ xr_out (t_of (s1 ++ s2) x) tx = Ok t /\ xr_out (p_of (s1 ++ s2) x) sx = Ok p
      /\ holds S T s1 s2 s t p (at_pos (s1 ++ s2) x).
  Proof.
    intros SS ST Hn HS HT Lx.
    destruct (xr_in_out v S s1 n s2 SS Hn HS) as (sx & Es & Hs). destruct (xr_in_out v T s1 n s2 ST Hn HT) as (tx & Et & Ht).
    exists sx, tx. unfold xrs_in. rewrite Es, Et. split; [reflexivity|].
    destruct (Hs (s_of (s1 ++ s2) x) eq_refl) as (s & Os & As & Ls).
    destruct (Ht (t_of (s1 ++ s2) x) eq_refl) as (t & Ot & At & Lt).
    destruct (Hs (p_of (s1 ++ s2) x) eq_refl) as (p & Op & Ap & Lp).
    exists s, t, p. split; [exact Os|]. split; [exact Ot|]. split; [exact Op|].
    split; rewrite ?As, ?At, ?Ap; unfold wf, s_of, t_of, p_of; cbn [shape elems]; rewrite ?map_length; auto.
    intros h V. unfold at_. cbn [shape elems]. rewrite !nth_error_map, (at_pos_nth _ _ _ Lx V). auto.
  Qed.

  Lemma isopycnal_surf_ok (S T P : @data F) s1 n s2 c index junk (k : iso_args) ppc pin f g x :
    water_columns S T P (k_vert_dim k) s1 n s2 c ->
    make_pp (k_interp k) "1" "coeffs" false 1 = Ok ppc ->
    pin_of (k_pin_cast k) S index = Ok pin ->
    _process_eos sdiv (k_eos k) (k_grav k) (k_rho_c k) (k_diags k) = Ok (F1 f, g) ->
    (k_diags k = true -> has_edges (k_grid k) = true) ->
    length x = prod (s1 ++ s2) ->
    exists s t p, holds S T s1 s2 s t p (at_pos (s1 ++ s2) x)
      /\ forall errors,
         (if k_diags k then exists ee, ntp_epsilon_errors_norms (two_values g) x (k_grid k) = Ok ee /\ errors = Some (fst ee, snd ee, n_finite x)
          else errors = None) ->
         forall fuel a ref iso,
         isopycnal f (ppc_named junk ppc) fuel a (k_ref k) (k_isoval k) pin (k_pin_p k) n (build (s1 ++ s2) c) (k_tol k) = Ok (x, ref, iso) ->
         isopycnal_surf junk fuel a S T P index k = Ok (s, t, p, mkIsoDiags ref iso errors).
  Proof.
    intros Hw Hp Hpin He Hg Lx. pose proof Hw as [[WS SS] [WT ST] Hn [[Hv _] Hv'] _ _].
    destruct (outputs S T _ s1 n s2 x SS ST Hn Hv Hv' Lx) as (sx & tx & Ex & s & t & p & Os & Ot & Op & Hh).
    destruct (columns_ok S T P _ s1 n s2 c Hw) as (stp & Ec & Eco).
    exists s, t, p. split; [exact Hh|]. intros errors Herr fuel a ref iso Hi.
    unfold isopycnal_surf. rewrite Hp. cbn [bind]. rewrite Ex. cbn [bind]. rewrite Hpin. cbn [bind]. rewrite Ec. cbn [bind]. rewrite He. cbn [bind fst snd].
    assert (Ed : k_diags k && negb (has_edges (k_grid k)) = false) by (destruct (k_diags k); [rewrite Hg by reflexivity|]; reflexivity).
    rewrite Ed. cbn [bind]. rewrite Eco. cbn [bind]. unfold one_value, vectorized. rewrite Hi. cbn [bind shape build].
    destruct (k_diags k).
    - destruct Herr as (ee & En & ->). rewrite En. cbn [bind]. rewrite Os. cbn [bind]. rewrite Ot. cbn [bind]. rewrite Op. reflexivity.
    - subst errors. cbn [bind]. rewrite Os. cbn [bind]. rewrite Ot. cbn [bind]. rewrite Op. reflexivity.
  Qed.
End Any.

Local Open Scope R_scope.

Lemma coeffs_named interp rel junk : named_interp interp rel ->
  exists ppc, make_pp interp "1" "coeffs" false 1 = Ok ppc /\ interpolator (ppc_named junk ppc) rel.
Proof.
  intros [|].
  - exists "linear_coeffs_1"%string. split; [reflexivity|]. apply linear_interpolator.
  - exists "pchip_coeffs_1_nonan"%string. split; [reflexivity|]. apply pchip_interpolator.
Qed.

(** surfaces in the domain *)
Definition clean (D : domain) (b : bottle) : Prop := bottle_in D b \/ dry b.

Lemma surface_clean D rel H tol c b : cast_in D c -> surface_point rel H tol c b -> clean D b.
Proof.
  intros Hin [[_ ->]|(gS & gT & lo & hi & Hp & [[-> _]|(p & -> & Hr & _)])]; [right; left; reflexivity|right; left; reflexivity|].
  left. exists (gS p), (gT p), p. split; [reflexivity|]. apply (profile_in D rel c gS gT lo hi); assumption.
Qed.

Lemma ravel_surj sh : forall a, (a < prod sh)%nat -> exists h, valid sh h /\ ravel sh h = a.
Proof.
  intros a Ha. destruct (nth_error (all_idx sh) a) as [h|] eqn:E; [|apply nth_error_None in E; rewrite length_all_idx in E; lia].
  pose proof (proj1 (in_all_idx sh h) (nth_error_In _ _ E)) as V. exists h. split; [exact V|].
  pose proof (nth_error_all_idx sh h V) as E2.
  assert (ND : NoDup (all_idx sh)).
  { clear. induction sh as [|n sh IH]; [repeat constructor; intros []|]. cbn [all_idx].
    assert (G : forall l, NoDup l -> NoDup (flat_map (fun i => map (cons i) (all_idx sh)) l)).
    { induction l as [|i l IHl]; intros Hl; [constructor|]. inversion Hl; subst. cbn [flat_map].
      assert (Hm : NoDup (map (cons i) (all_idx sh))) by (apply FinFun.Injective_map_NoDup; [intros u w [= ->]; reflexivity|exact IH]).
      revert Hm. generalize (IHl H2). intros Hr Hm.
      assert (Hdis : forall y, In y (map (cons i) (all_idx sh)) -> ~ In y (flat_map (fun i => map (cons i) (all_idx sh)) l)).
      { intros y Hy Hy2. apply in_map_iff in Hy. destruct Hy as (u & <- & _). apply in_flat_map in Hy2. destruct Hy2 as (j & Hj & Hu).
        apply in_map_iff in Hu. destruct Hu as (w & [= -> _] & _). contradiction. }
      revert Hm Hdis. generalize (map (cons i) (all_idx sh)). induction l0 as [|y l0 IHy]; intros Hm Hdis; [exact Hr|].
      inversion Hm; subst. cbn [app]. constructor.
      - intros Hi. apply in_app_or in Hi. destruct Hi as [Hi|Hi]; [contradiction|]. apply (Hdis y); [left; reflexivity|exact Hi].
      - apply IHy; [assumption|]. intros z Hz. apply Hdis. right. exact Hz. }
    apply G. apply seq_NoDup. }
  apply (proj1 (NoDup_nth_error _) ND); [rewrite length_all_idx; apply ravel_lt; exact V|]. rewrite E, E2. reflexivity.
Qed.

Lemma wet_count_at sh (x : list bottle) : length x = prod sh -> n_finite x = wet_count sh (at_pos sh x).
Proof.
  intros L. unfold n_finite, wet_count.
  assert (E : x = map (at_pos sh x) (all_idx sh)).
  { apply nth_error_ext. intros i. destruct (Nat.lt_ge_cases i (prod sh)) as [Hi|Hi].
    - destruct (ravel_surj sh i Hi) as (h & V & <-). rewrite nth_error_map, nth_error_all_idx by exact V. cbn [option_map]. apply at_pos_nth; assumption.
    - rewrite (proj2 (nth_error_None _ i)), (proj2 (nth_error_None _ i)) by (rewrite ?map_length, ?length_all_idx; lia). reflexivity. }
  rewrite E at 1. clear E. generalize (at_pos sh x) (all_idx sh). intros f l.
  induction l as [|h l IH]; [reflexivity|]. cbn [map filter]. destruct (isfinite (snd (f h))); cbn [length]; rewrite IH; reflexivity.
Qed.

Lemma norms_surface D g vs vt sh grid edges dist perp (x : list bottle) :
  eos_s_t_on D g vs vt -> nan_safe g -> geometry sh grid edges dist perp -> length x = prod sh -> Forall (clean D) x ->
  exists r m, ntp_epsilon_errors_norms g x grid = Ok (Fin r, Fin m) /\ neutrality_norms vs vt sh edges dist perp (at_pos sh x) r m.
Proof.
  intros Hg Hn [(gd & gp & -> & Hd & Hp) He Hd0 Hp0] L Hx.
  rewrite Forall_forall in Hx, He.
  assert (Hin : in_range edges (prod sh)) by (intros a b Hab; apply (He _ Hab)).
  assert (Hb : forall b, In b x -> bottle_in D b \/ missing b).
  { intros b Hb. destruct (Hx b Hb) as [H|H]; [left; exact H|right]. destruct b as [[s t] p]. destruct H as [H|H]; cbn in H; subst; unfold missing; auto. }
  destruct (errors_correct g D vs vt x edges (prod sh) None (repeat 1 (length edges)) None Hg Hn Hb L Hin eq_refl) as (e & Ee & Le & HE).
  rewrite errors_dict, <- errors_unit in Ee.
  assert (HE' : forall i a b u w, nth_error edges i = Some (a, b) -> nth_error x a = Some u -> nth_error x b = Some w ->
    (forall wa wb, finite_bottle u wa -> finite_bottle w wb -> nth_error e i = Some (Fin (water_error vs vt wa wb)))
    /\ (dry u \/ dry w -> nth_error e i = Some NaN)).
  { intros i a b u w Hi Hu Hw. pose proof (nth_error_lt _ _ _ Hi) as Hlt.
    destruct (HE i a b u w 1 Hi Hu Hw) as [H1 H2]; [rewrite nth_error_repeat; auto|]. split; [|exact H2].
    intros wa wb Ha Hb'. rewrite (H1 wa wb Ha Hb'). do 2 f_equal. field. }
  assert (Hnum : Forall number_or_nan e).
  { apply Forall_forall. intros y Hy. apply In_nth_error in Hy. destruct Hy as [i Hi]. pose proof (nth_error_lt _ _ _ Hi) as Hlt. rewrite Le in Hlt.
    destruct (nth_error edges i) as [[a b]|] eqn:Ei; [|apply nth_error_None in Ei; lia].
    destruct (He (a, b) (nth_error_In _ _ Ei)) as [Ha Hb']. cbn [fst snd] in Ha, Hb'. rewrite <- L in Ha, Hb'.
    destruct (nth_error x a) as [u|] eqn:Eu; [|apply nth_error_None in Eu; lia].
    destruct (nth_error x b) as [w|] eqn:Ew; [|apply nth_error_None in Ew; lia].
    destruct (HE' i a b u w Ei Eu Ew) as [H1 H2].
    destruct (Hx u (nth_error_In _ _ Eu)) as [(s & t & p & -> & _)|Dy].
    - destruct (Hx w (nth_error_In _ _ Ew)) as [(s' & t' & p' & -> & _)|Dy].
      + right. rewrite (H1 (s, t, p) (s', t', p') eq_refl eq_refl) in Hi. injection Hi as <-. eexists. reflexivity.
      + left. rewrite H2 in Hi by (right; exact Dy). congruence.
    - left. rewrite H2 in Hi by (left; exact Dy). congruence. }
  rewrite (norms_correct_tuple g x edges gd gp e dist perp Ee Hnum Hd Hp Hd0 Hp0).
  assert (HS : forall i ha hb, valid sh ha -> valid sh hb -> nth_error edges i = Some (ravel sh ha, ravel sh hb) ->
    (forall wa wb, finite_bottle (at_pos sh x ha) wa -> finite_bottle (at_pos sh x hb) wb -> nth_error e i = Some (Fin (water_error vs vt wa wb)))
    /\ (dry (at_pos sh x ha) \/ dry (at_pos sh x hb) -> nth_error e i = Some NaN)).
  { intros i ha hb Va Vb Hi. apply (HE' i _ _ _ _ Hi); apply at_pos_nth; assumption. }
  destruct (Req_EM_T (total (samples e dist perp)) 0) as [E0|E0].
  - exists 0, 0. split; [reflexivity|]. exists e. split; [exact Le|]. split; [exact HS|]. split; [auto|]. intros N. contradiction.
  - do 2 eexists. split; [reflexivity|]. exists e. split; [exact Le|]. split; [exact HS|]. split; [intros N; contradiction|auto].
Qed.

Section Named.
  Variables (name : string) (v : R -> R -> R -> R) (grav rho_c : option xr) (zp : R).
  Hypotheses (Hname : named_eos name v) (Hzp : pressure_factor grav rho_c zp).
  Variables (interp : string) (rel : nat -> (nat -> R) -> (nat -> R) -> (R -> R) -> Prop).
  Hypothesis Hinterp : named_interp interp rel.
  Variable tol : R.
  Hypothesis Htol : 0 < tol.
  Variables (S T P : @data xr) (vd : vdim) (s1 : list nat) (n : nat) (s2 : list nat) (c : list nat -> column).
  Hypothesis Hw : water_columns S T P vd s1 n s2 c.
  Hypothesis Hc : forall h, valid (s1 ++ s2) h -> any_cast (c h) /\ cast_in (seas zp) (c h).
  Variables (diags : bool) (grid : @gridarg xr) (edges : list (nat * nat)) (dist distperp : list R).
  Hypothesis Hgeo : diags = true -> geometry (s1 ++ s2) grid edges dist distperp.
  Variables (index : string -> option (list xr)) (junk : xr).
  Notation sh := (s1 ++ s2).
  Notation casts := (build (s1 ++ s2) c).
  Notation fueled fuel := (forall h, valid (s1 ++ s2) h -> enough_fuel fuel tol (c h)).

  Lemma casts_any : Forall any_cast (elems casts).
  Proof. apply Forall_forall. intros y Hy. apply in_map_iff in Hy. destruct Hy as (h & <- & Hh). apply Hc. apply in_all_idx. exact Hh. Qed.
  Lemma casts_in : Forall (cast_in (seas zp)) (elems casts).
  Proof. apply Forall_forall. intros y Hy. apply in_map_iff in Hy. destruct Hy as (h & <- & Hh). apply Hc. apply in_all_idx. exact Hh. Qed.
  Lemma casts_fuel fuel : fueled fuel -> Forall (enough_fuel fuel tol) (elems casts).
  Proof. intros H. apply Forall_forall. intros y Hy. apply in_map_iff in Hy. destruct Hy as (h & <- & Hh). apply H. apply in_all_idx. exact Hh. Qed.
  Lemma casts_nth h : valid sh h -> nth_error (elems casts) (ravel sh h) = Some (c h).
  Proof. intros V. exact (build_at sh c h V). Qed.
  Lemma casts_length : length (elems casts) = prod sh.
  Proof. exact (build_wf sh c). Qed.

  Definition args (ref : @refarg xr) (isoval : option xr) (pin : pinarg) (pin_p : @pinp xr) : iso_args :=
    mkIso ref isoval pin pin_p vd (Fin tol) (AStr name) rho_c grav diags grid interp.

  Lemma surf_common : exists f ppc_fn, interpolator ppc_fn rel /\ eos_on (seas zp) f (at_depth zp v)
    /\ (forall ref isoval pin pin' pin_p, pin_of pin S index = Ok pin' ->
        forall x, length x = prod sh -> Forall (clean (seas zp)) x ->
        exists s t p errors, holds S T s1 s2 s t p (at_pos sh x) /\ diagnosed zp v diags sh edges dist distperp (at_pos sh x) errors
        /\ forall fuel a rv iv, isopycnal f ppc_fn fuel a ref isoval pin' pin_p n casts (Fin tol) = Ok (x, rv, iv) ->
           isopycnal_surf junk fuel a S T P index (args ref isoval pin pin_p) = Ok (s, t, p, mkIsoDiags rv iv errors)).
  Proof.
    destruct (process_named name v grav rho_c zp diags Hname Hzp) as (f & g & vs & vt & Ee & Hf & Hg).
    destruct (coeffs_named interp rel junk Hinterp) as (ppc & Ep & Hi).
    exists f, (ppc_named junk ppc). split; [exact Hi|]. split; [exact (g_on _ _ _ Hf)|]. intros ref isoval pin pin' pin_p Hpin x Lx Hx.
    assert (ED : exists errors, diagnosed zp v diags sh edges dist distperp (at_pos sh x) errors
      /\ if diags then exists ee, ntp_epsilon_errors_norms g x grid = Ok ee /\ errors = Some (fst ee, snd ee, n_finite x) else errors = None).
    { destruct diags eqn:Ed.
      - destruct (norms_surface (seas zp) g vs vt sh grid edges dist distperp x (gs_on _ _ _ _ _ Hg) (gs_nan _ _ _ _ _ Hg) (Hgeo eq_refl) Lx Hx)
          as (r & m & En & HN).
        exists (Some (Fin r, Fin m, n_finite x)). split; [|exists (Fin r, Fin m); auto].
        split; [reflexivity|]. split; [apply wet_count_at; exact Lx|]. exists vs, vt, r, m. split; [reflexivity|]. split; [reflexivity|].
        split; [exact (gs_diff _ _ _ _ _ Hg)|exact HN].
      - exists None. split; reflexivity. }
    destruct ED as (errors & HD & HE).
    assert (Hedges : diags = true -> has_edges grid = true).
    { intros Ed. destruct (Hgeo Ed) as [(gd & gp & -> & _) _ _ _]. reflexivity. }
    destruct (isopycnal_surf_ok S T P s1 n s2 c index junk (args ref isoval pin pin_p) ppc pin' f (if diags then Some (F2 g) else None) x Hw Ep Hpin Ee Hedges Lx)
      as (s & t & p & Hh & H).
    exists s, t, p, errors. split; [exact Hh|]. split; [exact HD|]. intros fuel a rv iv E.
    apply H; [|exact E]. cbn [k_diags k_grid args]. destruct diags; exact HE.
  Qed.

  Lemma surface_list H x : Forall2 (surface_point rel H tol) (elems casts) x ->
    length x = prod sh /\ Forall (clean (seas zp)) x /\ forall h, valid sh h -> surface_point rel H tol (c h) (at_pos sh x h).
  Proof.
    intros HF. assert (L : length x = prod sh) by (rewrite <- casts_length; clear -HF; induction HF; cbn [length]; lia).
    assert (HX : forall h, valid sh h -> surface_point rel H tol (c h) (at_pos sh x h)).
    { intros h V. assert (G : forall l l' i y y', Forall2 (surface_point rel H tol) l l' -> nth_error l i = Some y -> nth_error l' i = Some y' -> surface_point rel H tol y y').
      { intros l l' i y y' HG. revert i. induction HG; intros [|i] E1 E2; cbn in E1, E2; try discriminate; [congruence|eauto]. }
      apply (G _ _ _ _ _ HF (casts_nth h V)). apply at_pos_nth; assumption. }
    split; [exact L|]. split; [|exact HX]. apply Forall_forall. intros b Hb. apply In_nth_error in Hb. destruct Hb as [i Hi].
    pose proof (nth_error_lt _ _ _ Hi) as Hlt. rewrite L in Hlt. destruct (ravel_surj sh i Hlt) as (h & V & <-).
    rewrite (at_pos_nth sh x h L V) in Hi. injection Hi as <-. eapply surface_clean; [apply Hc; exact V|apply HX; exact V].
  Qed.

  (** ** reference and isovalue *)
  Lemma potential_isovalue ref iso : dP (seas zp) ref ->
    exists s t p x d, holds S T s1 s2 s t p x
      /\ (forall fuel, fueled fuel -> potential_surf junk fuel S T P index (args (RFloat (Fin ref)) (Some (Fin iso)) ANone PNone)
            = Ok (s, t, p, mkIsoDiags (RFloat (Fin ref)) (Fin iso) d))
      /\ (forall h, valid sh h -> surface_point rel (potential_of (at_depth zp v) ref iso) tol (c h) (x h))
      /\ diagnosed zp v diags sh edges dist distperp x d.
  Proof.
    intros Hr. destruct surf_common as (f & ppc & Hi & Hf & H).
    destruct (potential_unpinned ppc rel Hi tol Htol (seas zp) f _ Hf n casts casts_any casts_in ref iso CNone Hr eq_refl) as (x & Ex & HF).
    destruct (surface_list _ _ HF) as (L & Hcl & HX).
    destruct (H (RFloat (Fin ref)) (Some (Fin iso)) ANone CNone PNone eq_refl x L Hcl) as (s & t & p & d & Hh & Hd & E).
    exists s, t, p, (at_pos sh x), d. split; [exact Hh|]. split; [|split; assumption].
    intros fuel Hfu. apply E. apply Ex. apply casts_fuel. exact Hfu.
  Qed.
  Lemma anomaly_isovalue s0 t0 iso : dS (seas zp) s0 -> dT (seas zp) t0 ->
    exists s t p x d, holds S T s1 s2 s t p x
      /\ (forall fuel, fueled fuel -> anomaly_surf junk fuel S T P index (args (RPair (Some (Fin s0)) (Some (Fin t0))) (Some (Fin iso)) ANone PNone)
            = Ok (s, t, p, mkIsoDiags (RPair (Some (Fin s0)) (Some (Fin t0))) (Fin iso) d))
      /\ (forall h, valid sh h -> surface_point rel (anomaly_of (at_depth zp v) s0 t0 iso) tol (c h) (x h))
      /\ diagnosed zp v diags sh edges dist distperp x d.
  Proof.
    intros Hs Ht. destruct surf_common as (f & ppc & Hi & Hf & H).
    destruct (anomaly_unpinned ppc rel Hi tol Htol (seas zp) f _ Hf n casts casts_any casts_in s0 t0 iso CNone Hs Ht eq_refl) as (x & Ex & HF).
    destruct (surface_list _ _ HF) as (L & Hcl & HX).
    destruct (H (RPair (Some (Fin s0)) (Some (Fin t0))) (Some (Fin iso)) ANone CNone PNone eq_refl x L Hcl) as (s & t & p & d & Hh & Hd & E).
    exists s, t, p, (at_pos sh x), d. split; [exact Hh|]. split; [|split; assumption].
    intros fuel Hfu. apply E. apply Ex. apply casts_fuel. exact Hfu.
  Qed.

  (** ** a pinning point *)
  Lemma pin_tuple pin h0 : pins S (length s1) index pin sh h0 -> exists t, pin_of pin S index = Ok (CTuple t) /\ indexes sh h0 t.
  Proof.
    intros (t & Ht & Hi). exists t. split; [|exact Hi]. destruct Ht as [t|z|d d1 nm d2 Hd Hl Hm Hinc Hs|Hd]; [reflexivity|reflexivity| |reflexivity].
    unfold pin_of. rewrite Hd. assert (HN : NoDup (d1 ++ d2)).
    { destruct Hw as [_ _ _ [[HL _] _] _ _]. destruct (HL _ Hd) as [HN _]. exact (NoDup_remove_1 _ _ _ HN). }
    rewrite (process_pin_cast_ordered (d1 ++ d2) index d h0 HN Hm Hinc Hs). destruct d as [|q d]; reflexivity.
  Qed.
  Lemma indexes_valid : forall sh0 h t, indexes sh0 h t -> valid sh0 h.
  Proof.
    induction sh0 as [|m sh0 IH]; intros [|i h] [|z t]; cbn; intros H; try contradiction; constructor; [apply H|]. eapply IH. apply H.
  Qed.

  Lemma indexes_unique : forall sh0 h h' t, indexes sh0 h t -> indexes sh0 h' t -> h = h'.
  Proof.
    induction sh0 as [|m sh0 IH]; intros [|i h] [|i' h'] [|z t]; cbn; intros H H'; try contradiction; [reflexivity|].
    f_equal; [lia|]. eapply IH; [apply H|apply H'].
  Qed.

  Lemma pinned_point h0 t pp gS gT : indexes sh h0 t -> pinned_at rel casts t (ravel sh h0) pp gS gT ->
    exists lo hi, profile rel (c h0) gS gT lo hi /\ lo <= pp <= hi.
  Proof.
    intros Ht (ix & cc & lo & hi & Hix & _ & Hn & Hp & Hr). cbn [shape build] in Hix.
    rewrite (indexes_unique _ _ _ _ Ht Hix) in *. rewrite (casts_nth ix (indexes_valid _ _ _ Hix)) in Hn. injection Hn as <-. exists lo, hi. auto.
  Qed.

  Lemma ravel_inj h h' : valid sh h -> valid sh h' -> ravel sh h = ravel sh h' -> h = h'.
  Proof.
    intros V V' E. pose proof (nth_error_all_idx sh h V) as A. rewrite E, (nth_error_all_idx sh h' V') in A. congruence.
  Qed.

  Lemma pinned_list H x h0 gS gT pp : valid sh h0 -> length x = length (elems casts) ->
    nth_error x (ravel sh h0) = Some (Fin (gS pp), Fin (gT pp), Fin pp) ->
    (exists lo hi, profile rel (c h0) gS gT lo hi /\ lo <= pp <= hi) ->
    (forall m cc r, m <> ravel sh h0 -> nth_error (elems casts) m = Some cc -> nth_error x m = Some r -> surface_point rel H tol cc r) ->
    length x = prod sh /\ Forall (clean (seas zp)) x /\ at_pos sh x h0 = (Fin (gS pp), Fin (gT pp), Fin pp)
    /\ forall h, valid sh h -> h <> h0 -> surface_point rel H tol (c h) (at_pos sh x h).
  Proof.
    intros V0 L Hn (lo & hi & Hpr & Hpp) HX. rewrite casts_length in L.
    assert (E0 : at_pos sh x h0 = (Fin (gS pp), Fin (gT pp), Fin pp)).
    { pose proof (at_pos_nth sh x h0 L V0) as E. rewrite Hn in E. congruence. }
    assert (HS : forall h, valid sh h -> h <> h0 -> surface_point rel H tol (c h) (at_pos sh x h)).
    { intros h V N. apply (HX (ravel sh h)); [|apply casts_nth; exact V|apply at_pos_nth; assumption]. intros E. apply N. apply ravel_inj; assumption. }
    split; [exact L|]. split; [|split; assumption]. apply Forall_forall. intros b Hb. apply In_nth_error in Hb. destruct Hb as [i Hi].
    pose proof (nth_error_lt _ _ _ Hi) as Hlt. rewrite L in Hlt. destruct (ravel_surj sh i Hlt) as (h & V & <-).
    rewrite (at_pos_nth sh x h L V) in Hi. injection Hi as <-.
    destruct (list_eq_dec Nat.eq_dec h h0) as [-> |N]; [|eapply surface_clean; [apply Hc; exact V|apply HS; assumption]].
    rewrite E0. left. exists (gS pp), (gT pp), pp. split; [reflexivity|].
    apply (profile_in (seas zp) rel (c h0) gS gT lo hi); trivial. apply Hc; exact V.
  Qed.

  Lemma pin_casts h0 t pp : indexes sh h0 t -> has_pressure (c h0) pp -> pin_ok casts t (ravel sh h0) pp.
  Proof.
    intros Ht (k & K & ss & ts & ps & Hk & HK & Hp). exists h0, (c h0), k, K, ss, ts, ps. cbn [shape build].
    split; [exact Ht|]. split; [reflexivity|]. split; [apply casts_nth; eapply indexes_valid; exact Ht|]. auto.
  Qed.

  Lemma potential_pin pin h0 pp (ref iso : option R) : pins S (length s1) index pin sh h0 -> has_pressure (c h0) pp -> (ref = None -> iso = None) ->
    (forall r, ref = Some r -> dP (seas zp) r) ->
    exists s t p x d gS gT lo hi, let rv := match ref with Some r => r | None => pp end in
      let iv := match iso with Some i => i | None => at_depth zp v (gS pp) (gT pp) rv end in
      holds S T s1 s2 s t p x
      /\ (forall fuel, fueled fuel -> potential_surf junk fuel S T P index
            (args (match ref with Some r => RFloat (Fin r) | None => RNone end) (option_map Fin iso) pin (PFloat (Fin pp)))
            = Ok (s, t, p, mkIsoDiags (RFloat (Fin rv)) (Fin iv) d))
      /\ profile rel (c h0) gS gT lo hi /\ lo <= pp <= hi /\ x h0 = (Fin (gS pp), Fin (gT pp), Fin pp)
      /\ (forall h, valid sh h -> h <> h0 -> surface_point rel (potential_of (at_depth zp v) rv iv) tol (c h) (x h))
      /\ diagnosed zp v diags sh edges dist distperp x d.
  Proof.
    intros Hp Hpp Hri Hr. destruct (pin_tuple pin h0 Hp) as (tt & Et & Ht). destruct surf_common as (f & ppc & Hi & Hf & H).
    destruct (potential_pinned ppc rel Hi tol Htol (seas zp) f _ Hf n casts casts_any casts_in ref iso tt (ravel sh h0) pp Hri Hr (pin_casts _ _ _ Ht Hpp))
      as (gS & gT & x & rv & iv & Hpin & Ex & -> & -> & Hx0 & L & HX).
    pose proof (pinned_point h0 tt pp gS gT Ht Hpin) as (lo & hi & Hpr & Hin).
    destruct (pinned_list _ x h0 gS gT pp (indexes_valid _ _ _ Ht) L Hx0 (ex_intro _ lo (ex_intro _ hi (conj Hpr Hin))) HX) as (L' & Hcl & E0 & HS).
    destruct (H (match ref with Some r => RFloat (Fin r) | None => RNone end) (option_map Fin iso) pin (CTuple tt) (PFloat (Fin pp)) Et x L' Hcl)
      as (s & t & p & d & Hh & Hd & E).
    exists s, t, p, (at_pos sh x), d, gS, gT, lo, hi. cbv zeta. split; [exact Hh|]. split; [|auto].
    intros fuel Hfu. apply E. specialize (Ex fuel (casts_fuel _ Hfu)). destruct iso; exact Ex.
  Qed.

  Lemma anomaly_pin pin h0 pp (ref : option (R * R)) (iso : option R) : pins S (length s1) index pin sh h0 -> has_pressure (c h0) pp -> (ref = None -> iso = None) ->
    (forall r, ref = Some r -> dS (seas zp) (fst r) /\ dT (seas zp) (snd r)) ->
    exists s t p x d gS gT lo hi, let rv := match ref with Some r => r | None => (gS pp, gT pp) end in
      let iv := match iso with Some i => i | None => at_depth zp v (gS pp) (gT pp) pp - at_depth zp v (fst rv) (snd rv) pp end in
      holds S T s1 s2 s t p x
      /\ (forall fuel, fueled fuel -> anomaly_surf junk fuel S T P index
            (args (match ref with Some r => RPair (Some (Fin (fst r))) (Some (Fin (snd r))) | None => RNone end) (option_map Fin iso) pin (PFloat (Fin pp)))
            = Ok (s, t, p, mkIsoDiags (RPair (Some (Fin (fst rv))) (Some (Fin (snd rv)))) (Fin iv) d))
      /\ profile rel (c h0) gS gT lo hi /\ lo <= pp <= hi /\ x h0 = (Fin (gS pp), Fin (gT pp), Fin pp)
      /\ (forall h, valid sh h -> h <> h0 -> surface_point rel (anomaly_of (at_depth zp v) (fst rv) (snd rv) iv) tol (c h) (x h))
      /\ diagnosed zp v diags sh edges dist distperp x d.
  Proof.
    intros Hp Hpp Hri Hr. destruct (pin_tuple pin h0 Hp) as (tt & Et & Ht). destruct surf_common as (f & ppc & Hi & Hf & H).
    destruct (anomaly_pinned ppc rel Hi tol Htol (seas zp) f _ Hf n casts casts_any casts_in ref iso tt (ravel sh h0) pp Hri Hr (pin_casts _ _ _ Ht Hpp))
      as (gS & gT & x & s0 & t0 & iv & Hpin & Ex & Erv & -> & Hx0 & L & HX).
    pose proof (pinned_point h0 tt pp gS gT Ht Hpin) as (lo & hi & Hpr & Hin).
    destruct (pinned_list _ x h0 gS gT pp (indexes_valid _ _ _ Ht) L Hx0 (ex_intro _ lo (ex_intro _ hi (conj Hpr Hin))) HX) as (L' & Hcl & E0 & HS).
    destruct (H (match ref with Some r => RPair (Some (Fin (fst r))) (Some (Fin (snd r))) | None => RNone end) (option_map Fin iso) pin (CTuple tt) (PFloat (Fin pp)) Et x L' Hcl)
      as (s & t & p & d & Hh & Hd & E).
    exists s, t, p, (at_pos sh x), d, gS, gT, lo, hi. rewrite <- Erv. cbn [fst snd]. cbv zeta. split; [exact Hh|]. split; [|auto].
    intros fuel Hfu. apply E. specialize (Ex fuel (casts_fuel _ Hfu)). destruct iso; exact Ex.
  Qed.

  (** ** the grid must have edges, and distances *)
  Lemma no_grid a ref iso pin pin' pin_p fuel : diags = true -> (forall e gd gp, grid <> M_ntp.GDict (Some e) gd gp) -> pin_of pin S index = Ok pin' ->
    isopycnal_surf junk fuel a S T P index (args ref iso pin pin_p) = Err ValueError.
  Proof.
    intros Ed Hg Hpin. destruct (process_named name v grav rho_c zp diags Hname Hzp) as (f & g & vs & vt & Ee & _).
    destruct (coeffs_named interp rel junk Hinterp) as (ppc & Ep & _). pose proof Hw as [[WS SS] [WT ST] Hn [[Hv _] Hv'] _ _].
    destruct (xr_in_out vd S s1 n s2 SS Hn Hv) as (sx & Es & _). destruct (xr_in_out vd T s1 n s2 ST Hn Hv') as (tx & Et & _).
    destruct (columns_ok S T P _ s1 n s2 c Hw) as (stp & Ec & _).
    unfold isopycnal_surf. cbn [k_interp k_vert_dim k_pin_cast k_eos k_grav k_rho_c k_diags k_grid args]. rewrite Ep. cbn [bind]. unfold xrs_in. rewrite Es. cbn [bind].
    rewrite Et. cbn [bind]. rewrite Hpin. cbn [bind]. rewrite Ec. cbn [bind]. rewrite Ee. cbn [bind]. rewrite Ed. rewrite (no_edges_key _ Hg). reflexivity.
  Qed.
End Named.

Lemma no_distances name v grav rho_c zp interp rel tol S T P vd s1 n s2 c edges gd gp index junk ref iso :
  named_eos name v -> pressure_factor grav rho_c zp -> named_interp interp rel -> 0 < tol -> water_columns S T P vd s1 n s2 c ->
  (forall h, valid (s1 ++ s2) h -> any_cast (c h) /\ cast_in (seas zp) (c h)) ->
  Forall (fun e => (fst e < prod (s1 ++ s2))%nat /\ (snd e < prod (s1 ++ s2))%nat) edges ->
  gd = None \/ gp = None -> dP (seas zp) ref ->
  forall fuel, (forall h, valid (s1 ++ s2) h -> enough_fuel fuel tol (c h)) ->
  potential_surf junk fuel S T P index
    (args name grav rho_c interp tol vd true (GDict (Some edges) gd gp) (RFloat (Fin ref)) (Some (Fin iso)) ANone PNone) = Err KeyError.
Proof.
  intros Hname Hzp Hinterp Htol Hw Hc He Hgd Hr fuel Hfu.
  destruct (process_named name v grav rho_c zp true Hname Hzp) as (f & g & vs & vt & Ee & Hf & Hg).
  destruct (coeffs_named interp rel junk Hinterp) as (ppc & Ep & Hi). pose proof Hw as [[WS SS] [WT ST] Hn [[Hv _] Hv'] _ _].
  destruct (xr_in_out vd S s1 n s2 SS Hn Hv) as (sx & Es & _). destruct (xr_in_out vd T s1 n s2 ST Hn Hv') as (tx & Et & _).
  destruct (columns_ok S T P _ s1 n s2 c Hw) as (stp & Ec & Eco).
  destruct (potential_unpinned (ppc_named junk ppc) rel Hi tol Htol (seas zp) f _ (g_on _ _ _ Hf) n (build (s1 ++ s2) c)
    (casts_any zp s1 s2 c Hc) (casts_in zp s1 s2 c Hc) ref iso CNone Hr eq_refl) as (x & Ex & HF).
  destruct (surface_list zp rel tol s1 s2 c Hc _ _ HF) as (L & Hcl & _).
  unfold potential_surf, isopycnal_surf, args. cbn [k_interp k_vert_dim k_pin_cast k_eos k_grav k_rho_c k_diags k_grid k_ref k_isoval k_pin_p k_tol].
  rewrite Ep. cbn [bind]. unfold xrs_in. rewrite Es. cbn [bind].
  rewrite Et. cbn [bind pin_of]. rewrite Ec. cbn [bind]. rewrite Ee. cbn [bind andb has_edges negb fst snd]. rewrite Eco. cbn [bind].
  unfold one_value, vectorized. rewrite Ex by (apply (casts_fuel tol s1 s2 c); exact Hfu). cbn [bind two_values].
  rewrite Forall_forall in He, Hcl.
  assert (Hb : forall b, In b x -> bottle_in (seas zp) b \/ missing b).
  { intros b Hb. destruct (Hcl b Hb) as [H|H]; [left; exact H|right]. destruct b as [[s t] p]. destruct H as [H|H]; cbn in H; subst; unfold missing; auto. }
  destruct (errors_correct g (seas zp) vs vt x edges (prod (s1 ++ s2)) None (repeat 1 (length edges)) None (gs_on _ _ _ _ _ Hg) (gs_nan _ _ _ _ _ Hg) Hb L
    (fun a b Hab => He _ Hab) eq_refl) as (e & Ee' & _).
  unfold ntp_epsilon_errors_norms, ntp_epsilon_errors_norms_by. cbn [key bind]. rewrite Ee'. cbn [bind].
  destruct gd as [gd|]; [|reflexivity]. destruct Hgd as [Hgd|Hgd]; [discriminate|]. subst gp. reflexivity.
Qed.

Lemma named_root name v zp rel H tol c r : named_eos name v -> 0 < tol -> cast_in (seas zp) c -> surface_point rel H tol c r ->
  (exists ref iso, dP (seas zp) ref /\ H = potential_of (at_depth zp v) ref iso)
  \/ (exists s0 t0 iso, dS (seas zp) s0 /\ dT (seas zp) t0 /\ H = anomaly_of (at_depth zp v) s0 t0 iso) ->
  r = (NaN, NaN, NaN) \/ exists gS gT lo hi p q, profile rel c gS gT lo hi /\ r = (Fin (gS p), Fin (gT p), Fin p)
    /\ lo <= p <= hi /\ lo <= q <= hi /\ H (gS q) (gT q) q = 0 /\ Rabs (p - q) <= brent_tol p tol.
Proof.
  intros Hn Ht Hc Hp HH. apply (surface_root (seas zp) rel H tol c r Ht); trivial.
  destruct (named_ok name v (Some (Fin (zp * 10000))) (Some (Fin 1)) zp Hn) as (f & _ & Hf).
  { right. exists (zp * 10000), 1. split; [reflexivity|]. split; [reflexivity|]. field. }
  destruct HH as [(ref & iso & Hr & ->)|(s0 & t0 & iso & Hs & Ht' & ->)].
  - apply continuous_potential; [exact Hr|apply (g_cont _ _ _ Hf)].
  - apply continuous_anomaly; [exact Hs|exact Ht'|apply (g_cont _ _ _ Hf)].
Qed.
