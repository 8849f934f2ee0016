(** * Choosing an equation of state: proofs *)
From Coq Require Import String ZArith Reals Lra List.
From Verif Require Import Num XR Res M_eos_base M_jmd95 M_jmdfwg06 M_gsw M_eostools S_eos S_eostools
  P_eos P_jmd95 P_jmdfwg06 P_gsw P_gsw3 P_eosx P_eosocean P_eosocean2.
Import ListNotations.
Open Scope R_scope.

(** ** Any arithmetic *)
Section ANY.
  Context {F : Type} {Nm : Num F}.
  Variable dv : F -> F -> res F.

  Lemma make_plain : forall e d n (grav rho_c : option F), grav = None \/ rho_c = None ->
    _make_eos dv e d n grav rho_c = _make_eos dv e d n None None.
  Proof.
    intros e d n grav rho_c H. unfold _make_eos.
    destruct (match e with AStr _ => _ | AFun _ => _ | _ => _ end) as [f|]; [|reflexivity]. cbn [bind].
    destruct H as [-> | ->]; [reflexivity|]. destruct grav; reflexivity.
  Qed.

  Lemma make_function : forall f d n, _make_eos dv (AFun f) d n None None = Ok f.
  Proof. reflexivity. Qed.

  Lemma make_both : forall e d n g r,
    _make_eos dv e d n (Some g) (Some r) =
    match _make_eos dv e d n None None with Ok f => Ok (make_bsq f g r n) | Err x => Err x end.
  Proof.
    intros e d n g r. unfold _make_eos.
    destruct (match e with AStr _ => _ | AFun _ => _ | _ => _ end) as [f|]; reflexivity.
  Qed.
End ANY.

Lemma choice : forall (F : Type) (Nm : Num F) (dv : F -> F -> res F) e,
  (forall grav rho_c, grav = None \/ rho_c = None ->
     make_eos dv e grav rho_c = make_eos dv e None None /\
     make_eos_s_t dv e grav rho_c = make_eos_s_t dv e None None /\
     make_eos_p dv e grav rho_c = make_eos_p dv e None None) /\
  (forall f, e = AFun f ->
     make_eos dv e None None = Ok f /\ make_eos_s_t dv e None None = Ok f /\ make_eos_p dv e None None = Ok f) /\
  (forall g r, let k := mul (mul (lit 1 (-4)) g) r in
     (forall f, make_eos dv e None None = Ok (F1 f) -> exists f', make_eos dv e (Some g) (Some r) = Ok (F1 f') /\
        forall s t z, f' s t z = f s t (mul z k)) /\
     (forall f, make_eos_s_t dv e None None = Ok (F2 f) -> exists f', make_eos_s_t dv e (Some g) (Some r) = Ok (F2 f') /\
        forall s t z, f' s t z = f s t (mul z k)) /\
     (forall f, make_eos_p dv e None None = Ok (F1 f) -> exists f', make_eos_p dv e (Some g) (Some r) = Ok (F1 f') /\
        forall s t z, f' s t z = match f s t (mul z k) with Ok v => Ok (mul v k) | Err x => Err x end)) /\
  (forall grav rho_c,
     (forall name, e = AStr name -> ~ In name ["gsw"; "jmd95"; "jmdfwg06"]%string ->
        make_eos dv e grav rho_c = Err ValueError /\ make_eos_s_t dv e grav rho_c = Err ValueError /\
        make_eos_p dv e grav rho_c = Err ValueError) /\
     (e = AOther \/ (exists l, e = ATup l) ->
        make_eos dv e grav rho_c = Err TypeError /\ make_eos_s_t dv e grav rho_c = Err TypeError /\
        make_eos_p dv e grav rho_c = Err TypeError)).
Proof.
  intros F Nm dv e. repeat apply conj.
  - intros grav rho_c H. unfold make_eos, make_eos_s_t, make_eos_p.
    repeat split; apply make_plain; exact H.
  - intros f ->. repeat split; reflexivity.
  - intros g r k. unfold make_eos, make_eos_s_t, make_eos_p. repeat split; intros f H; rewrite make_both, H;
      eexists; (split; [reflexivity|]); intros s t z; try reflexivity.
  - intros grav rho_c. split.
    + intros name -> H.
      assert (E : lookup name modules = None).
      { unfold lookup, modules.
        repeat match goal with |- context [String.eqb name ?k] => destruct (String.eqb_spec name k); [subst; exfalso; apply H; cbn; tauto|] end.
        reflexivity. }
      unfold make_eos, make_eos_s_t, make_eos_p, _make_eos. rewrite E. repeat split; reflexivity.
    + intros [-> | [l ->]]; repeat split; reflexivity.
Qed.

(** ** Chain rule *)
Lemma Rlit_k : forall g r z, z * (Rlit 1 (-4) * g * r) = hydrostatic g r z.
Proof. intros. rewrite Rlit_dec. change (dec 1 (-4)) with pf. rewrite pf_val. unfold hydrostatic. field. Qed.

Lemma bsq_diff_s : forall f g r s t z l, diff_s f s t (hydrostatic g r z) l -> diff_s (at_depth f g r) s t z l.
Proof. intros f g r s t z l H. exact H. Qed.
Lemma bsq_diff_t : forall f g r s t z l, diff_t f s t (hydrostatic g r z) l -> diff_t (at_depth f g r) s t z l.
Proof. intros f g r s t z l H. exact H. Qed.
Lemma bsq_diff_p : forall f g r s t z l, diff_p f s t (hydrostatic g r z) l ->
  diff_p (at_depth f g r) s t z (l * (Rlit 1 (-4) * g * r)).
Proof.
  intros f g r s t z l H. unfold diff_p, at_depth in *.
  eapply lim_eq.
  - apply (lim_comp (hydrostatic g r) (fun p => f s t p)); [|exact H].
    apply (lim_ext (fun z => (Rlit 1 (-4) * g * r) * z)); [intro y; rewrite <- Rlit_k; ring|].
    apply lim_scal. apply lim_id.
  - ring.
Qed.

Lemma chain : forall (dv : R -> R -> res R) e (f : R -> R -> R -> R) g r s t z, let p := hydrostatic g r z in
  (forall h, make_eos dv e None None = Ok (F1 h) -> h s t p = Ok (f s t p) ->
     exists h', make_eos dv e (Some g) (Some r) = Ok (F1 h') /\ h' s t z = Ok (at_depth f g r s t z)) /\
  (forall h rs rt, make_eos_s_t dv e None None = Ok (F2 h) -> h s t p = Ok (rs, rt) ->
     diff_s f s t p rs -> diff_t f s t p rt ->
     exists h', make_eos_s_t dv e (Some g) (Some r) = Ok (F2 h') /\ exists bs bt, h' s t z = Ok (bs, bt) /\
       diff_s (at_depth f g r) s t z bs /\ diff_t (at_depth f g r) s t z bt) /\
  (forall h rp, make_eos_p dv e None None = Ok (F1 h) -> h s t p = Ok rp -> diff_p f s t p rp ->
     exists h', make_eos_p dv e (Some g) (Some r) = Ok (F1 h') /\ exists bp, h' s t z = Ok bp /\
       diff_p (at_depth f g r) s t z bp).
Proof.
  intros dv e f g r s t z p. unfold make_eos, make_eos_s_t, make_eos_p.
  split; [|split].
  - intros h E H. rewrite make_both, E. eexists. split; [reflexivity|]. cbn [mul lit RNum].
    rewrite Rlit_k. exact H.
  - intros h rs rt E H Hs Ht. rewrite make_both, E. eexists. split; [reflexivity|].
    exists rs, rt. cbn [mul lit RNum]. rewrite Rlit_k. auto.
  - intros h rp E H Hp. rewrite make_both, E. eexists. split; [reflexivity|].
    eexists. cbn [mul lit RNum fpow]. rewrite Rlit_k. fold p. rewrite H. cbn [bind].
    split; [reflexivity|]. apply bsq_diff_p. exact Hp.
Qed.

(** every named equation of state has the right functions *)
Lemma named_plain : forall dv : R -> R -> res R, dv = sdiv \/ dv = adiv ->
  forall name f dom, named name f dom ->
  exists h h2 h3, make_eos dv (AStr name) None None = Ok (F1 h) /\
    make_eos_s_t dv (AStr name) None None = Ok (F2 h2) /\
    make_eos_p dv (AStr name) None None = Ok (F1 h3) /\
    forall s t p, dom s t p -> h s t p = Ok (f s t p) /\
      (exists rp, h3 s t p = Ok rp /\ diff_p f s t p rp) /\
      (0 < s -> exists rs rt, h2 s t p = Ok (rs, rt) /\ diff_s f s t p rs /\ diff_t f s t p rt).
Proof.
  intros dv Hdv name f dom [(-> & -> & ->)|[(-> & -> & ->)|(-> & -> & ->)]].
  - do 3 eexists. repeat (split; [reflexivity|]). exact (jm_all dv Hdv).
  - do 3 eexists. repeat (split; [reflexivity|]). exact (jf_all dv Hdv).
  - do 3 eexists. repeat (split; [reflexivity|]). intros s t p _.
    pose proof (division_ok dv Hdv) as Hd.
    split; [|split].
    + rewrite <- teos_d_0. apply specvol_d.
    + exists (teos_d 0 0 1 s t p). split; [apply p_d|]. unfold diff_p.
      apply (lim_ext (fun p' => teos_d 0 0 0 s t p')); [intro; apply teos_d_0|]. apply teos_diff_p.
    + intro Hs. exists (teos_d 1 0 0 s t p), (teos_d 0 1 0 s t p). split; [apply s_t_d; exact Hd|]. split.
      * unfold diff_s. apply (lim_ext (fun s' => teos_d 0 0 0 s' t p)); [intro; apply teos_d_0|].
        apply teos_diff_s; [auto with arith|exact Hs].
      * unfold diff_t. apply (lim_ext (fun t' => teos_d 0 0 0 s t' p)); [intro; apply teos_d_0|].
        apply teos_diff_t.
Qed.

Lemma named_bsq : forall dv : R -> R -> res R, dv = sdiv \/ dv = adiv ->
  forall name f dom g r, named name f dom ->
  exists h h2 h3, make_eos dv (AStr name) (Some g) (Some r) = Ok (F1 h) /\
    make_eos_s_t dv (AStr name) (Some g) (Some r) = Ok (F2 h2) /\
    make_eos_p dv (AStr name) (Some g) (Some r) = Ok (F1 h3) /\
    forall s t z, dom s t (hydrostatic g r z) -> h s t z = Ok (at_depth f g r s t z) /\
      (exists rz, h3 s t z = Ok rz /\ diff_p (at_depth f g r) s t z rz) /\
      (0 < s -> exists rs rt, h2 s t z = Ok (rs, rt) /\
         diff_s (at_depth f g r) s t z rs /\ diff_t (at_depth f g r) s t z rt).
Proof.
  intros dv Hdv name f dom g r Hn.
  destruct (named_plain dv Hdv name f dom Hn) as (h & h2 & h3 & E & E2 & E3 & H).
  unfold make_eos, make_eos_s_t, make_eos_p in *. rewrite !make_both, E, E2, E3.
  do 3 eexists. repeat (split; [reflexivity|]). intros s t z Hd. cbn [mul lit RNum fpow]. rewrite !Rlit_k.
  destruct (H _ _ _ Hd) as (H1 & (rp & H2 & H2') & H3). split; [exact H1|split].
  - eexists. rewrite H2. split; [reflexivity|]. apply bsq_diff_p. exact H2'.
  - intro Hs. destruct (H3 Hs) as (rs & rt & Hr). exists rs, rt. exact Hr.
Qed.

(** ** _process_eos *)
Lemma process : forall (F : Type) (Nm : Num F) (dv : F -> F -> res F) grav rho_c,
  (forall name,
     _process_eos dv (AStr name) grav rho_c false =
       (match make_eos dv (AStr name) grav rho_c with Ok f => Ok (f, None) | Err x => Err x end) /\
     forall f g, _process_eos dv (AStr name) grav rho_c true = Ok (f, g) <->
       make_eos dv (AStr name) grav rho_c = Ok f /\
       exists g', make_eos_s_t dv (AStr name) grav rho_c = Ok g' /\ g = Some g') /\
  (forall f g rest,
     _process_eos dv (AFun f) grav rho_c false = Ok (f, None) /\
     _process_eos dv (ATup (AFun f :: rest)) grav rho_c false = Ok (f, None) /\
     _process_eos dv (ATup [AFun f; AFun g]) grav rho_c true = Ok (f, Some g) /\
     _process_eos dv (AFun f) grav rho_c true = Err ValueError) /\
  (forall e f g, _process_eos dv e grav rho_c true = Ok (f, g) -> exists g', g = Some g').
Proof.
  intros F Nm dv grav rho_c. repeat apply conj.
  - intro name. split.
    + unfold _process_eos. destruct (make_eos dv (AStr name) grav rho_c); reflexivity.
    + intros f g. unfold _process_eos.
      destruct (make_eos_s_t dv (AStr name) grav rho_c) as [f2|x2]; cbn [bind].
      * destruct (make_eos dv (AStr name) grav rho_c) as [f1|x1]; cbn [bind].
        -- split.
           ++ intro H. injection H as <- <-. split; [reflexivity|]. exists f2. split; reflexivity.
           ++ intros (H1 & g' & H2 & ->). injection H1 as <-. injection H2 as <-. reflexivity.
        -- split; [discriminate|]. intros (H1 & _). discriminate.
      * split; [discriminate|]. intros (_ & g' & H2 & _). discriminate.
  - intros f g rest. repeat split; reflexivity.
  - intros e f g H. unfold _process_eos in H. destruct e as [name|h|l|].
    + destruct (make_eos_s_t dv (AStr name) grav rho_c); [|discriminate]. cbn [bind] in H.
      destruct (make_eos dv (AStr name) grav rho_c); [|discriminate]. cbn [bind] in H.
      injection H as <- <-. eauto.
    + discriminate.
    + destruct l as [|a [|b [|c l]]]; try discriminate.
      * destruct a, b; try discriminate. injection H as <- <-. eauto.
    + discriminate.
Qed.

(** a function made for depth is converted again by make_eos, but not by _process_eos *)
Lemma made_twice : exists (g r : R) f s t z v v',
  make_eos sdiv (AStr "gsw") (Some g) (Some r) = Ok (F1 f) /\ f s t z = Ok v /\
  _process_eos sdiv (AFun (F1 f)) (Some g) (Some r) false = Ok (F1 f, None) /\
  exists f', make_eos sdiv (AFun (F1 f)) (Some g) (Some r) = Ok (F1 f') /\ f' s t z = Ok v' /\ v' <> v.
Proof.
  exists 5, 1000. eexists. exists 35, 10, 100, (teos_d 0 0 0 35 10 50), (teos_d 0 0 0 35 10 25).
  split; [reflexivity|]. split.
  { cbn [mul lit RNum]. rewrite Rlit_k. unfold hydrostatic. rewrite specvol_d. do 2 f_equal. lra. }
  split; [reflexivity|]. eexists. split; [reflexivity|]. split.
  { cbn [mul lit RNum]. rewrite !Rlit_k. unfold hydrostatic. rewrite specvol_d. do 2 f_equal. lra. }
  intro E.
  assert (H : teos_d 0 0 0 35 10 50 < teos_d 0 0 0 35 10 25).
  { apply (proj1 teos_mono 35 10 25 50); try apply specvol_d; try (repeat split; lra); lra. }
  lra.
Qed.
