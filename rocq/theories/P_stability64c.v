(** * Static stability in binary64: stabilising arrays *)
From Coq Require Import String ZArith Bool Reals Lra Lia List SpecFloat.
From Verif Require Import Num XR SF Res Arr ArrLemmas Nd NdLemmas M_lib M_eostools M_mixed_layer M_stability S_lib S_eos S_float S_domain S_named
  S_vertsolve S_vert64 S_entry64 S_mixed_layer S_surfaces S_stability S_stability64 P_float P_holds P_entry64 P_lib P_casts P_mixed_layer2 P_surfaces
  P_ml64c P_stability P_stability64 P_stability64b.
From Verif Require P_stability2 P_stability3.
Import ListNotations.
Local Open Scope R_scope.

Lemma grad_named name v s0 d grav rho_c zp pm : named_eos name v -> grad64 name s0 d -> coordinate64 grav rho_c zp pm ->
  exists f d', make_eos sdiv (AStr name) grav rho_c = Ok (F1 f) /\ density64 f (sea s0 pm) (at_depth zp v) d' /\ 0 <= d' <= / 100 /\ 2 * d' + 2 * dec 1 (-12) <= d.
Proof.
  intros Hn Hg Hco. assert (Hp : exists d0, pair64 name s0 d0 /\ d0 + 2 * dec 1 (-12) = d /\ d0 <= / 100).
  { inversion Hg; subst.
    - exists (dec 6 (-12)). split; [constructor|]. unfold dec; simpl; lra.
    - exists (dec 18 (-12)). split; [constructor|]. unfold dec; simpl; lra. }
  destruct Hp as (d0 & Hp & E & Hd0). destruct (density_named name v s0 d0 grav rho_c zp pm Hn Hp Hco) as (f & d' & Ef & Hf & H0 & H1).
  exists f, d'. split; [exact Ef|]. split; [exact Hf|]. lra.
Qed.

Lemma missing64 (minimize : (f64 -> list f64 -> f64) -> list f64 -> f64 -> (f64 -> list f64 -> list f64) -> (list f64 -> res (list f64)) -> res (bool * list f64))
  f w x0 md (S T P : list f64) S' : holds_all S S' -> all_missing S' -> stabilize_1 minimize f w x0 md (S, T, P) = Ok (S, T).
Proof.
  intros HS H. destruct (P_stability2.missing_range S' H) as (k & K & E & Es). unfold stabilize_1. rewrite (holds_valid_range _ _ HS), E. cbn [bind].
  assert (L : length (slice S k K) = 0%nat) by (pose proof (f_equal (@length xr) Es) as L; pose proof (holds_length _ _ HS); unfold slice in *; rewrite firstn_length, skipn_length in *; cbn [length] in L; lia). rewrite L. reflexivity.
Qed.

Lemma stabilize64 : forall name rho s0 d grav rho_c zp pm, named_eos name rho -> grad64 name s0 d -> coordinate64 grav rho_c zp pm ->
  forall S T P v s1 n s2 c c', water_columns S T P v s1 n s2 c ->
  (forall h, valid (s1 ++ s2) h -> holds_column (c h) (c' h) /\ sea_column (sea s0 pm) (c' h)) ->
  forall f, make_eos sdiv (AStr name) grav rho_c = Ok (F1 f) ->
  forall minimize eps md m w normal, 0 <= eps -> feasible64 eps minimize -> thresholds64 md n m -> (forall n, length (normal n) = n) ->
  exists s' t' e j, stabilize_ST minimize S T P f md w v normal = Ok (s', t', e)
    /\ shape s' = s1 ++ s2 ++ [n] /\ shape t' = s1 ++ s2 ++ [n] /\ wf s' /\ wf t'
    /\ (e = None -> j = prod (s1 ++ s2))
    /\ (forall x, e = Some x -> exists h k K ss ts ps, valid (s1 ++ s2) h /\ ravel (s1 ++ s2) h = j
          /\ profile (fst (fst (c' h))) (snd (fst (c' h))) (snd (c' h)) k K ss ts ps
          /\ ~ stable (at_depth zp rho) (lower m 0 (- d) ps) k K ss ts ps
          /\ exists con, minimize objective (firstn (2 * (K - k)) (normal (2 * n)%nat)) w jac con = Err x
               \/ exists y, minimize objective (firstn (2 * (K - k)) (normal (2 * n)%nat)) w jac con = Ok (false, y) /\ x = RuntimeError)
    /\ forall h, valid (s1 ++ s2) h ->
         exists sn tn, cast_at (at_ s') n h [] sn /\ cast_at (at_ t') n h [] tn
           /\ ((ravel (s1 ++ s2) h < j)%nat -> stabilized64 (at_depth zp rho) (sea s0 pm) m eps d (c' h) (fst (fst (c h))) (snd (fst (c h))) sn tn)
           /\ ((j <= ravel (s1 ++ s2) h)%nat -> sn = fst (fst (c h)) /\ tn = snd (fst (c h))).
Proof.
  intros name rho s0 d grav rho_c zp pm Hnm Hg Hco S T P v s1 n s2 c c' Hw Hc f Ef minimize eps md m w normal He Hmin Hm Hnormal.
  destruct (grad_named name rho s0 d grav rho_c zp pm Hnm Hg Hco) as (f' & d' & Ef' & Hf & Hd0 & Hd).
  assert (f' = f) by congruence. subst f'.
  assert (HD : forall p, dP (sea s0 pm) p -> 0 <= p <= 10000).
  { intros p Hp. pose proof (coordinate_max _ _ _ _ Hco). cbn [sea box dP] in Hp. unfold upto in Hp. lra. }
  pose proof Hw as [[WS SS] [WT ST] Hn [Hv Hv'] [WP HP] Hcc].
  assert (SP : shape (arr P) = s1 ++ n :: s2 \/ shape (arr P) = [n]) by (destruct HP as [[E _]|[E _]]; [left|right]; exact E).
  destruct (casts_ready S T P v s1 s2 n WS WT WP SS ST SP (vertical_process _ _ _ Hv)) as (s & t & p & Ec & Es & Et & Ep & Hct).
  set (hs := s1 ++ s2) in *.
  assert (Hcol : forall h, valid hs h -> (M_mixed_layer.column s n h, M_mixed_layer.column t n h, M_mixed_layer.column p n h) = c h).
  { intros h V. unfold hs in V. apply valid_app_inv in V. destruct V as (h1 & h2 & -> & V1 & V2). destruct (Hct h1 h2 V1 V2) as (A & B & C).
    eapply cast_column; eassumption. }
  set (lm := match md with Scalar x => repeat x (n - 1) | Vector l => l end). destruct Hm as [Bm Hm].
  assert (Hl : length lm = (n - 1)%nat /\ forall i, (i < n - 1)%nat -> exists x, nth_error lm i = Some x /\ finite64 x /\ fval x = m i).
  { unfold lm. destruct md as [x|l]; [|exact Hm]. split; [apply repeat_length|].
    intros i Hi. rewrite nth_error_repeat_lt by exact Hi. exists x. destruct Hm as [Fx Vx]. rewrite (Vx i). auto. }
  set (tr := fun h => (M_mixed_layer.column s n h, M_mixed_layer.column t n h, M_mixed_layer.column p n h)).
  set (fn := stabilize_1 minimize f w (normal (2 * n)%nat) lm).
  assert (Etr : triples n s t p = map tr (all_idx hs)).
  { apply triples_map; rewrite ?Es, ?Et, ?Ep; apply hshape. }
  assert (HmdE : (match md with Scalar x => if Nat.eqb n 0 then Err ValueError else Ok (repeat x (n - 1)) | Vector l => Ok l end) = Ok lm).
  { unfold lm. destruct md; [|reflexivity]. destruct (Nat.eqb_spec n 0); [lia|reflexivity]. }
  unfold stabilize_ST. rewrite Ec. cbn [bind]. rewrite Es, Et, Ep.
  destruct (list_eq_dec Nat.eq_dec (s1 ++ s2 ++ [n]) (s1 ++ s2 ++ [n])) as [_|C]; [|congruence].
  rewrite rev_shape. rewrite HmdE. cbn [bind]. rewrite Etr. fold fn.
  destruct (stabilize_loop fn (map tr (all_idx hs))) as [l e] eqn:El.
  destruct (P_stability3.loop_spec fn _ l e El) as (Ll & j & Hj & Hj1 & Hj2 & Hj3 & Hj4). rewrite map_length, length_all_idx in Ll, Hj.
  assert (Lcol : forall (a : nd f64) h, length (M_mixed_layer.column a n h) = n) by (intros; unfold M_mixed_layer.column; rewrite map_length, seq_length; reflexivity).
  assert (Hidx : forall i, (i < prod hs)%nat -> exists h, nth_error (all_idx hs) i = Some h /\ valid hs h).
  { intros i Hi. destruct (nth_error (all_idx hs) i) as [h|] eqn:E; [|apply nth_error_None in E; rewrite length_all_idx in E; lia].
    exists h. split; [reflexivity|]. apply in_all_idx. eapply nth_error_In; eassumption. }
  assert (Hlen : forall st, In st l -> length (fst st) = n /\ length (snd st) = n).
  { intros st Hin. apply In_nth_error in Hin. destruct Hin as [i Hi]. pose proof (nth_error_lt _ _ _ Hi) as Hlt. rewrite Ll in Hlt.
    destruct (Hidx i Hlt) as (h & Eh & _). assert (Etri : nth_error (map tr (all_idx hs)) i = Some (tr h)) by (rewrite nth_error_map, Eh; reflexivity).
    destruct (Nat.lt_ge_cases i j) as [Hij|Hij].
    - destruct (Hj3 i _ Hij Etri) as (st' & A & B). rewrite Hi in A. injection A as <-. destruct st as [a b]. cbn [fst snd].
      destruct (keeps_lengths minimize f w (normal (2 * n)%nat) lm (M_mixed_layer.column s n h) (M_mixed_layer.column t n h) (M_mixed_layer.column p n h) a b) as [A B'];
        [rewrite !Lcol; reflexivity|exact B|]. rewrite Lcol in A, B'. auto.
    - rewrite (Hj4 i _ Hij Etri) in Hi. injection Hi as <-. cbn [tr fst snd]. auto. }
  destruct (P_stability3.concat_cast hs n (map fst l)) as [W1 C1]; [rewrite map_length; exact Ll|intros x Hin; apply in_map_iff in Hin; destruct Hin as (st & <- & Hin); apply Hlen; exact Hin|].
  destruct (P_stability3.concat_cast hs n (map snd l)) as [W2 C2]; [rewrite map_length; exact Ll|intros x Hin; apply in_map_iff in Hin; destruct Hin as (st & <- & Hin); apply Hlen; exact Hin|].
  assert (Ehs : s1 ++ s2 ++ [n] = hs ++ [n]) by (unfold hs; apply app_assoc).
  rewrite Ehs. exists (mk_nd (hs ++ [n]) (concat (map fst l))), (mk_nd (hs ++ [n]) (concat (map snd l))), e, j.
  split; [reflexivity|]. split; [reflexivity|]. split; [reflexivity|]. split; [exact W1|]. split; [exact W2|].
  split; [intros H; rewrite (Hj1 H), map_length, length_all_idx; reflexivity|].
  (* one cast *)
  assert (Step : forall h k K ss ts ps, valid hs h -> profile (fst (fst (c' h))) (snd (fst (c' h))) (snd (c' h)) k K ss ts ps ->
    waters (sea s0 pm) k K ss ts -> pressures (sea s0 pm) k K ps ->
    (forall Sn Tn, fn (tr h) = Ok (Sn, Tn) ->
       (stable (at_depth zp rho) (lower m 0 (- d) ps) k K ss ts ps -> Sn = fst (fst (c h)) /\ Tn = snd (fst (c h)))
       /\ (Sn = fst (fst (c h)) /\ Tn = snd (fst (c h)) /\ stable (at_depth zp rho) (lower m 0 d ps) k K ss ts ps
           \/ length Sn = length (fst (fst (c h))) /\ length Tn = length (snd (fst (c h)))
              /\ (forall i, (i < k \/ K <= i)%nat -> nth_error Sn i = nth_error (fst (fst (c h))) i /\ nth_error Tn i = nth_error (snd (fst (c h))) i)
              /\ forall ss' ts', holds_water Sn Tn k K ss' ts' -> waters (sea s0 pm) k K ss' ts' ->
                   stable (at_depth zp rho) (lower m ((1 + powerRZ 2 (-50)) * eps) d ps) k K ss' ts' ps))
    /\ (forall x, fn (tr h) = Err x -> ~ stable (at_depth zp rho) (lower m 0 (- d) ps) k K ss ts ps
         /\ exists con, minimize objective (firstn (2 * (K - k)) (normal (2 * n)%nat)) w jac con = Err x
              \/ exists y, minimize objective (firstn (2 * (K - k)) (normal (2 * n)%nat)) w jac con = Ok (false, y) /\ x = RuntimeError)).
  { intros h k K ss ts ps V Hp Hww Hpp. destruct (Hc h V) as [Hh _]. pose proof (Hcol h V) as Eh. rewrite <- Eh in *. unfold tr, fn. cbn [fst snd].
    assert (Q1 : length lm = (length (M_mixed_layer.column s n h) - 1)%nat) by (rewrite Lcol; apply Hl).
    assert (Q2 : forall i, (i < length (M_mixed_layer.column s n h) - 1)%nat -> exists x, nth_error lm i = Some x /\ finite64 x /\ fval x = m i) by (rewrite Lcol; apply Hl).
    assert (Q3 : length (normal (2 * n)%nat) = (2 * length (M_mixed_layer.column s n h))%nat) by (rewrite Hnormal, Lcol; reflexivity).
    exact (cast_step f _ _ d' d eps Hf Hd0 Hd HD He _ _ _ (c' h) Hh k K ss ts ps Hp Hww Hpp lm m Q1 Q2 Bm minimize w _ Hmin Q3). }
  assert (Mis : forall h, valid hs h -> all_missing (fst (fst (c' h))) -> fn (tr h) = Ok (fst (fst (c h)), snd (fst (c h)))).
  { intros h V Hmis. destruct (Hc h V) as [Hh _]. pose proof (Hcol h V) as Eh. rewrite <- Eh in *. cbn [fst snd]. destruct (c' h) as [[S' T'] P'], Hh as (HS & _).
    exact (missing64 minimize f w (normal (2 * n)%nat) lm _ _ _ S' HS Hmis). }
  split.
  - intros x Hx. destruct (Hj2 x Hx) as (c0 & Ecj & Efc). rewrite nth_error_map in Ecj.
    destruct (nth_error (all_idx hs) j) as [h|] eqn:Eh; [|discriminate]. injection Ecj as <-.
    assert (Hh : valid hs h) by (apply in_all_idx; eapply nth_error_In; eassumption).
    assert (Hr : ravel hs h = j).
    { apply (NoDup_nth_error (all_idx hs)); [apply NoDup_all_idx| |].
      - rewrite length_all_idx. apply ravel_lt. exact Hh.
      - rewrite nth_error_all_idx by exact Hh. symmetry. exact Eh. }
    destruct (Hc h Hh) as [_ [Hmis|(k & K & ss & ts & ps & Hp & Hww & Hpp)]].
    { exfalso. rewrite (Mis h Hh Hmis) in Efc. discriminate. }
    exists h, k, K, ss, ts, ps. split; [exact Hh|]. split; [exact Hr|]. split; [exact Hp|].
    exact (proj2 (Step h k K ss ts ps Hh Hp Hww Hpp) x Efc).
  - intros h Hh. pose proof (Hcol h Hh) as Eh.
    assert (Etri : nth_error (map tr (all_idx hs)) (ravel hs h) = Some (tr h)) by (rewrite nth_error_map, nth_error_all_idx by exact Hh; reflexivity).
    destruct (Nat.lt_ge_cases (ravel hs h) j) as [Hij|Hij].
    + destruct (Hj3 _ _ Hij Etri) as ([sn tn] & D & E). exists sn, tn.
      split; [apply C1; [exact Hh|rewrite nth_error_map, D; reflexivity]|]. split; [apply C2; [exact Hh|rewrite nth_error_map, D; reflexivity]|].
      split; [|intros; lia]. intros _. split.
      * intros Hmis. rewrite (Mis h Hh Hmis) in E. split; congruence.
      * intros k K ss ts ps Hp Hww Hpp. exact (proj1 (Step h k K ss ts ps Hh Hp Hww Hpp) sn tn E).
    + pose proof (Hj4 _ _ Hij Etri) as D. rewrite <- Eh. exists (M_mixed_layer.column s n h), (M_mixed_layer.column t n h).
      split; [apply C1; [exact Hh|rewrite nth_error_map, D; reflexivity]|]. split; [apply C2; [exact Hh|rewrite nth_error_map, D; reflexivity]|].
      split; [intros; lia|auto].
Qed.

(** ** Afterwards nothing is counted *)
Lemma holds_fun (x : f64) u v : S_vert64.holds x u -> S_vert64.holds x v -> u = v.
Proof.
  destruct u, v; cbn [S_vert64.holds]; try contradiction; try reflexivity.
  - intros [_ <-] [_ <-]. reflexivity.
  - intros [A _] ->. destruct A.
  - intros -> [A _]. destruct A.
Qed.

Lemma holds_at X X' i (x : f64) v : holds_all X X' -> nth_error X i = Some x -> nth_error X' i = Some v -> S_vert64.holds x v.
Proof. intros H Ex Ev. destruct (holds_get X X' i v H Ev) as (y & Ey & Hy). congruence. Qed.

Lemma none64 : forall name rho s0 d dp grav rho_c zp pm, named_eos name rho -> grad64 name s0 d -> pair64 name s0 dp -> coordinate64 grav rho_c zp pm ->
  forall S T P v s1 n s2 c c', water_columns S T P v s1 n s2 c ->
  (forall h, valid (s1 ++ s2) h -> holds_column (c h) (c' h) /\ sea_column (sea s0 pm) (c' h) /\ no_gap (fst (fst (c' h)))) ->
  forall f, make_eos sdiv (AStr name) grav rho_c = Ok (F1 f) ->
  forall minimize eps md m w normal, 0 <= eps -> feasible64 eps minimize -> thresholds64 md n m -> (forall n, length (normal n) = n) ->
  (forall i, (i + 1 < n)%nat -> (1 + powerRZ 2 (-50)) * eps + 1000 * (d + dp) < m i) ->
  forall s' t', stabilize_ST minimize S T P f md w v normal = Ok (s', t', None) ->
  forall S2 T2 c2 c2', water_columns S2 T2 P v s1 n s2 c2 ->
  (forall h, valid (s1 ++ s2) h -> cast_at (at_ s') n h [] (fst (fst (c2 h))) /\ cast_at (at_ t') n h [] (snd (fst (c2 h))) /\ snd (c2 h) = snd (c h)
     /\ holds_column (c2 h) (c2' h) /\ known_levels (sea s0 pm) (c2' h)
     /\ forall k K ss ts ps, profile (fst (fst (c' h))) (snd (fst (c' h))) (snd (c' h)) k K ss ts ps ->
          exists ss' ts', holds_water (fst (fst (c2 h))) (snd (fst (c2 h))) k K ss' ts' /\ waters (sea s0 pm) k K ss' ts') ->
  count_unstable S2 T2 P None (Some f) None v = Ok 0%nat.
Proof.
  intros name rho s0 d dp grav rho_c zp pm Hnm Hg Hpr Hco S T P v s1 n s2 c c' Hw Hc f Ef minimize eps md m w normal He Hmin Hm Hnormal Hbig s' t' Erun S2 T2 c2 c2' Hw2 Hc2.
  destruct (stabilize64 name rho s0 d grav rho_c zp pm Hnm Hg Hco S T P v s1 n s2 c c' Hw
    ltac:(intros h V; destruct (Hc h V) as (A & B & _); split; [exact A|exact B]) f Ef minimize eps md m w normal He Hmin Hm Hnormal)
    as (s'' & t'' & e & j & E & _ & _ & _ & _ & Hj & _ & Hcast).
  assert (s'' = s') by congruence. assert (t'' = t') by congruence. assert (e = None) by congruence. subst s'' t'' e. specialize (Hj eq_refl).
  destruct (count64 name rho s0 dp grav rho_c zp pm Hnm Hpr Hco S2 T2 P v s1 n s2 c2 c2' Hw2) with (f := f) as (m0 & U & Em & Hnum & HU);
    [intros h V; destruct (Hc2 h V) as (_ & _ & _ & A & B & _); split; [exact A|exact B]|exact Ef|].
  rewrite Em. f_equal. eapply P_stability3.number_none; [|exact Hnum]. intros [[h1 h2] k] (V1 & V2 & Hk & HUk).
  pose proof (valid_app _ _ _ _ V1 V2) as V. set (h := h1 ++ h2) in *. destruct (HU h k V Hk) as (HU1 & _). destruct (HU1 HUk) as (x & Hx & Hx0). clear HU HU1 Hnum.
  destruct Hx as (s & t & p & sb & tb & pb & (X1 & X2 & X3) & (Y1 & Y2 & Y3) & ->).
  destruct (Hc h V) as (Hh & Hsea & Hgap). destruct (Hc2 h V) as (A1 & A2 & A3 & Hh2 & _ & Hnew).
  destruct (Hcast h V) as (sn & tn & B1 & B2 & B3 & _). assert (Hr : (ravel (s1 ++ s2) h < j)%nat) by (rewrite Hj; apply ravel_lt; exact V).
  specialize (B3 Hr). pose proof (cast_at_unique _ _ _ _ _ _ A1 B1) as <-. pose proof (cast_at_unique _ _ _ _ _ _ A2 B2) as <-.
  destruct (c h) as [[Sc Tc] Pc], (c' h) as [[Sx Tx] Px'], (c2 h) as [[Sn Tn] Pn], (c2' h) as [[Sy Ty] Py]. cbn [fst snd] in *. subst Pn.
  destruct Hh as (HS & HT & HP). destruct Hh2 as (HS2 & HT2 & HP2).
  assert (Hno : forall i, nth_error Sn i = nth_error Sc i -> (exists b, nth_error Sy i = Some (Fin b)) -> nth_error Sx i <> Some NaN).
  { intros i Eq (b & Hb) Hn. destruct (holds_get Sn Sy i _ HS2 Hb) as (y & Ey & Hy). rewrite Eq in Ey. pose proof (holds_at _ _ _ _ _ HS Ey Hn) as Hy'. pose proof (holds_fun _ _ _ Hy Hy'). discriminate. }
  destruct B3 as [B3 B4]. destruct Hsea as [Hmis|(k0 & K0 & ss & ts & ps & Hp & Hww & Hpp)].
  { cbn [fst snd] in Hmis. destruct (B3 Hmis) as [-> _]. apply (Hno k eq_refl); [eauto|]. destruct (holds_get Sc Sy k _ HS2 X1) as (y & Ey & _).
    destruct (nth_error Sx k) as [z|] eqn:Ez; [rewrite (Hmis z (nth_error_In _ _ Ez)); reflexivity|].
    apply nth_error_None in Ez. rewrite <- (holds_length _ _ HS) in Ez. exfalso. apply (proj2 (nth_error_None _ _)) in Ez. cbn [fst snd] in Ez. congruence. }
  cbn [fst snd] in Hp. destruct (B4 k0 K0 ss ts ps Hp Hww Hpp) as [_ B5]. pose proof Hp as [_ _ HK PS PT PP Pinc Ppre Ppost].
  assert (Hlen : length Sc = length Sx) by (exact (holds_length _ _ HS)).
  assert (Hsame : forall i, (i < k0 \/ K0 <= i)%nat -> nth_error Sn i = nth_error Sc i).
  { intros i Hi. destruct B5 as [(-> & _)|(_ & _ & B5 & _)]; [reflexivity|]. apply (B5 i Hi). }
  assert (Hin : forall i b, nth_error Sy i = Some (Fin b) -> (k0 <= i < K0)%nat).
  { intros i b Hb. destruct (Nat.lt_ge_cases i k0) as [H|H].
    - exfalso. apply (Hno i (Hsame i (or_introl H)) (ex_intro _ b Hb)). apply Ppre. exact H.
    - split; [exact H|]. destruct (Nat.lt_ge_cases i K0) as [H'|H']; [exact H'|]. exfalso. apply (Hno i (Hsame i (or_intror H')) (ex_intro _ b Hb)).
      assert (Hi : (i < length Sx)%nat).
      { rewrite <- Hlen. destruct (holds_get Sn Sy i _ HS2 Hb) as (y & Ey & _). rewrite (Hsame i (or_intror H')) in Ey. apply nth_error_Some. congruence. }
      destruct (Nat.eq_dec i K0) as [->|Hne]; [apply Ppost; exact Hi|].
      destruct (nth_error Sx i) as [y|] eqn:Ey; [|apply nth_error_None in Ey; lia].
      destruct y as [r| | |]; try reflexivity; exfalso;
        (apply (Hgap k0 i K0 (Fin (ss k0)) _ NaN ltac:(lia) (PS k0 ltac:(lia)) Ey (Ppost ltac:(lia))); [discriminate|discriminate|reflexivity]). }
  pose proof (Hin k s X1) as K1. pose proof (Hin (k + 1)%nat sb Y1) as K2.
  assert (EP : p = ps k /\ pb = ps (k + 1)%nat).
  { split.
    - destruct (holds_get Pc Py k _ HP2 X3) as (y & Ey & Hy). pose proof (holds_at _ _ _ _ _ HP Ey (PP k K1)) as Hy'. pose proof (holds_fun _ _ _ Hy Hy'). congruence.
    - destruct (holds_get Pc Py (k + 1) _ HP2 Y3) as (y & Ey & Hy). pose proof (holds_at _ _ _ _ _ HP Ey (PP (k + 1)%nat K2)) as Hy'. pose proof (holds_fun _ _ _ Hy Hy'). congruence. }
  destruct EP as [-> ->].
  assert (Fin_ : forall ss' ts' ee, holds_water Sn Tn k0 K0 ss' ts' -> stable (at_depth zp rho) (lower m ee d ps) k0 K0 ss' ts' ps -> ee <= (1 + powerRZ 2 (-50)) * eps -> False).
  { intros ss' ts' ee Hwt Hst Hee. specialize (Hst k ltac:(lia) ltac:(lia)).
    destruct (Hwt k K1) as (a & b & Ga & Gb & Ha & Hb). destruct (Hwt (k + 1)%nat K2) as (a' & b' & Ga' & Gb' & Ha' & Hb').
    assert (E1 : ss' k = s) by (pose proof (holds_fun _ _ _ Ha (holds_at _ _ _ _ _ HS2 Ga X1)); congruence).
    assert (E2 : ts' k = t) by (pose proof (holds_fun _ _ _ Hb (holds_at _ _ _ _ _ HT2 Gb X2)); congruence).
    assert (E3 : ss' (k + 1)%nat = sb) by (pose proof (holds_fun _ _ _ Ha' (holds_at _ _ _ _ _ HS2 Ga' Y1)); congruence).
    assert (E4 : ts' (k + 1)%nat = tb) by (pose proof (holds_fun _ _ _ Hb' (holds_at _ _ _ _ _ HT2 Gb' Y2)); congruence).
    unfold lrpd_grad, lower in Hst. rewrite E1, E2, E3, E4 in Hst. destruct Hpp as [_ Hgp]. specialize (Hgp k ltac:(lia) ltac:(lia)).
    set (q := ps (k + 1)%nat - ps k) in *. set (mm := (ps k + ps (k + 1)%nat) / 2) in *. specialize (Hbig k Hk).
    set (dr := at_depth zp rho sb tb mm - at_depth zp rho s t mm) in *.
    assert (Q : (m k - ee - d / q) * q <= dr).
    { apply Rle_trans with (dr / q * q); [apply Rmult_le_compat_r; [lra|exact Hst]|]. right. field. lra. }
    replace ((m k - ee - d / q) * q) with ((m k - ee) * q - d) in Q by (field; lra).
    assert (Q2 : 1000 * (d + dp) * q < (m k - ee) * q) by (apply Rmult_lt_compat_r; lra).
    assert (Hd : 0 <= d + dp) by (inversion Hg; inversion Hpr; subst; unfold dec; simpl; lra).
    assert (Q3 : (d + dp) * 1 <= (d + dp) * (1000 * q)) by (apply Rmult_le_compat_l; lra).
    assert (X : dr <= dp) by (unfold dr; lra). lra. }
  assert (He2 : 0 <= (1 + powerRZ 2 (-50)) * eps) by (apply Rmult_le_pos; [simpl; lra|exact He]).
  destruct B5 as [(-> & -> & Hst)|(_ & _ & _ & Hst)].
  - apply (Fin_ ss ts 0); [|exact Hst|exact He2]. intros i Hi. destruct (holds_get Sc Sx i _ HS (PS i Hi)) as (a & Ga & Ha). destruct (holds_get Tc Tx i _ HT (PT i Hi)) as (b & Gb & Hb).
    exists a, b. auto.
  - destruct (Hnew k0 K0 ss ts ps Hp) as (ss' & ts' & Hwt & Hwr). apply (Fin_ ss' ts' ((1 + powerRZ 2 (-50)) * eps)); [exact Hwt|exact (Hst ss' ts' Hwt Hwr)|lra].
Qed.
