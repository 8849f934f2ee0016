(** * The Veronis density in binary64: final statement *)
From Coq Require Import String ZArith Bool Reals Lra Lia List SpecFloat.
From Coquelicot Require Import Coquelicot.
From Flocq Require Import Raux.
From Verif Require P_traj.
From Verif Require Import Num XR SF Res Arr ArrLemmas XRlemmas M_numpy M_ppinterp M_make_pp M_eos_base M_jmd95 M_jmdfwg06 M_gsw M_eostools M_label S_interp S_eos S_float S_domain S_named S_traj S_vert64 S_surfaces S_entry64 S_label S_omega64 S_label64
  P_float P_fl P_holds P_linear64 P_coeffs P_ppinterp P_pval P_interp P_interp2 P_quad P_label P_label2 P_label3 P_fly64 P_entry64 P_quad64 P_linspace64 P_ntpnan64 P_label64 P_label64b P_label64c.
Import ListNotations.
Local Open Scope R_scope.

Lemma holds_locate2 Pa Sa P' S' K ps ss (x : f64) : holds_all Pa P' -> holds_all Sa S' -> block P' S' 0 K ps ss -> (1 < K)%nat -> finite64 x ->
  locate x Pa Sa = locate (Fin (fval x)) P' S'.
Proof.
  intros HP HS HB HK Fx. assert (HKl := blk_K _ _ _ _ _ _ HB).
  rewrite (locate_slice x Pa Sa 0 K), (locate_slice (Fin (fval x)) P' S' 0 K); rewrite ?(holds_valid_range_two Pa P' Sa S' HP HS), ?(holds_length _ _ HP); try apply (block_valid_range _ _ _ _ _ _ HB); try lia.
  rewrite (holds_locate_nonan (slice Pa 0 K) (slice P' 0 K) x (Fin (fval x))); [reflexivity|apply holds_slice; exact HP|split; [exact Fx|reflexivity]].
Qed.

Lemma lin_between a b p q x lo hi : p < q -> p <= x <= q -> lo <= a <= hi -> lo <= b <= hi -> lo <= a + (x - p) * ((b - a) / (q - p)) <= hi.
Proof.
  intros H Hx Ha Hb. set (w := (x - p) / (q - p)).
  assert (Hw : 0 <= w <= 1). { unfold w. split; [apply Rdiv_le_0_compat; lra|]. apply Rle_div_l; lra. }
  replace (a + (x - p) * ((b - a) / (q - p))) with (a * (1 - w) + b * w) by (unfold w; field; lra).
  assert (lo * (1 - w) <= a * (1 - w)) by (apply Rmult_le_compat_r; lra). assert (lo * w <= b * w) by (apply Rmult_le_compat_r; lra).
  assert (a * (1 - w) <= hi * (1 - w)) by (apply Rmult_le_compat_r; lra). assert (b * w <= hi * w) by (apply Rmult_le_compat_r; lra). lra.
Qed.

Lemma sw_variation_gen ss ts n : forall a, sw ss ts a n = fold_right Rplus 0 (map (fun i => Rabs (ss (S i) - ss i) + Rabs (ts (S i) - ts i)) (seq a n)) + 2 * tau * INR n.
Proof.
  induction n as [|n IH]; intros a; [simpl; lra|]. cbn [sw seq map fold_right]. rewrite IH, S_INR. unfold wi. ring.
Qed.

Lemma out_cases (x A B : f64) : finite64 A -> finite64 B -> float64 x -> ~ inside64 x (fval A) (fval B) -> x = nan \/ ltb x A = true \/ ltb B x = true.
Proof.
  intros FA FB [Fx|Hx] Ho.
  - right. change (ltb x A) with (SFltb x A). change (ltb B x) with (SFltb B x). rewrite !ltb_val by assumption.
    destruct (Rlt_bool_spec (fval x) (fval A)); [left; reflexivity|]. destruct (Rlt_bool_spec (fval B) (fval x)); [right; reflexivity|].
    exfalso. apply Ho. split; [exact Fx|lra].
  - destruct x as [s|s| |s m e]; try discriminate Hx; [|left; reflexivity]. right. destruct s; [left; apply (proj1 (ltb_inf A FA))|right; apply (proj2 (ltb_inf B FB))].
Qed.
Lemma inside_dec (x : f64) a b : float64 x -> inside64 x a b \/ ~ inside64 x a b.
Proof.
  intros [F|N].
  - destruct (Rle_dec a (fval x)) as [A|A]; [|right; intros [_ H]; lra]. destruct (Rle_dec (fval x) b) as [B|B]; [left; split; [exact F|lra]|right; intros [_ H]; lra].
  - right. intros [F _]. destruct x as [s|s| |s m e]; try discriminate N; exact F.
Qed.
Lemma int_out (p0 p1 A B : f64) Pa Sppc Tppc dp h : get Pa 0 = Ok A -> get Pa (length Pa - 1) = Ok B -> finite64 A -> finite64 B -> float64 p0 -> float64 p1 ->
  ~ inside64 p0 (fval A) (fval B) \/ ~ inside64 p1 (fval A) (fval B) -> _int_dlrpd_dz p1 p0 Pa Sppc Tppc dp h = Ok nan.
Proof.
  intros GA GB FA FB H0 H1 Ho. unfold _int_dlrpd_dz. rewrite GA, GB. cbn [bind].
  assert (E : isnan (add (add p0 p1) A) || ltb p0 A || ltb B p0 || ltb p1 A || ltb B p1 = true).
  { destruct Ho as [Ho|Ho].
    - destruct (out_cases p0 A B FA FB H0 Ho) as [-> | [-> | ->]].
      + change (nan : f64) with NAN. rewrite !add_nan_l. reflexivity.
      + rewrite !orb_true_r. reflexivity.
      + rewrite !orb_true_r. reflexivity.
    - destruct (out_cases p1 A B FA FB H1 Ho) as [-> | [-> | ->]].
      + change (nan : f64) with NAN. rewrite add_nan_r, add_nan_l. reflexivity.
      + rewrite !orb_true_r. reflexivity.
      + rewrite !orb_true_r. reflexivity. }
  rewrite E. reflexivity.
Qed.

Lemma eos_nan name rho grav rho_c : named_eos name rho -> exists h x, _process_eos sdiv (AStr name) grav rho_c true = Ok (F1 h, x)
  /\ (exists y h2, _process_eos adiv (AStr name) grav rho_c true = Ok (y, Some (F2 h2))) /\ forall p : f64, exists v, h nan nan p = Ok v.
Proof.
  intros Hn. change (nan : f64) with NAN. destruct Hn.
  - destruct grav as [g|], rho_c as [r|]; do 2 eexists; (split; [reflexivity|]); (split; [do 2 eexists; reflexivity|]); intros p; eexists; reflexivity.
  - destruct grav as [g|], rho_c as [r|]; do 2 eexists; (split; [reflexivity|]); (split; [do 2 eexists; reflexivity|]); intros p; unfold jmd95_rho; nan64; eexists; reflexivity.
  - destruct grav as [g|], rho_c as [r|]; do 2 eexists; (split; [reflexivity|]); (split; [do 2 eexists; reflexivity|]); intros p; unfold jmdfwg06_rho; nan64; eexists; reflexivity.
Qed.

Lemma entry_f name rho (grav rho_c : option f64) h : named_eos name rho -> _process_eos sdiv (AStr name) grav rho_c false = Ok (F1 h, None) ->
  exists x, _process_eos sdiv (AStr name) grav rho_c true = Ok (F1 h, x).
Proof. intros [| |] E; destruct grav, rho_c; injection E as <-; eexists; reflexivity. Qed.

Section Final64.
  Variables (name : string) (rho : R -> R -> R -> R) (s0 d B c r : R) (grav rho_c : option f64) (zp pm : R) (vs vt : R -> R -> R -> R).
  Hypotheses (Hn : named_eos name rho) (HL : limits64 name s0 (dec 1 (-13)) d B) (Hl : label64 name c r) (Hco : coordinate64 grav rho_c zp pm)
    (Hp : partials (seas zp) (at_depth zp rho) vs vt).
  Variables (Sa Ta Pa : list f64) (S' T' P' : list xr) (K : nat) (ss ts ps : nat -> R) (W : R).
  Hypothesis HC : cast64 (sea s0 pm) Sa Ta Pa S' T' P' K ss ts ps W.
  Variables (gS gT : R -> R).
  Hypotheses (GS : linear_fun K ps ss gS) (GT : linear_fun K ps ts gT).

  Lemma pf64 : profile S' T' P' K ss ts ps. Proof. exact (c64_profile _ _ _ _ _ _ _ _ _ _ _ _ HC). Qed.
  Lemma gS_on i x : (S i < K)%nat -> ps i <= x <= ps (S i) -> gS x = ss i + (x - ps i) * secant ps ss i.
  Proof. intros Hi Hx. rewrite (linear_closed _ _ _ _ _ _ (pf_S _ _ _ _ _ _ _ pf64) GS i x Hi Hx). apply lin_val. Qed.
  Lemma gT_on i x : (S i < K)%nat -> ps i <= x <= ps (S i) -> gT x = ts i + (x - ps i) * secant ps ts i.
  Proof. intros Hi Hx. rewrite (linear_closed _ _ _ _ _ _ (pf_T _ _ _ _ _ _ _ pf64) GT i x Hi Hx). apply lin_val. Qed.

  Lemma pot64 (Sppc Tppc : list (list f64)) (h : f64 -> f64 -> f64 -> res f64) d' B' (p0 p_ref : f64) :
    pm <= 10000 -> 0 <= s0 ->
    last_col Sppc = Sa ->
    (forall i, (i + 1 < length Pa)%nat -> nth_error Sppc i = Some [div (sub (nth (i + 1) Sa nan) (nth i Sa nan)) (sub (nth (i + 1) Pa nan) (nth i Pa nan)); nth i Sa nan]) ->
    (forall i, (i + 1 < length Pa)%nat -> nth_error Tppc i = Some [div (sub (nth (i + 1) Ta nan) (nth i Ta nan)) (sub (nth (i + 1) Pa nan) (nth i Pa nan)); nth i Ta nan]) ->
    eos64_on (sea s0 pm) h (at_depth zp rho) (dec 1 (-13)) (dec 1 (-13)) (dec 3 (-12)) d' B' ->
    finite64 p0 -> in_range K ps (fval p0) -> finite64 p_ref -> 0 <= fval p_ref <= pm ->
    let D0 := at_depth zp rho (gS (fval p0)) (gT (fval p0)) (fval p_ref) in
    Rabs D0 <= B' /\ exists d0, pot_dens_1 p0 p_ref Pa Sppc Tppc h = Ok d0 /\ S_float.within d0 D0 d'.
  Proof.
    intros Pm S0 LS RS RT He F0 H0 Fr Hr D0. destruct HC as [HS HT HP HPf Hw Hsp HK]. assert (K2 := pf_two _ _ _ _ _ _ _ HPf).
    unfold pot_dens_1, ppval_1_two. rewrite LS, (holds_locate2 Pa Sa P' S' K ps ss p0 HP HS (pf_S _ _ _ _ _ _ _ HPf) K2 F0).
    destruct (locate_inside _ _ _ _ _ _ (pf_S _ _ _ _ _ _ _ HPf) (fval p0) ltac:(lia) H0) as (i & -> & _ & A & Bx & _). cbn [bind].
    destruct (levP Pa S' T' P' K ss ts ps HP HPf i ltac:(lia)) as (EPi & FPi & VPi). destruct (levP Pa S' T' P' K ss ts ps HP HPf (S i) A) as (EPj & FPj & VPj).
    destruct (levS Sa S' T' P' K ss ts ps HS HPf i ltac:(lia)) as (FSi & VSi). destruct (levS Sa S' T' P' K ss ts ps HS HPf (S i) A) as (FSj & VSj).
    destruct (levT Ta S' T' P' K ss ts ps HT HPf i ltac:(lia)) as (FTi & VTi). destruct (levT Ta S' T' P' K ss ts ps HT HPf (S i) A) as (FTj & VTj).
    assert (L := nth_error_lt _ _ _ EPj). rewrite (get_ok _ _ _ EPi). cbn [bind]. rewrite (get_ok _ _ _ (RS i ltac:(lia))). cbn [bind]. rewrite (get_ok _ _ _ (RT i ltac:(lia))). cbn [bind fst snd].
    replace (i + 1)%nat with (S i) by lia.
    destruct (Hw i ltac:(lia)) as (A1 & A2 & A3 & A4). destruct (Hw (S i) A) as (B1 & B2 & B3 & B4). cbn [sea box dS dT dP] in A1, A3, A4, B1, B3, B4. unfold upto in A1, A3, A4, B1, B3, B4.
    destruct (Hsp i A) as [Hsp1 _].
    assert (Vs : S_float.within (pval (sub p0 (nth i Pa nan)) [div (sub (nth (S i) Sa nan) (nth i Sa nan)) (sub (nth (S i) Pa nan) (nth i Pa nan)); nth i Sa nan] 0) (gS (fval p0)) (dec 1 (-13))).
    { rewrite (gS_on i (fval p0) A Bx). unfold secant, width. rewrite <- VPi, <- VPj, <- VSi, <- VSj. apply (value64 pm Pm); rewrite ?VPi, ?VPj, ?VSi, ?VSj; trivial; try lra; apply Rabs_le; lra. }
    assert (Vt : S_float.within (pval (sub p0 (nth i Pa nan)) [div (sub (nth (S i) Ta nan) (nth i Ta nan)) (sub (nth (S i) Pa nan) (nth i Pa nan)); nth i Ta nan] 0) (gT (fval p0)) (dec 1 (-13))).
    { rewrite (gT_on i (fval p0) A Bx). unfold secant, width. rewrite <- VPi, <- VPj, <- VTi, <- VTj. apply (value64 pm Pm); rewrite ?VPi, ?VPj, ?VTi, ?VTj; trivial; try lra; apply Rabs_le; lra. }
    assert (Ds : dS (sea s0 pm) (gS (fval p0))).
    { cbn [sea box dS]. unfold upto. rewrite (gS_on i (fval p0) A Bx). unfold secant, width. apply lin_between; lra. }
    assert (Dt : dT (sea s0 pm) (gT (fval p0))).
    { cbn [sea box dT]. unfold upto. rewrite (gT_on i (fval p0) A Bx). unfold secant, width. apply lin_between; lra. }
    assert (Wp : S_float.within p_ref (fval p_ref) (dec 3 (-12))).
    { split; [exact Fr|]. rewrite Rminus_diag_eq, Rabs_R0 by reflexivity. unfold dec. simpl. lra. }
    destruct (He _ _ p_ref _ _ (fval p_ref) Ds Dt Hr Vs Vt Wp) as (HB & y & Ey & Wy).
    split; [exact HB|]. exists y. split; [exact Ey|exact Wy].
  Qed.

  (** a pressure that is outside *)
  Lemma outside64 junk (p0 p1 p_ref b dp : f64) : length Pa = K -> float64 p0 -> float64 p1 -> finite64 p_ref -> 0 <= fval p_ref <= pm ->
    ~ inside64 p0 (ps 0%nat) (ps (K - 1)%nat) \/ ~ inside64 p1 (ps 0%nat) (ps (K - 1)%nat) ->
    veronis junk p1 Sa Ta Pa (Some p0) p_ref b dp "linear" (AStr name) grav rho_c = Ok nan.
  Proof.
    intros LK H0 H1 Fr Hr Ho.
    destruct (entry_eos name rho s0 (dec 1 (-13)) d B grav rho_c zp pm Hn HL Hco) as (h' & d0 & Ee & Pm & He & D0 & D1 & HB & Hd & S0 & _).
    destruct (eos_nan name rho grav rho_c Hn) as (h & x & E1 & (y & h2 & E2) & Hnan).
    destruct (entry_f name rho grav rho_c h' Hn Ee) as (x' & Ex).
    rewrite Ex in E1. injection E1 as -> ->.
    assert (HPf := pf64). assert (K2 := pf_two _ _ _ _ _ _ _ HPf).
    assert (HS := c64_S _ _ _ _ _ _ _ _ _ _ _ _ HC). assert (HT := c64_T _ _ _ _ _ _ _ _ _ _ _ _ HC). assert (HPa := c64_P _ _ _ _ _ _ _ _ _ _ _ _ HC).
    assert (LS : length Pa = length Sa) by (rewrite (holds_length _ _ HPa), (holds_length _ _ HS); apply (blk_len _ _ _ _ _ _ (pf_S _ _ _ _ _ _ _ HPf))).
    assert (LT : length Pa = length Ta) by (rewrite (holds_length _ _ HPa), (holds_length _ _ HT); apply (blk_len _ _ _ _ _ _ (pf_T _ _ _ _ _ _ _ HPf))).
    assert (NE : Pa <> []) by (intros EP; rewrite EP in LK; simpl in LK; lia).
    destruct (linear_coeffs_1_spec junk Pa Sa NE LS) as (Sppc & ES & CS & RS). destruct (linear_coeffs_1_spec junk Pa Ta NE LT) as (Tppc & ET & CT & RT).
    destruct (levP Pa S' T' P' K ss ts ps HPa HPf 0 ltac:(lia)) as (EA & FA & VA). destruct (levP Pa S' T' P' K ss ts ps HPa HPf (K - 1) ltac:(lia)) as (EB & FB & VB).
    apply get_ok in EA, EB. set (PA := nth 0 Pa nan) in *. set (PB := nth (K - 1) Pa nan) in *. clearbody PA PB.
    assert (Hpot : exists q, pot_dens_1 p0 p_ref Pa Sppc Tppc h = Ok q).
    { assert (Dc : inside64 p0 (ps 0%nat) (ps (K - 1)%nat) \/ ~ inside64 p0 (ps 0%nat) (ps (K - 1)%nat)) by (apply inside_dec; exact H0).
      destruct Dc as [[F0 I0]|N0].
      - destruct (pot64 Sppc Tppc h d0 B p0 p_ref Pm S0 CS RS RT He F0 I0 Fr Hr) as (_ & q & Eq & _). exists q. exact Eq.
      - destruct (Hnan p_ref) as (v & Ev). exists v. unfold pot_dens_1, ppval_1_two. rewrite CS.
        rewrite (locate_slice p0 Pa Sa 0 K); [|rewrite (holds_valid_range_two Pa P' Sa S' HPa HS); apply (block_valid_range _ _ _ _ _ _ (pf_S _ _ _ _ _ _ _ HPf))|lia|lia].
        replace (slice Pa 0 K) with Pa by (unfold slice; rewrite <- LK, Nat.sub_0_r; cbn [skipn]; symmetry; apply firstn_all).
        rewrite (locate_out p0 Pa PA PB EA); [|rewrite LK; exact EB|exact FA|exact FB|exact H0|rewrite VA, VB; exact N0|].
        + cbn [bind option_map fst snd]. exact Ev.
        + rewrite VA, VB. apply (ps_le K ps (Hinc_pf _ _ _ _ _ _ _ HPf)); lia. }
    destruct Hpot as (q & Eq).
    unfold veronis. rewrite Ex, E2. cbn [bind]. change (make_pp "linear" "1" "coeffs" true 1) with (Ok "linear_coeffs_1"%string : res string). cbn [bind].
    unfold ppc_named. change (String.eqb "linear_coeffs_1" "linear_coeffs_1") with true. cbv iota. rewrite ES, ET. cbn [bind fst snd].
    unfold _veronis. rewrite Eq. cbn [bind]. unfold _veronis_affine.
    rewrite (int_out p0 p1 PA PB Pa Sppc Tppc dp h2 EA); [|rewrite LK; exact EB|exact FA|exact FB|exact H0|exact H1|rewrite VA, VB; exact Ho].
    cbn [bind]. change (nan : f64) with NAN. rewrite mul_nan_r, add_nan_r. reflexivity.
  Qed.

  Variables (f g : R -> R).
  Hypothesis Hf : forall x, in_range K ps x -> f x = vs (gS x) (gT x) x.
  Hypothesis Hg : forall x, in_range K ps x -> g x = vt (gS x) (gT x) x.
  Hypotheses (Cf : forall x, continuity_pt f x) (Cg : forall x, continuity_pt g x).
  Variable M : R.
  Hypothesis HM : smooth_pieces K ps (gradient f g gS gT) M.

  Lemma veronis64 junk (p0 p1 p_ref b dp : f64) : finite64 p0 -> finite64 p1 -> finite64 p_ref -> finite64 b -> finite64 dp ->
    in_range K ps (fval p0) -> in_range K ps (fval p1) -> 0 <= fval p_ref <= pm -> Rabs (fval b) <= 10 ^ 6 -> / 1000 <= fval dp <= 5000 ->
    exists v I, veronis junk p1 Sa Ta Pa (Some p0) p_ref b dp "linear" (AStr name) grav rho_c = Ok v /\ finite64 v
      /\ is_RInt (gradient f g gS gT) (fval p0) (fval p1) I
      /\ Rabs (fval v - (at_depth zp rho (gS (fval p0)) (gT (fval p0)) (fval p_ref) + fval b * I))
           <= Rabs (fval b) * (M * (fval dp * (1 + powerRZ 2 (-20))) ^ 2 / 12 * (Rabs (fval p1 - fval p0) + 2 * W)) + d
              + Rabs (fval b) * ((variation K ss ts + / 100) * (c + (INR K + 30 + 15000 / fval dp) * r)).
  Proof.
    intros F0 F1 Fr Fb Fdp H0 H1 Hr Hb Hdp.
    destruct (entry_eos name rho s0 (dec 1 (-13)) d B grav rho_c zp pm Hn HL Hco) as (h & d0 & Ee & Pm & He & D0 & D1 & HB & Hd & S0 & _).
    destruct (entry_st name rho s0 d B c r grav rho_c zp pm vs vt Hn HL Hl Hco Hp) as (g2 & er & Br & (x2 & E2) & Eh & Hst & Her & HBr & Hc & Hr').
    destruct (Eh h Ee) as (x1 & E1).
    assert (HPf := pf64). assert (K2 := pf_two _ _ _ _ _ _ _ HPf).
    assert (HS := c64_S _ _ _ _ _ _ _ _ _ _ _ _ HC). assert (HT := c64_T _ _ _ _ _ _ _ _ _ _ _ _ HC). assert (HPa := c64_P _ _ _ _ _ _ _ _ _ _ _ _ HC).
    assert (Hsp := c64_apart _ _ _ _ _ _ _ _ _ _ _ _ HC). assert (HKc := c64_count _ _ _ _ _ _ _ _ _ _ _ _ HC).
    assert (Hw : forall i, (i < K)%nat -> (s0 <= ss i <= 42 /\ 0 < ss i) /\ -3 <= ts i <= 40 /\ 0 <= ps i <= pm).
    { intros i Hi. destruct (c64_water _ _ _ _ _ _ _ _ _ _ _ _ HC i Hi) as (A1 & A2 & A3 & A4). split; [split; [exact A1|exact A2]|]. split; [exact A3|exact A4]. }
    assert (LP := lenP Pa S' T' P' K ss ts ps HPa HPf).
    assert (LS : length Pa = length Sa) by (rewrite (holds_length _ _ HPa), (holds_length _ _ HS); apply (blk_len _ _ _ _ _ _ (pf_S _ _ _ _ _ _ _ HPf))).
    assert (LT : length Pa = length Ta) by (rewrite (holds_length _ _ HPa), (holds_length _ _ HT); apply (blk_len _ _ _ _ _ _ (pf_T _ _ _ _ _ _ _ HPf))).
    assert (NE : Pa <> []) by (intros ->; simpl in LP; lia).
    destruct (linear_coeffs_1_spec junk Pa Sa NE LS) as (Sppc & ES & CS & RS). destruct (linear_coeffs_1_spec junk Pa Ta NE LT) as (Tppc & ET & CT & RT).
    destruct (pot64 Sppc Tppc h d0 B p0 p_ref Pm S0 CS RS RT He F0 H0 Fr Hr) as (BD & q & Eq & Wq).
    set (DD := at_depth zp rho (gS (fval p0)) (gT (fval p0)) (fval p_ref)) in *. clearbody DD.
    set (dp' := fval dp * (1 + powerRZ 2 (-20))).
    assert (HG : forall i x, (S i < K)%nat -> ps i <= x <= ps (S i) -> gS x = pval (x - ps i) (lin_c ps ss i) 0 /\ gT x = pval (x - ps i) (lin_c ps ts i) 0).
    { intros i x Hi Hx. rewrite !lin_val. split; [apply gS_on|apply gT_on]; assumption. }
    assert (HY := gradient_piece K ps gS gT (lin_c ps ss) (lin_c ps ts) f g HG).
    assert (SE := step_error_C2 K ps (Hinc_pf _ _ _ _ _ _ _ HPf) (lin_c ps ss) (lin_c ps ts) dp' f g Cf Cg (gradient f g gS gT) HY M HM).
    assert (M0 : 0 <= M).
    { destruct (HM 0%nat ltac:(lia)) as (q0 & q1 & q2 & Q). destruct (Q (ps 0%nat)) as (_ & _ & Q2 & _); [pose proof (Hinc_pf _ _ _ _ _ _ _ HPf 0 ltac:(lia)); lra|].
      eapply Rle_trans; [apply Rabs_pos|exact Q2]. }
    assert (eT0 : 0 <= M * dp' ^ 2 / 12) by (apply Rdiv_le_0_compat; [apply Rmult_le_pos; [exact M0|apply pow2_ge_0]|lra]).
    assert (In : forall i x, (S i < K)%nat -> ps i <= x <= ps (S i) -> in_range K ps x) by (intros i x; apply (piece_range _ _ _ _ _ _ _ HPf i x)).
    destruct (affine64 s0 pm g2 vs vt er Br Hst S0 Pm Her HBr Sa Ta Pa S' T' P' K ss ts ps HS HT HPa HPf (fun i Hi => proj1 (Hsp i Hi)) Hw HKc Sppc Tppc RS RT dp Fdp Hdp f g) with
      (eT := M * dp' ^ 2 / 12) (Yf := gradient f g gS gT) (W := W) (p0 := p0) (p1 := p1) (d0 := q) (b := b) (D0 := DD) (d := d0) (B := B) as (v & I & Ev & Fv & HI & Hv); trivial.
    - intros i x Hi Hx. rewrite (Hf x (In i x Hi Hx)), (gS_on i x Hi Hx), (gT_on i x Hi Hx). reflexivity.
    - intros i x Hi Hx. rewrite (Hg x (In i x Hi Hx)), (gS_on i x Hi Hx), (gT_on i x Hi Hx). reflexivity.
    - intros i Hi. exact (proj2 (Hsp i Hi)).
    - simpl. lra.
    - exists v, I. split; [|split; [exact Fv|split; [exact HI|]]].
      + unfold veronis. rewrite E1, E2. cbn [bind]. change (make_pp "linear" "1" "coeffs" true 1) with (Ok "linear_coeffs_1"%string : res string). cbn [bind].
        unfold ppc_named. change (String.eqb "linear_coeffs_1" "linear_coeffs_1") with true. cbv iota. rewrite ES, ET. cbn [bind fst snd].
        unfold _veronis. rewrite Eq. cbn [bind]. exact Ev.
      + eapply Rle_trans; [exact Hv|]. apply Rplus_le_compat; [lra|]. apply Rmult_le_compat_l; [apply Rabs_pos|].
        assert (u0 := u64_pos). assert (Bru : 0 <= u64 * Br) by (apply Rmult_le_pos; [lra|pose proof (pow2_pos (-40)); lra]).
        assert (DpI : 0 < / fval dp) by (apply Rinv_0_lt_compat; lra). assert (KI := pos_INR K). unfold kap, Rdiv.
        assert (V0 := sw_pos ss ts (K - 1) 0).
        apply Rmult_le_compat.
        * lra.
        * apply Rplus_le_le_0_compat; [apply Rmult_le_pos; [lra|]|].
          -- apply Rplus_le_le_0_compat; [lra|]. apply Rmult_le_pos; [exact Bru|]. lra.
          -- apply Rmult_le_pos; [exact Bru|]. lra.
        * rewrite sw_variation_gen. fold (variation K ss ts). assert (INR (K - 1) <= INR K) by (apply le_INR; lia). pose proof tau_pos as t0.
          assert (T : 2 * tau * INR (K - 1) <= 2 * tau * powerRZ 2 40) by (apply Rmult_le_compat_l; lra).
          replace (2 * tau * powerRZ 2 40) with (powerRZ 2 (-159)) in T by (unfold tau; replace 2 with (powerRZ 2 1) at 2 by (simpl; lra); rewrite !pow2_mul; reflexivity).
          assert (powerRZ 2 (-159) <= powerRZ 2 (-20)) by (apply pow2_le; lia). assert (powerRZ 2 (-20) <= / 1000) by (simpl; lra). lra.
        * set (n := INR K) in *. set (iv := / fval dp) in *. clearbody n iv.
          assert (Q : 21 / 10 * (Br * u64) * (n + 30 + 15000 * iv) <= r * (n + 30 + 15000 * iv)) by (apply Rmult_le_compat_r; lra).
          assert (0 <= u64 * Br * n) by (apply Rmult_le_pos; lra). assert (0 <= u64 * Br * iv) by (apply Rmult_le_pos; lra). lra.
  Qed.
End Final64.

Lemma outside_any name rho s0 d B grav rho_c zp pm Sa Ta Pa S' T' P' K ss ts ps W : named_eos name rho -> limits64 name s0 (dec 1 (-13)) d B -> coordinate64 grav rho_c zp pm ->
  cast64 (sea s0 pm) Sa Ta Pa S' T' P' K ss ts ps W -> length Pa = K ->
  forall junk (p0 p1 p_ref b dp : f64), float64 p0 -> float64 p1 -> finite64 p_ref -> 0 <= fval p_ref <= pm ->
  ~ inside64 p0 (ps 0%nat) (ps (K - 1)%nat) \/ ~ inside64 p1 (ps 0%nat) (ps (K - 1)%nat) ->
  veronis junk p1 Sa Ta Pa (Some p0) p_ref b dp "linear" (AStr name) grav rho_c = Ok nan.
Proof.
  intros Hn HL Hco HC LK junk p0 p1 p_ref b dp. assert (HPf := c64_profile _ _ _ _ _ _ _ _ _ _ _ _ HC).
  assert (LK' : K = length P') by (rewrite <- LK; apply (holds_length _ _ (c64_P _ _ _ _ _ _ _ _ _ _ _ _ HC))).
  assert (K2 := pf_two _ _ _ _ _ _ _ HPf). assert (BS := pf_S _ _ _ _ _ _ _ HPf). assert (BT := pf_T _ _ _ _ _ _ _ HPf). rewrite LK' in K2, BS, BT.
  destruct (P_traj.linear_interpolator NaN P' S' ps ss BS K2) as (_ & gS & _ & _ & GS & _). destruct (P_traj.linear_interpolator NaN P' T' ps ts BT K2) as (_ & gT & _ & _ & GT & _).
  rewrite <- LK' in GS, GT. apply (outside64 name rho s0 d B grav rho_c zp pm Hn HL Hco Sa Ta Pa S' T' P' K ss ts ps W HC gS gT GS GT junk p0 p1 p_ref b dp LK).
Qed.
