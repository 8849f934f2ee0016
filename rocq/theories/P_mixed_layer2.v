(** * Mixed layer: missing bottles, bad indices, whole arrays *)
From Coq Require Import String ZArith Bool Reals Lra Lia List.
From Verif Require Import Num XR Res Arr ArrLemmas Nd NdLemmas XRlemmas M_numpy M_lib M_ppinterp P_numpy S_interp S_traj S_lib P_ppinterp P_pval
  P_pchip P_interp P_coeffs NumLaws P_interp2 P_casts M_make_pp M_eos_base M_eostools M_mixed_layer S_mixed_layer P_mixed_layer.
Import ListNotations.
Local Open Scope R_scope.

Section Bottle.
  Variables (f : xr -> xr -> xr -> res xr) (ref : xr) (S T P : list xr).
  Hypothesis HS : length S = length P.
  Hypothesis HT : length T = length P.
  Hypothesis Htot : forall i s t, nth_error S i = Some s -> nth_error T i = Some t -> exists v, f s t ref = Ok v.
  Variable e : xr.
  Hypothesis He : f (Fin (69 / 2)) (Fin 3) (Fin 1000) = Ok e.

  Lemma eos_column_total : exists d, eos_column f S T ref = Ok d /\ length d = length P.
  Proof.
    destruct (mapM_ok (fun st => f (fst st) (snd st) ref) (combine S T)) as (d & Ed & Ld & _).
    { intros [s t] Hin. apply In_nth_error in Hin. destruct Hin as [i Hi].
      rewrite nth_error_combine in Hi. destruct (nth_error S i) eqn:E1, (nth_error T i) eqn:E2; try discriminate. injection Hi as -> ->.
      cbn [fst snd]. eapply Htot; eassumption. }
    exists d. split; [exact Ed|]. rewrite Ld, combine_length. lia.
  Qed.

  Lemma sample : f (lit 345 (-1)) (lit 3 0) (lit 1000 0) = Ok e.
  Proof.
    replace (@lit xr _ 345 (-1)) with (Fin (69 / 2)) by (cbn [lit xrNum]; unfold Rlit; simpl; f_equal; lra).
    cbn [lit xrNum]. rewrite !Rlit_0. exact He.
  Qed.

  Lemma ml_missing b B sB tB c x : py_index (length S) b B -> nth_error S B = Some sB -> nth_error T B = Some tB ->
    f sB tB ref = Ok NaN -> mixed_layer_1 f (ppinterp_1 c) x ref b S T P = Ok NaN.
  Proof.
    intros Hb Es Et Hn. destruct eos_column_total as (d & Ed & Ld). unfold mixed_layer_1. rewrite sample, Ed.
    rewrite (py_slice_one S b B _ Hb Es). rewrite (py_slice_one T b B tB); [|rewrite HT, <- HS; assumption|assumption].
    unfold eos_column. cbn [combine mapM fst snd]. rewrite Hn. cbn [bind].
    assert (NB : forall x, x <> [] -> np_bin sub x [NaN] = Ok (map (fun _ => NaN) x)).
    { assert (Z : forall u, xr_sub u NaN = NaN) by (intros []; reflexivity).
      intros u Hu. unfold np_bin. destruct u as [|u [|w l]]; [congruence|cbn; rewrite Z; reflexivity|].
      cbn [length Nat.eqb]. f_equal. apply map_ext. exact Z. }
    assert (Hd : d <> []).
    { intros ->. apply nth_error_lt in Es. cbn in Ld. lia. }
    assert (HN : forall DD, length DD = length P -> (forall y, In y DD -> y = NaN) -> ppinterp_1 c x DD P 0 = Ok NaN).
    { intros DD L HDD. apply no_data_nan. split; [exact L|]. intros i Hi. left.
      destruct (nth_error DD i) as [y|] eqn:E; [|apply nth_error_None in E; lia]. f_equal. apply HDD. eapply nth_error_In; eassumption. }
    assert (Hall : forall A (l : list A) y, In y (map (fun _ => NaN) l) -> y = NaN).
    { intros A l y Hy. apply in_map_iff in Hy. destruct Hy as (? & <- & _). reflexivity. }
    destruct (ltb (lit 1 0) e).
    - rewrite NB by assumption. cbn [bind]. rewrite map_length, Ld, Nat.eqb_refl. apply HN; [rewrite map_length; exact Ld|apply Hall].
    - cbn [map]. assert (Z : div (@lit xr _ 1 0) NaN = NaN) by reflexivity. rewrite Z.
      rewrite NB by (destruct d; [congruence|discriminate]). cbn [bind]. rewrite !map_length, Ld, Nat.eqb_refl.
      apply HN; [rewrite !map_length; exact Ld|apply Hall].
  Qed.

  Lemma ml_bad_index b g x : (0 < length P)%nat -> (b = -1 \/ b < - Z.of_nat (length P) \/ Z.of_nat (length P) <= b)%Z ->
    mixed_layer_1 f g x ref b S T P = Err ValueError.
  Proof.
    intros HP Hb. destruct eos_column_total as (d & Ed & Ld). unfold mixed_layer_1. rewrite sample, Ed.
    rewrite (py_slice_none S b), (py_slice_none T b) by (rewrite ?HS, ?HT; exact Hb).
    unfold eos_column. cbn [combine mapM bind map].
    assert (NB : forall d, length d = length P -> np_bin (F := xr) sub d [] = Ok [] \/ np_bin (F := xr) sub d [] = Err ValueError).
    { intros [|u [|w l]] L; cbn in L |- *; auto. }
    assert (R : forall d, length d = length P ->
       (let! DD := np_bin (F := xr) sub d [] in if Nat.eqb (length DD) (length P) then g x DD P 0%nat else Err ValueError) = Err ValueError).
    { intros d' L. destruct (NB d' L) as [-> | ->]; [|reflexivity]. cbn [bind length]. destruct (length P); [lia|reflexivity]. }
    destruct (ltb (lit 1 0) e); apply R; [exact Ld|rewrite map_length; exact Ld].
  Qed.
End Bottle.

(** ** Whole arrays *)
Lemma buildM_inv {A} sh (f : list nat -> res A) a : buildM sh f = Ok a ->
  shape a = sh /\ wf a /\ forall ix, valid sh ix -> exists y, at_ a ix = Some y /\ f ix = Ok y.
Proof.
  unfold buildM. intros E. destruct (mapM f (all_idx sh)) as [ys|] eqn:Em; [|discriminate]. injection E as <-.
  destruct (mapM_inv _ _ _ Em) as [L H]. split; [reflexivity|]. split; [unfold wf; simpl; rewrite L; apply length_all_idx|].
  intros ix Hv. unfold at_; simpl. apply H. apply nth_error_all_idx. exact Hv.
Qed.

Section Whole.
  Context {F : Type} {N : Num F}.

  Lemma column_cast (x : list nat -> option F) s1 s2 n (a : nd F) h1 h2 : laid_out x s1 s2 n a -> valid s1 h1 -> valid s2 h2 -> cast_at x n h1 h2 (column a n (h1 ++ h2)).
  Proof.
    intros (Hsh & Hwf & Hx) H1 H2. unfold column. split; [rewrite map_length, seq_length; reflexivity|].
    intros k Hk. rewrite nth_error_map, (nth_error_nth' _ 0%nat) by (rewrite seq_length; assumption). rewrite seq_nth by assumption. cbn [option_map plus].
    rewrite <- Hx by assumption. unfold getd, at_. rewrite <- app_assoc.
    assert (Hv : valid (shape a) (h1 ++ h2 ++ [k])).
    { rewrite Hsh. apply Forall2_app; [exact H1|]. apply Forall2_app; [exact H2|]. constructor; [exact Hk|constructor]. }
    symmetry. apply nth_error_nth'. rewrite Hwf. apply ravel_lt. exact Hv.
  Qed.

  Lemma cast_at_unique (x : list nat -> option F) n h1 h2 l l' : cast_at x n h1 h2 l -> cast_at x n h1 h2 l' -> l = l'.
  Proof.
    intros [L H] [L' H']. apply nth_error_ext. intros i. destruct (Nat.lt_ge_cases i n) as [Hi|Hi]; [rewrite H, H' by exact Hi; reflexivity|].
    rewrite (proj2 (nth_error_None l i)), (proj2 (nth_error_None l' i)) by lia. reflexivity.
  Qed.

  Lemma mixed_layer_columns (S T P : @data F) eos grav rho_c x ref b interp v s1 n s2 f name :
    wf (arr S) -> wf (arr T) -> wf (arr P) ->
    shape (arr S) = s1 ++ n :: s2 -> shape (arr T) = s1 ++ n :: s2 ->
    (shape (arr P) = s1 ++ n :: s2 \/ shape (arr P) = [n]) ->
    process_vert_dim v S = Ok (length s1) ->
    make_eos sdiv eos grav rho_c = Ok (F1 f) ->
    (interp = "linear" /\ name = linear_interp_1 \/ interp = "pchip" /\ name = pchip_interp_1)%string ->
    let Px := fun ix => if Nat.eqb (ndim (arr P)) (ndim (arr S)) then at_ (arr P) ix else at_ (arr P) [nth (length s1) ix 0%nat] in
    let ml h1 h2 y := forall s t p, cast_at (at_ (arr S)) n h1 h2 s -> cast_at (at_ (arr T)) n h1 h2 t -> cast_at Px n h1 h2 p ->
       mixed_layer_1 f name x ref b s t p = Ok y in
    (forall out, mixed_layer S T P eos grav rho_c x ref b interp v = Ok out ->
       shape out = s1 ++ s2 /\ wf out /\
       forall h1 h2, valid s1 h1 -> valid s2 h2 -> exists y, at_ out (h1 ++ h2) = Some y /\ ml h1 h2 y)
    /\ ((forall h1 h2, valid s1 h1 -> valid s2 h2 -> exists y, ml h1 h2 y) ->
        exists out, mixed_layer S T P eos grav rho_c x ref b interp v = Ok out)
    /\ (forall h1 h2, valid s1 h1 -> valid s2 h2 -> exists s t p,
          cast_at (at_ (arr S)) n h1 h2 s /\ cast_at (at_ (arr T)) n h1 h2 t /\ cast_at Px n h1 h2 p).
  Proof.
    intros WS WT WP SS ST SP Hv Hf Hi Px ml.
    assert (Hv' : process_vert_dim (VInt (Z.of_nat (length s1))) S = Ok (length s1)).
    { assert (Hnd : ndim (arr S) = Datatypes.S (length s1 + length s2)) by (unfold ndim; rewrite SS, app_length; simpl; lia).
      rewrite process_vert_dim_int by lia. rewrite Z.mod_small by lia. rewrite Nat2Z.id. reflexivity. }
    destruct (process_casts_ok S T P _ s1 n s2 WS WT WP SS ST Hv' SP) as (s & t & p & Ec & Ls & Lt & Lp). fold Px in Lp.
    assert (Hname : exists nm, make_pp interp "u" "interp" true 1 = Ok nm /\ interp_named (F := F) nm = name).
    { destruct Hi as [[-> ->]|[-> ->]]; eexists; split; reflexivity. }
    destruct Hname as (nm & En & Em).
    assert (EQ : mixed_layer S T P eos grav rho_c x ref b interp v =
      buildM (s1 ++ s2) (fun h => mixed_layer_1 f name x ref b (column s n h) (column t n h) (column p n h))).
    { unfold mixed_layer. rewrite Hf, En, Hv. cbn [bind]. rewrite Ec. cbn [bind vectorized]. rewrite Em.
      destruct Ls as (-> & _), Lt as (-> & _), Lp as (-> & _).
      destruct (list_eq_dec Nat.eq_dec _ _) as [_|E]; [|congruence].
      rewrite app_assoc, rev_app_distr. cbn [rev app]. rewrite rev_involutive. reflexivity. }
    assert (HC : forall h1 h2, valid s1 h1 -> valid s2 h2 ->
       cast_at (at_ (arr S)) n h1 h2 (column s n (h1 ++ h2)) /\ cast_at (at_ (arr T)) n h1 h2 (column t n (h1 ++ h2)) /\ cast_at Px n h1 h2 (column p n (h1 ++ h2))).
    { intros h1 h2 V1 V2. split; [|split]; eapply column_cast; eassumption. }
    assert (HM : forall h1 h2 y, valid s1 h1 -> valid s2 h2 ->
       (mixed_layer_1 f name x ref b (column s n (h1 ++ h2)) (column t n (h1 ++ h2)) (column p n (h1 ++ h2)) = Ok y <-> ml h1 h2 y)).
    { intros h1 h2 y V1 V2. destruct (HC h1 h2 V1 V2) as (C1 & C2 & C3). unfold ml. split.
      - intros Hy s' t' p' D1 D2 D3. rewrite (cast_at_unique _ _ _ _ _ _ D1 C1), (cast_at_unique _ _ _ _ _ _ D2 C2), (cast_at_unique _ _ _ _ _ _ D3 C3). exact Hy.
      - intros Hy. apply Hy; assumption. }
    split; [|split].
    - intros out E. rewrite EQ in E.
      destruct (buildM_inv _ _ _ E) as (B1 & B2 & B3). split; [exact B1|]. split; [exact B2|].
      intros h1 h2 V1 V2. destruct (B3 (h1 ++ h2)) as (y & Hy1 & Hy2); [apply Forall2_app; assumption|].
      exists y. split; [exact Hy1|]. apply HM; assumption.
    - intros H. rewrite EQ. destruct (buildM_ok (s1 ++ s2) (fun h => mixed_layer_1 f name x ref b (column s n h) (column t n h) (column p n h))) as (a & Ea & _).
      + intros ix V. apply Forall2_app_inv_l in V. destruct V as (h1 & h2 & V1 & V2 & ->). destruct (H h1 h2 V1 V2) as (y & Hy). exists y. apply HM; assumption.
      + exists a. exact Ea.
    - intros h1 h2 V1 V2. exists (column s n (h1 ++ h2)), (column t n (h1 ++ h2)), (column p n (h1 ++ h2)). apply HC; assumption.
  Qed.

  (** an equation of state that returns a pair *)
  Lemma mixed_layer_pair (S T P : @data F) eos grav rho_c x ref b interp v s1 n s2 g :
    wf (arr S) -> wf (arr T) -> wf (arr P) ->
    shape (arr S) = s1 ++ n :: s2 -> shape (arr T) = s1 ++ n :: s2 ->
    (shape (arr P) = s1 ++ n :: s2 \/ shape (arr P) = [n]) ->
    process_vert_dim v S = Ok (length s1) ->
    make_eos sdiv eos grav rho_c = Ok (F2 g) -> (interp = "linear" \/ interp = "pchip")%string -> (0 < prod (s1 ++ s2))%nat ->
    mixed_layer S T P eos grav rho_c x ref b interp v = Err TypeError.
  Proof.
    intros WS WT WP SS ST SP Hv Hf Hi Hpos.
    assert (Hn : (length s1 < length (shape (arr S)))%nat) by (rewrite SS, app_length; cbn [length]; lia).
    assert (Hv' : process_vert_dim (VInt (Z.of_nat (length s1))) S = Ok (length s1)).
    { unfold ndim in *. rewrite process_vert_dim_int by (unfold ndim; lia). rewrite Z.mod_small by (unfold ndim; lia). rewrite Nat2Z.id. reflexivity. }
    destruct (process_casts_ok S T P _ s1 n s2 WS WT WP SS ST Hv' SP) as (s & t & p & Ec & Ls & Lt & Lp).
    assert (Hname : exists nm, make_pp interp "u" "interp" true 1 = Ok nm) by (destruct Hi as [-> | ->]; eexists; reflexivity).
    destruct Hname as (nm & En).
    unfold mixed_layer. rewrite Hf, En, Hv. cbn [bind]. rewrite Ec. cbn [bind vectorized].
    destruct Ls as (-> & _), Lt as (-> & _), Lp as (-> & _).
    destruct (list_eq_dec Nat.eq_dec _ _) as [_|E]; [|congruence].
    rewrite app_assoc, rev_app_distr. cbn [rev app]. rewrite rev_involutive.
    unfold buildM. pose proof (length_all_idx (s1 ++ s2)) as L. destruct (all_idx (s1 ++ s2)) as [|h l]; [cbn [length] in L; lia|]. reflexivity.
  Qed.
End Whole.
