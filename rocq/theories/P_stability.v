(** * Static stability: counting *)
From Coq Require Import String ZArith Bool Reals Lra Lia List FinFun.
From Verif Require Import Num XR Res Arr ArrLemmas Nd NdLemmas XRlemmas M_lib M_ppinterp S_lib P_casts M_mixed_layer S_traj S_mixed_layer
  P_mixed_layer P_mixed_layer2 M_stability S_stability.
Import ListNotations.

Lemma NoDup_flat_map {A B} (f : A -> list B) l : NoDup l -> (forall x, In x l -> NoDup (f x)) ->
  (forall x y z, In x l -> In y l -> In z (f x) -> In z (f y) -> x = y) -> NoDup (flat_map f l).
Proof.
  induction l as [|a l IH]; intros Hl Hf Hd; simpl; [constructor|]. inversion Hl as [|? ? Ha Hl']; subst.
  assert (HI : NoDup (flat_map f l)).
  { apply IH; [assumption|intros; apply Hf; right; assumption|]. intros x y z Hx Hy. apply Hd; right; assumption. }
  assert (Hn : forall z, In z (f a) -> ~ In z (flat_map f l)).
  { intros z Hz Hin. apply in_flat_map in Hin. destruct Hin as (y & Hy & Hzy).
    apply Ha. rewrite (Hd a y z) by (auto using in_eq, in_cons). assumption. }
  specialize (Hf a (or_introl eq_refl)). revert Hf Hn HI. generalize (f a) (flat_map f l). intros u v Hu Hn Hv.
  induction u as [|x u IHu]; simpl; [assumption|]. inversion Hu; subst. constructor.
  - rewrite in_app_iff. intros [H|H]; [contradiction|]. apply (Hn x); [left; reflexivity|assumption].
  - apply IHu; [assumption|]. intros z Hz. apply Hn. right. assumption.
Qed.

Lemma NoDup_all_idx sh : NoDup (all_idx sh).
Proof.
  induction sh as [|n r IH]; simpl; [constructor; [intros []|constructor]|].
  apply NoDup_flat_map; [apply seq_NoDup| |].
  - intros i _. apply Injective_map_NoDup; [|assumption]. intros a b E. injection E. auto.
  - intros x y z _ _ Hx Hy. apply in_map_iff in Hx, Hy. destruct Hx as (a & <- & _), Hy as (b & E & _). injection E. auto.
Qed.

Lemma mapM_map {A B C} (g : A -> B) (f : B -> res C) (b : A -> C) l :
  (forall x, In x l -> f (g x) = Ok (b x)) -> mapM f (map g l) = Ok (map b l).
Proof.
  induction l as [|x l IH]; intros H; simpl; [reflexivity|]. rewrite H by (left; reflexivity). cbn [bind].
  rewrite IH by (intros; apply H; right; assumption). reflexivity.
Qed.

Lemma mapM_total {A B} (f : A -> res B) l : (forall x, In x l -> exists y, f x = Ok y) -> exists r, mapM f l = Ok r.
Proof.
  induction l as [|x l IH]; intros H; [exists []; reflexivity|]. destruct (H x (or_introl eq_refl)) as (y & Ey).
  destruct IH as (r & Er); [intros z Hz; apply H; right; exact Hz|]. exists (y :: r). simpl. rewrite Ey. cbn [bind]. rewrite Er. reflexivity.
Qed.
Lemma fold_left_ext_in {A B} (f g : A -> B -> A) l : (forall a b, In b l -> f a b = g a b) -> forall a, fold_left f l a = fold_left g l a.
Proof.
  induction l as [|x l IH]; intros H a; [reflexivity|]. cbn [fold_left]. rewrite (H a x (or_introl eq_refl)). apply IH. intros b y Hy. apply H. right. exact Hy.
Qed.
Lemma fold_left_ext {A B} (f g : A -> B -> A) l : (forall a b, f a b = g a b) -> forall a, fold_left f l a = fold_left g l a.
Proof. intros H. induction l as [|x l IH]; intros a; simpl; [reflexivity|]. rewrite H. apply IH. Qed.

Section Count.
  Context {F : Type} {N : Num F}.

  Lemma triples_map n (s t p : nd F) hs : removelast (shape s) = hs -> removelast (shape t) = hs -> removelast (shape p) = hs ->
    triples n s t p = map (fun h => (column s n h, column t n h, column p n h)) (all_idx hs).
  Proof.
    intros Hs Ht Hp. unfold triples, rows. rewrite Hs, Ht, Hp. induction (all_idx hs) as [|h l IH]; [reflexivity|].
    simpl. rewrite IH. reflexivity.
  Qed.

  (** the count, for a test that succeeds on every cast and level *)
  Lemma count_fold {A} (f : nat -> A -> res bool) (b : nat -> list nat -> bool) (tr : list nat -> A) hs m :
    (forall k h, k < m -> valid hs h -> f k (tr h) = Ok (b k h)) ->
    exists c, fold_left (fun acc k => let! acc := acc in let! l := mapM (f k) (map tr (all_idx hs)) in Ok (acc + count l)) (seq 0 m) (Ok 0) = Ok c
      /\ number_of (fun x => valid hs (fst x) /\ snd x < m /\ b (snd x) (fst x) = true) c.
  Proof.
    intros H.
    set (L := flat_map (fun k => map (fun h => (h, k)) (filter (b k) (all_idx hs))) (seq 0 m)).
    assert (E : forall ks a, (forall k, In k ks -> k < m) ->
      fold_left (fun acc k => let! acc := acc in let! l := mapM (f k) (map tr (all_idx hs)) in Ok (acc + count l)) ks (Ok a)
      = Ok (a + length (flat_map (fun k => map (fun h => (h, k)) (filter (b k) (all_idx hs))) ks))).
    { induction ks as [|k ks IH]; intros a Hk; simpl; [f_equal; lia|].
      rewrite (mapM_map tr (f k) (b k)). 2:{ intros h Hh. apply H; [apply Hk; left; reflexivity|]. apply in_all_idx. assumption. }
      cbn [bind]. rewrite IH by (intros; apply Hk; right; assumption). f_equal. rewrite app_length, map_length.
      replace (count (map (b k) (all_idx hs))) with (length (filter (b k) (all_idx hs))); [lia|].
      clear. unfold count. induction (all_idx hs) as [|h l IHl]; [reflexivity|]. cbn [filter map]. destruct (b k h); cbn [length]; rewrite IHl; reflexivity. }
    exists (length L). split.
    { rewrite E; [reflexivity|]. intros k Hk. apply in_seq in Hk. lia. }
    exists L. split; [|split; [reflexivity|]].
    - unfold L. apply NoDup_flat_map; [apply seq_NoDup| |].
      + intros k _. apply Injective_map_NoDup; [intros x y E'; congruence|]. apply NoDup_filter. apply NoDup_all_idx.
      + intros x y z _ _ Hx Hy. apply in_map_iff in Hx, Hy. destruct Hx as (? & <- & _), Hy as (? & E' & _). congruence.
    - intros [h k]. unfold L. rewrite in_flat_map. cbn [fst snd]. split.
      + intros (k' & Hk & Hin). apply in_map_iff in Hin. destruct Hin as (h' & E' & Hin). injection E' as -> ->.
        apply filter_In in Hin. destruct Hin as [Hin Hb]. apply in_all_idx in Hin. apply in_seq in Hk. repeat split; [assumption|lia|assumption].
      + intros (Hv & Hk & Hb). exists k. split; [apply in_seq; lia|]. apply in_map_iff. exists h. split; [reflexivity|].
        apply filter_In. split; [apply in_all_idx; assumption|assumption].
  Qed.

  Lemma number_of_split (Q : list nat -> list nat -> nat -> Prop) s1 s2 n (b : nat -> list nat -> bool) c :
    (forall h1 h2 k, valid s1 h1 -> valid s2 h2 -> k < n - 1 -> (b k (h1 ++ h2) = true <-> Q h1 h2 k)) ->
    number_of (fun x => valid (s1 ++ s2) (fst x) /\ snd x < n - 1 /\ b (snd x) (fst x) = true) c ->
    number_of (fun x => let '(h1, h2, k) := x in valid s1 h1 /\ valid s2 h2 /\ k + 1 < n /\ Q h1 h2 k) c.
  Proof.
    intros Hb (L & Hn & Hl & HL). exists (map (fun x => (firstn (length s1) (fst x), skipn (length s1) (fst x), snd x)) L).
    split; [|split; [rewrite map_length; assumption|]].
    - apply Injective_map_NoDup; [|assumption]. intros [h k] [h' k'] E. cbn [fst snd] in E. injection E as E1 E2 ->.
      f_equal. rewrite <- (firstn_skipn (length s1) h), <- (firstn_skipn (length s1) h'). congruence.
    - intros [[h1 h2] k]. rewrite in_map_iff. split.
      + intros ([h k'] & E & Hin). apply HL in Hin. cbn [fst snd] in *. injection E as <- <- ->. destruct Hin as (Hv & Hk & Hbt).
        apply valid_app_inv in Hv. destruct Hv as (i & j & -> & Hi & Hj). pose proof (valid_length _ _ Hi) as Li.
        rewrite <- Li. rewrite firstn_app, Nat.sub_diag, firstn_all, skipn_app, Nat.sub_diag, skipn_all. cbn [firstn skipn]. rewrite app_nil_r. cbn [app].
        repeat split; [assumption|assumption|lia|]. apply Hb; assumption.
      + intros (H1 & H2 & Hk & HQ). exists (h1 ++ h2, k). cbn [fst snd]. pose proof (valid_length _ _ H1) as Li. split.
        * rewrite <- Li. rewrite firstn_app, Nat.sub_diag, firstn_all, skipn_app, Nat.sub_diag, skipn_all. cbn [firstn skipn]. rewrite app_nil_r. reflexivity.
        * apply HL. cbn [fst snd]. split; [apply valid_app; assumption|]. split; [lia|]. apply Hb; [assumption|assumption|lia|assumption].
  Qed.
End Count.

Section Whole.
  Context {F : Type} {N : Num F}.
  Variables (S T P : @data F) (v : vdim) (s1 s2 : list nat) (n : nat).
  Hypothesis WS : wf (arr S).
  Hypothesis WT : wf (arr T).
  Hypothesis WP : wf (arr P).
  Hypothesis SS : shape (arr S) = s1 ++ n :: s2.
  Hypothesis ST : shape (arr T) = s1 ++ n :: s2.
  Hypothesis SP : shape (arr P) = s1 ++ n :: s2 \/ shape (arr P) = [n].
  Hypothesis Hv : process_vert_dim v S = Ok (length s1).
  Definition Px : list nat -> option F := fun ix => if Nat.eqb (ndim (arr P)) (ndim (arr S)) then at_ (arr P) ix else at_ (arr P) [nth (length s1) ix 0].

  Lemma hshape : removelast (s1 ++ s2 ++ [n]) = s1 ++ s2.
  Proof using. rewrite app_assoc, removelast_app by discriminate. apply app_nil_r. Qed.

  Lemma rev_shape : rev (s1 ++ s2 ++ [n]) = n :: rev (s1 ++ s2).
  Proof using. rewrite app_assoc, rev_app_distr. reflexivity. Qed.

  Lemma casts_ready : exists s t p, process_casts S T P v = Ok (s, t, p)
    /\ shape s = s1 ++ s2 ++ [n] /\ shape t = s1 ++ s2 ++ [n] /\ shape p = s1 ++ s2 ++ [n]
    /\ forall h1 h2, valid s1 h1 -> valid s2 h2 ->
         cast_at (at_ (arr S)) n h1 h2 (column s n (h1 ++ h2)) /\ cast_at (at_ (arr T)) n h1 h2 (column t n (h1 ++ h2))
         /\ cast_at Px n h1 h2 (column p n (h1 ++ h2)).
  Proof.
    destruct (process_casts_ok S T P v s1 n s2 WS WT WP SS ST Hv SP) as (s & t & p & Ec & Ls & Lt & Lp). fold Px in Lp.
    exists s, t, p. split; [exact Ec|]. split; [apply Ls|]. split; [apply Lt|]. split; [apply Lp|].
    intros h1 h2 H1 H2. split; [|split]; eapply column_cast; eassumption.
  Qed.

  (** one test per pair of levels and cast; Q says which ones are counted *)
  Lemma count_whole interp_two eos eos_s_t (f : nat -> trip -> res bool) (Q : list nat -> list nat -> nat -> Prop) :
    match interp_two with
    | None => exists f0, eos = Some f0 /\ f = unstable_fd f0
    | Some g => exists f0, eos_s_t = Some f0 /\ f = unstable_grad g f0
    end ->
    (forall h1 h2 k s t p, valid s1 h1 -> valid s2 h2 -> k + 1 < n ->
       cast_at (at_ (arr S)) n h1 h2 s -> cast_at (at_ (arr T)) n h1 h2 t -> cast_at Px n h1 h2 p ->
       exists b, f k (s, t, p) = Ok b /\ (b = true <-> Q h1 h2 k)) ->
    exists c, count_unstable S T P interp_two eos eos_s_t v = Ok c
      /\ number_of (fun x => let '(h1, h2, k) := x in valid s1 h1 /\ valid s2 h2 /\ k + 1 < n /\ Q h1 h2 k) c.
  Proof.
    intros Hf HQ. destruct casts_ready as (s & t & p & Ec & Es & Et & Ep & Hc).
    unfold count_unstable. rewrite Ec. cbn [bind]. rewrite Es, Et, Ep.
    destruct (list_eq_dec Nat.eq_dec (s1 ++ s2 ++ [n]) (s1 ++ s2 ++ [n])) as [_|C]; [|congruence].
    rewrite rev_shape. rewrite (triples_map n s t p (s1 ++ s2)) by (rewrite ?Es, ?Et, ?Ep; apply hshape).
    set (tr := fun h => (column s n h, column t n h, column p n h)).
    set (b := fun k h => match f k (tr h) with Ok b => b | Err _ => false end).
    assert (Hb : forall k h, k < n - 1 -> valid (s1 ++ s2) h -> f k (tr h) = Ok (b k h)).
    { intros k h Hk Hh. apply valid_app_inv in Hh. destruct Hh as (h1 & h2 & -> & H1 & H2). destruct (Hc h1 h2 H1 H2) as (A & B & C).
      destruct (HQ h1 h2 k _ _ _ H1 H2 ltac:(lia) A B C) as (r & E & _). unfold b. unfold tr. rewrite E. reflexivity. }
    destruct (count_fold f b tr (s1 ++ s2) (n - 1) Hb) as (c & Efold & Hnum). exists c. split.
    - rewrite <- Efold. apply fold_left_ext_in. intros [a|e] k Hk; [|reflexivity]. apply in_seq in Hk. cbn [bind].
      destruct interp_two as [g|]; destruct Hf as (f0 & -> & ->); cbn [called bind]; [|reflexivity].
      assert (Hi : exists l, mapM (interpolated g k) (map tr (all_idx (s1 ++ s2))) = Ok l).
      { apply mapM_total. intros c0 Hc0. apply in_map_iff in Hc0. destruct Hc0 as (h & <- & Hh). apply in_all_idx in Hh.
        specialize (Hb k h ltac:(lia) Hh). unfold tr in *. cbn [unstable_grad interpolated] in *.
        match type of Hb with bind ?y _ = _ => destruct y as [y'|]; [exists y'; reflexivity|discriminate Hb] end. }
      destruct Hi as (l & ->). reflexivity.
    - apply number_of_split with (b := b); [|exact Hnum]. intros h1 h2 k H1 H2 Hk. destruct (Hc h1 h2 H1 H2) as (A & B & C).
      destruct (HQ h1 h2 k _ _ _ H1 H2 ltac:(lia) A B C) as (r & E & Hr). unfold b, tr. rewrite E. exact Hr.
  Qed.
End Whole.

Lemma at0_nth {F} {N : Num F} (l : list F) k x : nth_error l k = Some x -> at0 l k = x.
Proof. intros H. unfold at0. apply nth_error_nth_iff. exact H. Qed.

Lemma fd_pair eos rho k sl tl_ pl u u' w w' q q' : sea_eos eos rho ->
  nth_error sl k = Some u -> nth_error sl (k + 1) = Some u' -> nth_error tl_ k = Some w -> nth_error tl_ (k + 1) = Some w' ->
  nth_error pl k = Some q -> nth_error pl (k + 1) = Some q' ->
  not_inf u -> not_inf u' -> not_inf w -> not_inf w' -> not_inf q -> not_inf q' ->
  exists b, unstable_fd eos k (sl, tl_, pl) = Ok b /\
    (b = true <-> exists s t p s' t' p', u = Fin s /\ w = Fin t /\ q = Fin p /\ u' = Fin s' /\ w' = Fin t' /\ q' = Fin p'
                    /\ (rho s' t' ((p + p') / 2) <= rho s t ((p + p') / 2))%R).
Proof.
  intros [Hr Hn] E1 E2 E3 E4 E5 E6 I1 I2 I3 I4 I5 I6. unfold unstable_fd. rewrite (at0_nth _ _ _ E1), (at0_nth _ _ _ E2), (at0_nth _ _ _ E3),
    (at0_nth _ _ _ E4), (at0_nth _ _ _ E5), (at0_nth _ _ _ E6).
  assert (Hd : forall x, div x (@lit xr _ 2 0) = match x with Fin r => Fin (r / 2) | x => x end).
  { cbn [div lit xrNum]. rewrite Rlit_0. intros [r| | |]; cbn; try reflexivity.
    - destruct (Req_EM_T 2 0); [lra|reflexivity].
    - destruct (Rlt_dec 2 0); [lra|reflexivity].
    - destruct (Rlt_dec 2 0); [lra|reflexivity]. }
  rewrite Hd.
  assert (Bad : forall z z', (z = Ok NaN \/ z' = Ok NaN) -> (exists y, z = Ok y) -> (exists y, z' = Ok y) ->
    (let! r1 := z in let! r2 := z' in Ok (leb (Num := xrNum) r2 r1)) = Ok false).
  { intros z z' H [y ->] [y' ->]. cbn [bind]. destruct H as [E|E]; injection E as ->; [destruct y'|destruct y]; reflexivity. }
  assert (No : forall X : Prop, ~ X -> (false = true <-> X)) by (intros X HX; split; [discriminate|contradiction]).
  assert (Tot : forall a b c, not_inf a -> not_inf b -> not_inf c -> exists y, eos a b c = Ok y).
  { intros a b c [-> | [a' ->]] [-> | [b' ->]] [-> | [c' ->]]; try (exists NaN; apply Hn; auto; fail). exists (Fin (rho a' b' c')). apply Hr. }
  destruct I5 as [-> | [p ->]].
  { exists false. split; [|apply No; intros (?&?&?&?&?&?&_&_&C&_); discriminate].
    assert (Ep : xr_add NaN q' = NaN) by reflexivity. cbn [add xrNum]. rewrite Ep. rewrite !Hn by auto. reflexivity. }
  destruct I6 as [-> | [p' ->]].
  { exists false. split; [|apply No; intros (?&?&?&?&?&?&_&_&_&_&_&C&_); discriminate].
    cbn [add xrNum xr_add]. rewrite !Hn by auto. reflexivity. }
  cbn [add xrNum xr_add].
  assert (Ip : not_inf (Fin ((p + p') / 2))) by (right; eauto).
  destruct I1 as [-> | [a ->]].
  { exists false. split; [|apply No; intros (?&?&?&?&?&?&C&_); discriminate]. apply Bad; [left; apply Hn; auto|apply Tot; auto; left; reflexivity|apply Tot; auto]. }
  destruct I2 as [-> | [a' ->]].
  { exists false. split; [|apply No; intros (?&?&?&?&?&?&_&_&_&C&_); discriminate]. apply Bad; [right; apply Hn; auto|apply Tot; auto; right; eauto|apply Tot; auto; left; reflexivity]. }
  destruct I3 as [-> | [b ->]].
  { exists false. split; [|apply No; intros (?&?&?&?&?&?&_&C&_); discriminate]. apply Bad; [left; apply Hn; auto|apply Tot; auto; try (left; reflexivity); right; eauto|apply Tot; auto; right; eauto]. }
  destruct I4 as [-> | [b' ->]].
  { exists false. split; [|apply No; intros (?&?&?&?&?&?&_&_&_&_&C&_); discriminate]. apply Bad; [right; apply Hn; auto|apply Tot; auto; right; eauto|apply Tot; auto; try (left; reflexivity); right; eauto]. }
  rewrite !Hr. cbn [bind]. eexists. split; [reflexivity|].
  assert (Hl : forall x y, leb (Num := xrNum) (Fin x) (Fin y) = true <-> (x <= y)%R).
  { intros x y. cbn. unfold Rleb, Rltb, Reqb. destruct (Rle_dec x y); split; intros; try discriminate; try reflexivity; lra. }
  rewrite Hl. split.
  - intros H. exists a, b, p, a', b', p'. auto 10.
  - intros (s0 & t0 & p0 & s0' & t0' & p0' & X1 & X2 & X3 & X4 & X5 & X6 & H). injection X1 as <-. injection X2 as <-. injection X3 as <-.
    injection X4 as <-. injection X5 as <-. injection X6 as <-. exact H.
Qed.

Lemma no_inf_at (a : nd xr) ix x : no_inf a -> at_ a ix = Some x -> not_inf x.
Proof. intros H E. apply H. unfold at_ in E. eapply nth_error_In; eassumption. Qed.

Lemma count_pairs (S T P : data) v s1 s2 n eos rho :
  wf (arr S) -> wf (arr T) -> wf (arr P) ->
  shape (arr S) = s1 ++ n :: s2 -> shape (arr T) = s1 ++ n :: s2 -> (shape (arr P) = s1 ++ n :: s2 \/ shape (arr P) = [n]) ->
  process_vert_dim v S = Ok (length s1) ->
  no_inf (arr S) -> no_inf (arr T) -> no_inf (arr P) -> sea_eos eos rho ->
  exists c, count_unstable S T P None (Some eos) None v = Ok c
    /\ number_of (fun x => let '(h1, h2, k) := x in valid s1 h1 /\ valid s2 h2 /\ k + 1 < n
                    /\ wrong_order rho (at_ (arr S)) (at_ (arr T)) (Px S P s1) h1 h2 k) c.
Proof.
  intros WS WT WP SS ST SP Hv NS NT NP He.
  apply (count_whole S T P v s1 s2 n WS WT WP SS ST SP Hv None (Some eos) None (unstable_fd eos)).
  - exists eos. split; reflexivity.
  - intros h1 h2 k s t p H1 H2 Hk [Ls Cs] [Lt Ct] [Lp Cp].
    assert (G : forall (l : list xr) (x : list nat -> option xr), length l = n -> (forall k, k < n -> nth_error l k = x (h1 ++ k :: h2)) ->
       exists u u', x (h1 ++ k :: h2) = Some u /\ x (h1 ++ (k + 1) :: h2) = Some u' /\ nth_error l k = Some u /\ nth_error l (k + 1) = Some u').
    { intros l x L C. destruct (nth_error l k) as [u|] eqn:E; [|apply nth_error_None in E; lia].
      destruct (nth_error l (k + 1)) as [u'|] eqn:E'; [|apply nth_error_None in E'; lia].
      exists u, u'. rewrite <- !C by lia. auto. }
    destruct (G s _ Ls Cs) as (u & u' & X1 & X2 & Y1 & Y2). destruct (G t _ Lt Ct) as (w & w' & X3 & X4 & Y3 & Y4).
    destruct (G p _ Lp Cp) as (q & q' & X5 & X6 & Y5 & Y6).
    assert (NPx : forall ix y, Px S P s1 ix = Some y -> not_inf y) by (intros ix y; unfold Px; destruct (Nat.eqb _ _); apply no_inf_at; exact NP).
    destruct (fd_pair eos rho k s t p u u' w w' q q' He Y1 Y2 Y3 Y4 Y5 Y6) as (b & Eb & Hb);
      eauto using no_inf_at.
    exists b. split; [exact Eb|]. rewrite Hb. unfold wrong_order. rewrite X1, X2, X3, X4, X5, X6.
    split; intros (a1 & a2 & a3 & a4 & a5 & a6 & E1 & E2 & E3 & E4 & E5 & E6 & H);
      exists a1, a2, a3, a4, a5, a6; repeat split; congruence || assumption.
Qed.

(** ** A keyword argument that is needed but absent *)
Lemma fold_err {A} (f : res nat -> A -> res nat) e l : (forall x, f (Err e) x = Err e) -> fold_left f l (Err e) = Err e.
Proof. intros H. induction l as [|x l IH]; [reflexivity|]. cbn [fold_left]. rewrite H. exact IH. Qed.

Lemma count_missing {F} {N : Num F} (S T P : data) v s1 s2 n g eos eos_s_t :
  wf (arr S) -> wf (arr T) -> wf (arr P) ->
  shape (arr S) = s1 ++ n :: s2 -> shape (arr T) = s1 ++ n :: s2 -> (shape (arr P) = s1 ++ n :: s2 \/ shape (arr P) = [n]) ->
  process_vert_dim v S = Ok (length s1) ->
  (n <= 1 -> forall interp_two eos eos_s_t, count_unstable S T P interp_two eos eos_s_t v = Ok 0)
  /\ (2 <= n -> count_unstable S T P None None eos_s_t v = Err TypeError)
  /\ (2 <= n -> (forall pk p s t, exists d, g pk p s t 1 = Ok d) -> count_unstable S T P (Some g) eos None v = Err TypeError).
Proof.
  intros WS WT WP SS ST SP Hv. destruct (casts_ready S T P v s1 s2 n WS WT WP SS ST SP Hv) as (s & t & p & Ec & Es & Et & Ep & _).
  unfold count_unstable. rewrite Ec. cbn [bind]. rewrite Es, Et, Ep.
  destruct (list_eq_dec Nat.eq_dec (s1 ++ s2 ++ [n]) (s1 ++ s2 ++ [n])) as [_|C]; [|congruence]. rewrite rev_shape. split; [|split].
  - intros Hn i e e'. replace (n - 1) with 0 by lia. reflexivity.
  - intros Hn. destruct (n - 1) as [|m] eqn:Em; [lia|]. cbn [seq fold_left bind called]. apply fold_err. reflexivity.
  - intros Hn Hg. destruct (n - 1) as [|m] eqn:Em; [lia|]. cbn [seq fold_left bind called].
    destruct (mapM_total (interpolated g 0) (triples n s t p)) as (l & ->); [|apply fold_err; reflexivity].
    intros [[x y] z] _. apply Hg.
Qed.
