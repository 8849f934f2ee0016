(** * Memoisation: proofs *)
From Coq Require Import List Bool Arith Lia.
From Verif Require Import Res M_cache S_cache.
Import ListNotations.

Section P.
  Context {K V : Type}.
  Variable keq : K -> K -> bool.
  Variable raw : K -> res V.
  Variable maxsize : nat.

  (** every entry holds the value of its own key *)
  Definition sound (c : @cache K V) : Prop := forall e, In e c -> raw (fst e) = Ok (snd e).

  Lemma take_in : forall k (c : @cache K V) e r, take_entry keq k c = Some (e, r) ->
    In e c /\ keq (fst e) k = true /\ (forall x, In x r -> In x c) /\ length c = S (length r).
  Proof.
    intros k c. induction c as [|a c IH]; intros e r H; cbn in H; [discriminate|].
    destruct (keq (fst a) k) eqn:E.
    - injection H as <- <-. repeat split; auto with datatypes.
    - destruct (take_entry keq k c) as [[e' r']|]; [|discriminate]. injection H as <- <-.
      destruct (IH e' r' eq_refl) as (H1 & H2 & H3 & H4). repeat split; auto with datatypes.
      + intros x [->|Hx]; auto with datatypes.
      + cbn. lia.
  Qed.

  Lemma call_ok : forall k c v b c', sound c -> length c <= maxsize ->
    call keq raw maxsize k c = (v, b, c') -> sound c' /\ length c' <= maxsize /\
    ((b = true /\ v = raw k) \/ (b = false /\ exists k0, keq k0 k = true /\ v = raw k0)).
  Proof.
    intros k c v b c' Hs Hl H. unfold call in H.
    destruct (take_entry keq k c) as [[e r]|] eqn:E.
    - destruct (take_in _ _ _ _ E) as (H1 & H2 & H3 & H4). injection H as <- <- <-.
      split; [|split].
      + intros x [<-|Hx]; [apply Hs, H1|]. apply Hs, H3, Hx.
      + cbn. lia.
      + right. split; [reflexivity|]. exists (fst e). split; [exact H2|]. symmetry. apply Hs, H1.
    - destruct (raw k) as [w|x] eqn:Er; injection H as <- <- <-.
      + split; [|split].
        * intros y Hy. apply firstn_In in Hy || (assert (In y ((k, w) :: c)) by (rewrite <- (firstn_skipn maxsize); apply in_or_app; left; exact Hy)).
          destruct H as [<-|H]; [exact Er|]. apply Hs, H.
        * rewrite firstn_length. lia.
        * left. split; reflexivity.
      + split; [exact Hs|]. split; [exact Hl|]. left. split; reflexivity.
  Qed.

  Lemma calls_ok : forall l c, sound c -> length c <= maxsize ->
    (forall k k', keq k k' = true -> raw k = raw k') ->
    map fst (fst (calls keq raw maxsize l c)) = map raw l /\
    length (snd (calls keq raw maxsize l c)) <= maxsize.
  Proof.
    induction l as [|k l IH]; intros c Hs Hl Hr; cbn [calls].
    - split; [reflexivity|exact Hl].
    - destruct (call keq raw maxsize k c) as [[v b] c'] eqn:E.
      destruct (call_ok _ _ _ _ _ Hs Hl E) as (Hs' & Hl' & Hv).
      destruct (IH c' Hs' Hl' Hr) as (H1 & H2).
      destruct (calls keq raw maxsize l c') as [vs c'']. cbn [fst snd map] in *. split; [|exact H2].
      f_equal; [|exact H1]. destruct Hv as [(_ & ->)|(_ & k0 & Hk & ->)]; [reflexivity|]. apply Hr, Hk.
  Qed.

  Variable K_dec : forall a b : K, {a = b} + {a <> b}.
  Hypothesis keq_spec : forall a b, keq a b = true <-> a = b.

  Lemma take_remove : forall k (c : @cache K V), NoDup (map fst c) ->
    match take_entry keq k c with
    | Some (e, r) => fst e = k /\ map fst r = remove K_dec k (map fst c)
    | None => ~ In k (map fst c)
    end.
  Proof.
    intros k c. induction c as [|a c IH]; intro Hn; cbn; [tauto|].
    inversion Hn as [|? ? Ha Hn']; subst.
    destruct (keq (fst a) k) eqn:E.
    - apply keq_spec in E. split; [exact E|]. destruct (K_dec k (fst a)); [|congruence].
      symmetry. apply notin_remove. rewrite <- E. exact Ha.
    - assert (Hne : fst a <> k) by (intro Hc; apply keq_spec in Hc; congruence).
      specialize (IH Hn'). destruct (take_entry keq k c) as [[e r]|].
      + destruct IH as (H1 & H2). split; [exact H1|]. destruct (K_dec k (fst a)); [congruence|].
        cbn. rewrite H2. reflexivity.
      + intros [H|H]; auto.
  Qed.

  Lemma remove_nodup : forall k l, NoDup l -> NoDup (remove K_dec k l).
  Proof.
    intros k l H. induction H as [|a l Ha H IH]; cbn; [constructor|].
    destruct (K_dec k a); [exact IH|]. constructor; [|exact IH]. intro Hc. apply in_remove in Hc. tauto.
  Qed.

  Lemma recent_nodup : forall l, NoDup (recent K_dec l).
  Proof.
    induction l as [|k l IH]; cbn; [constructor|]. constructor; [apply remove_In|]. apply remove_nodup, IH.
  Qed.

  Lemma firstn_nodup : forall n (l : list K), NoDup l -> NoDup (firstn n l).
  Proof.
    intros n l H. rewrite <- (firstn_skipn n l) in H. revert H. generalize (firstn n l), (skipn n l).
    intros a b. induction a as [|x a IH]; intro H; [constructor|]. inversion H; subst. constructor.
    - intro Hc. apply H2. apply in_or_app. left. exact Hc.
    - apply IH. assumption.
  Qed.

  (** hit: moving to the front *)
  Lemma firstn_hit : forall m k l, NoDup l -> In k (firstn m l) ->
    k :: remove K_dec k (firstn m l) = firstn m (k :: remove K_dec k l).
  Proof.
    intros m k l. revert m. induction l as [|a l IH]; intros m Hn H; [rewrite firstn_nil in H; contradiction|].
    destruct m as [|m]; [contradiction|]. cbn [firstn]. f_equal. inversion Hn as [|? ? Ha Hn']; subst.
    cbn [remove]. destruct (K_dec k a) as [<-|Hne].
    - rewrite !notin_remove; [reflexivity|exact Ha|].
      intro Hc. apply Ha. rewrite <- (firstn_skipn m l). apply in_or_app. left. exact Hc.
    - destruct H as [H|H]; [congruence|]. destruct m as [|m]; [contradiction|]. cbn [firstn]. f_equal.
      specialize (IH (S m) Hn' H). cbn [firstn] in IH. injection IH as IH. exact IH.
  Qed.

  (** miss: inserting and dropping the oldest *)
  Lemma firstn_miss : forall m k l, ~ In k (firstn m l) ->
    firstn m (k :: firstn m l) = firstn m (k :: remove K_dec k l).
  Proof.
    intros m k l H. destruct m as [|m]; [reflexivity|]. rewrite !firstn_cons. f_equal.
    rewrite firstn_firstn, Nat.min_l by lia. revert m H.
    induction l as [|a l IH]; intros m H; [destruct m; reflexivity|].
    cbn [firstn] in H. cbn [remove]. destruct (K_dec k a) as [<-|Hne]; [exfalso; apply H; left; reflexivity|].
    destruct m as [|m]; [reflexivity|]. cbn [firstn]. f_equal. apply IH. intro Hc. apply H. right. exact Hc.
  Qed.

  Lemma map_firstn' : forall A B (f : A -> B) n l, map f (firstn n l) = firstn n (map f l).
  Proof. intros A B f n l. symmetry. apply firstn_map. Qed.

  (** used: the keys successfully used, latest first *)
  Lemma call_recent : forall k c v b c' used,
    map fst c = firstn maxsize (recent K_dec used) ->
    call keq raw maxsize k c = (v, b, c') ->
    (b = false <-> In k (firstn maxsize (recent K_dec used))) /\
    map fst c' = firstn maxsize (recent K_dec (if is_ok v then k :: used else used)).
  Proof.
    intros k c v b c' used Hc H. pose proof (recent_nodup used) as Hn.
    assert (Hnc : NoDup (map fst c)) by (rewrite Hc; apply firstn_nodup, Hn).
    pose proof (take_remove k c Hnc) as Ht. unfold call in H.
    destruct (take_entry keq k c) as [[e r]|] eqn:Et.
    - destruct Ht as (H1 & H2). injection H as <- <- <-. destruct (take_in _ _ _ _ Et) as (H3 & _).
      assert (Hin : In k (firstn maxsize (recent K_dec used))).
      { rewrite <- Hc, <- H1. apply in_map, H3. }
      split; [tauto|]. cbn [is_ok map recent]. rewrite H1, H2, Hc. apply firstn_hit; assumption.
    - rewrite Hc in Ht. destruct (raw k) as [w|x]; injection H as <- <- <-.
      + split; [split; [discriminate|contradiction]|]. cbn [is_ok recent].
        rewrite map_firstn'. cbn [map fst]. rewrite Hc. apply firstn_miss. exact Ht.
      + split; [split; [discriminate|contradiction]|]. exact Hc.
  Qed.
End P.

Lemma transparent : forall (K V : Type) (keq : K -> K -> bool) (raw : K -> res V) maxsize,
  (forall k k', keq k k' = true -> raw k = raw k') ->
  forall history, let run := calls keq raw maxsize history [] in
  map fst (fst run) = map raw history /\ length (snd run) <= maxsize.
Proof.
  intros K V keq raw maxsize Hr history run. apply calls_ok; [|cbn; lia|exact Hr].
  intros e [].
Qed.

(** when keys compare by identity: what the cache holds and when the function is called *)
Lemma lru : forall (K V : Type) (K_dec : forall a b : K, {a = b} + {a <> b}) (keq : K -> K -> bool) (raw : K -> res V) maxsize,
  (forall a b, keq a b = true <-> a = b) ->
  forall before k, let ok k := is_ok (raw k) in
  let c := snd (calls keq raw maxsize before []) in
  map fst c = firstn maxsize (recent K_dec (rev (filter ok before))) /\
  (snd (fst (call keq raw maxsize k c)) = false <->
     In k (firstn maxsize (recent K_dec (rev (filter ok before))))).
Proof.
  intros K V K_dec keq raw maxsize Hk before k ok c.
  assert (Hr : forall k k', keq k k' = true -> raw k = raw k') by (intros ? ? E; apply Hk in E; congruence).
  assert (G : forall l c0 used, sound raw c0 -> length c0 <= maxsize ->
            map fst c0 = firstn maxsize (recent K_dec used) ->
            map fst (snd (calls keq raw maxsize l c0)) = firstn maxsize (recent K_dec (rev (filter ok l) ++ used))).
  { induction l as [|x l IH]; intros c0 used Hs Hl H; cbn [calls filter]; [exact H|].
    destruct (call keq raw maxsize x c0) as [[v b] c'] eqn:E.
    destruct (call_ok _ _ _ _ _ _ _ _ Hs Hl E) as (Hs' & Hl' & Hv).
    assert (Ev : v = raw x) by (destruct Hv as [(_ & ->)|(_ & k0 & Hk0 & ->)]; auto).
    destruct (call_recent keq raw maxsize K_dec Hk _ _ _ _ _ used H E) as (_ & Hc).
    specialize (IH c' _ Hs' Hl' Hc). destruct (calls keq raw maxsize l c') as [vs c'']. cbn [snd] in *.
    rewrite IH, Ev. unfold ok at 2. destruct (is_ok (raw x)); [|reflexivity].
    cbn [rev]. rewrite <- app_assoc. reflexivity. }
  assert (H0 : map fst c = firstn maxsize (recent K_dec (rev (filter ok before)))).
  { unfold c. rewrite (G before [] []); [rewrite app_nil_r; reflexivity|intros e []|cbn; lia|].
    cbn. rewrite firstn_nil. reflexivity. }
  split; [exact H0|].
  destruct (call keq raw maxsize k c) as [[v b] c'] eqn:E. cbn [fst snd].
  exact (proj1 (call_recent keq raw maxsize K_dec Hk _ _ _ _ _ _ H0 E)).
Qed.
