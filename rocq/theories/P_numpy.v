(** * Binary search *)
From Coq Require Import List Lia Arith.
From Verif Require Import Num M_numpy.
Import ListNotations.

Section Numpy.
  Context {F : Type} {N : Num F}.

  Lemma bsearch_ok ls (v : F) i :
    (forall j, j < i -> j < length ls -> ltb (nth j ls nan) v = true) ->
    (forall j, i <= j -> j < length ls -> ltb (nth j ls nan) v = false) ->
    forall fuel lo hi, hi - lo <= fuel -> lo <= i <= hi -> hi <= length ls -> bsearch fuel ls v lo hi = i.
  Proof.
    intros Hlt Hge. induction fuel as [|fuel IH]; intros lo hi Hf Hi Hh; cbn [bsearch]; [lia|].
    destruct (Nat.ltb_spec lo hi) as [Hl|Hl]; [|lia].
    assert (Hm : (hi - lo) / 2 < hi - lo) by (apply Nat.div_lt; lia). set (q := (hi - lo) / 2) in *.
    destruct (Nat.lt_ge_cases (lo + q) i) as [Hc|Hc].
    - rewrite Hlt by lia. apply IH; lia.
    - rewrite Hge by lia. apply IH; lia.
  Qed.

  (** searchsorted is the number of labels below v *)
  Lemma searchsorted_ok ls (v : F) i : i <= length ls ->
    (forall j, j < i -> j < length ls -> ltb (nth j ls nan) v = true) ->
    (forall j, i <= j -> j < length ls -> ltb (nth j ls nan) v = false) ->
    searchsorted ls v = i.
  Proof. intros Hi H1 H2. apply bsearch_ok; auto; lia. Qed.

  (** sorted or not: the element found is not below x, the one before it is *)
  Lemma bsearch_edges ls (x : F) : forall fuel lo hi, hi - lo <= fuel -> lo <= hi ->
    let j := bsearch fuel ls x lo hi in
    lo <= j <= hi /\ (lo < j -> ltb (nth (j - 1) ls nan) x = true) /\ (j < hi -> ltb (nth j ls nan) x = false).
  Proof.
    induction fuel as [|fuel IH]; intros lo hi Hf Hi; cbn [bsearch]; cbv zeta; [repeat split; lia|].
    destruct (Nat.ltb_spec lo hi) as [Hl|Hl]; [|repeat split; lia].
    assert (Hm : (hi - lo) / 2 < hi - lo) by (apply Nat.div_lt; lia). set (q := (hi - lo) / 2) in *.
    destruct (ltb (nth (lo + q) ls nan) x) eqn:E.
    - destruct (IH (lo + q + 1) hi ltac:(lia) ltac:(lia)) as (A & B & C). set (j := bsearch fuel ls x (lo + q + 1) hi) in *.
      split; [lia|]. split; [|assumption]. intros _. destruct (Nat.eq_dec j (lo + q + 1)) as [->|]; [|apply B; lia].
      replace (lo + q + 1 - 1) with (lo + q) by lia. assumption.
    - destruct (IH lo (lo + q) ltac:(lia) ltac:(lia)) as (A & B & C). set (j := bsearch fuel ls x lo (lo + q)) in *.
      split; [lia|]. split; [assumption|]. intros _. destruct (Nat.eq_dec j (lo + q)) as [->|]; [assumption|apply C; lia].
  Qed.

  Lemma searchsorted_edges ls (x : F) : let j := searchsorted ls x in
    j <= length ls /\ (0 < j -> ltb (nth (j - 1) ls nan) x = true) /\ (j < length ls -> ltb (nth j ls nan) x = false).
  Proof. destruct (bsearch_edges ls x (length ls) 0 (length ls)) as (A & B & C); try lia. cbv zeta. tauto. Qed.
End Numpy.
