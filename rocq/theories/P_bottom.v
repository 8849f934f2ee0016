(** * find_first_nan and val_at together: the bottom value of each cast *)
From Coq Require Import ZArith Bool List Lia Arith.
From Verif Require Import Num Res Arr ArrLemmas Nd NdLemmas M_graph M_lib S_lib P_lib P_casts.
Import ListNotations.
Local Open Scope nat_scope.

Section Bottom.
  Context {F : Type} {Nm : Num F}.


  Lemma bottom_ok (T : nd F) sh n :
    wf T -> shape T = sh ++ [n] -> sh <> [] -> ~ In 1 sh -> 0 < n ->
    exists k Tk, find_first_nan T (-1) = Ok k /\ val_at T (KArr (minus1 k)) = Ok (Tk, T) /\ shape Tk = sh
      /\ forall h, valid sh h -> exists K, first_nan (fun j => at_ T (h ++ [j])) n K
           /\ at_ Tk h = if Nat.eqb K 0 then Some nan else at_ T (h ++ [K - 1]).
  Proof.
    intros W Hs Hne H1 Hn.
    assert (Hnd : ndim T = length sh + 1) by (unfold ndim; rewrite Hs, app_length; reflexivity).
    destruct (find_first_nan_ok T (-1) sh n [] W Hs) as (k & Ek & Sk & Wk & Hk).
    { rewrite Hnd. rewrite <- (Z.mod_add _ 1) by lia. rewrite Z.mod_small by lia. lia. }
    rewrite app_nil_r in Sk.
    assert (Wk' : wf (minus1 k)) by (unfold wf, minus1 in *; simpl; rewrite map_length; assumption).
    assert (Hat : forall h, valid sh h -> exists K, at_ k h = Some K /\ at_ (minus1 k) h = Some (Z.of_nat K - 1)%Z
       /\ first_nan (fun j => at_ T (h ++ [j])) n K).
    { intros h Hv. destruct (Hk h [] Hv) as (K & HK & HF); [constructor|]. rewrite app_nil_r in HK.
      exists K. split; [assumption|]. split; [|exact HF]. unfold at_, minus1 in *. simpl. rewrite nth_error_map, HK. reflexivity. }
    destruct (val_at_nd T (minus1 k) n W Wk') as (Tk & E & STk & WTk & H).
    - simpl. rewrite Sk. assumption.
    - rewrite Hnd. destruct sh; [congruence|]. simpl. lia.
    - simpl. rewrite Sk. assumption.
    - intros h z Hv Hz. simpl in Hv. rewrite Sk in Hv. destruct (Hat h Hv) as (K & _ & HK & HF & _).
      rewrite HK in Hz. injection Hz as <-. unfold in_axis. lia.
    - exists k, Tk. split; [assumption|]. split; [assumption|]. split; [rewrite STk; assumption|].
      intros h Hv. destruct (Hat h Hv) as (K & _ & HK & HF). exists K. split; [assumption|].
      specialize (H h (Z.of_nat K - 1)%Z). simpl in H. rewrite Sk in H. specialize (H Hv HK). unfold value_at in H.
      destruct (Nat.eqb_spec K 0) as [->|HK0].
      + exact H.
      + rewrite (proj2 (Z.ltb_ge _ _)) in H by lia. rewrite H. f_equal. f_equal. f_equal. lia.
  Qed.
End Bottom.
