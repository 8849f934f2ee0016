(** * _process_pin_cast: proofs *)
From Coq Require Import String ZArith Bool List Lia Arith.
From Verif Require Import Num Res Arr ArrLemmas Nd NdLemmas M_graph M_numpy M_lib S_lib P_numpy.
Import ListNotations.
Local Open Scope nat_scope.

Section Pin.
  Context {F : Type} {Nm : Num F}.

  Lemma searchsorted_label ls (v : F) i : increasing ls -> nth_error ls i = Some v -> searchsorted ls v = i.
  Proof.
    intros Hinc Hv. pose proof (nth_error_lt _ _ _ Hv) as Hi. apply searchsorted_ok; [lia| |].
    - intros j Hj Hl. destruct (nth_error ls j) as [u|] eqn:Eu; [|apply nth_error_None in Eu; lia].
      rewrite (nth_error_nth_iff _ _ _ _ Eu). apply (Hinc j i u v); [lia|assumption|assumption|lia].
    - intros j Hj Hl. destruct (nth_error ls j) as [u|] eqn:Eu; [|apply nth_error_None in Eu; lia].
      rewrite (nth_error_nth_iff _ _ _ _ Eu). apply (Hinc i j v u); [lia|assumption|assumption].
  Qed.

  Lemma process_pin_cast_ordered dims (index : string -> option (list F)) d idx :
    NoDup dims -> map fst d = dims -> (forall nm ls, index nm = Some ls -> increasing ls) ->
    selects dims index d idx ->
    process_pin_cast (PinDict d) index = Ok (map Z.of_nat idx).
  Proof.
    intros Hnd Hf Hinc (L1 & L2 & Hs). cbn [process_pin_cast].
    revert dims idx Hnd Hf L1 L2 Hs. induction d as [|[nm v] d IH]; intros dims idx Hnd Hf L1 L2 Hs; simpl in Hf; subst dims.
    - destruct idx; [reflexivity|discriminate].
    - destruct idx as [|i idx]; [discriminate|]. inversion Hnd as [|? ? Hn Hnd']; subst.
      destruct (Hs 0 nm i eq_refl eq_refl) as (ls & u & Hin & Hls & Hu).
      assert (u = v). { destruct Hin as [E|Hin]; [injection E; auto|]. exfalso. apply Hn. apply (in_map fst) in Hin. exact Hin. }
      subst u. cbn [mapM fst snd]. rewrite Hls. rewrite (searchsorted_label ls v i (Hinc _ _ Hls) Hu). cbn [bind].
      rewrite (IH (map fst d) idx Hnd' eq_refl); [reflexivity|simpl in L1; lia|rewrite map_length; reflexivity|].
      intros k nm' j Hk Hj. destruct (Hs (S k) nm' j Hk Hj) as (ls' & w & Hin' & Hls' & Hw). exists ls', w.
      split; [|auto]. destruct Hin' as [E|Hin']; [|assumption]. exfalso. injection E as <- <-. apply Hn. eapply nth_error_In; eauto.
  Qed.
End Pin.
