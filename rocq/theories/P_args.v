(** * Arguments *)
From Coq Require Import Ascii String ZArith Bool List Lia.
From Verif Require Import Num Res Arr ArrLemmas Nd M_graph M_ppinterp M_vertsolve M_xgcm S_graph S_vertsolve S_args P_csr P_isopycnal.
Import ListNotations.
Local Open Scope nat_scope.

Lemma largest_max edges m : largest_node edges m <-> max_node edges = Ok m.
Proof.
  split; [|apply max_node_spec]. intros [H (a & b & Hin & Hab)]. destruct edges as [|e r]; [destruct Hin|].
  assert (E : exists m', max_node (e :: r) = Ok m') by (destruct e; eexists; reflexivity). destruct E as [m' E].
  destruct (max_node_spec _ _ E) as [H' (a' & b' & Hin' & Hab')].
  specialize (H _ _ Hin'). specialize (H' _ _ Hin). rewrite E. f_equal. lia.
Qed.
Lemma count_num edges N0 N : node_count edges N0 N -> num_nodes edges N0 = Ok N.
Proof. destruct N0 as [n|]; cbn [node_count num_nodes]; [intros ->; reflexivity|]. intros (m & Hm & ->). apply largest_max in Hm. rewrite Hm. reflexivity. Qed.
Lemma no_edges (junk_p junk_i : list nat) : edges_to_csr junk_p junk_i [] None = Err ValueError.
Proof. reflexivity. Qed.

Lemma wrap_iff n i : (exists j, wrap_index n i = Some j) <-> axis_index n i.
Proof.
  unfold wrap_index, axis_index. split.
  - intros [j E]. destruct ((_ <=? _)%Z && (_ <? _)%Z) eqn:H; [|discriminate]. lia.
  - intros H. replace ((- Z.of_nat n <=? i)%Z && (i <? Z.of_nat n)%Z) with true by lia. eexists. reflexivity.
Qed.
Lemma wrap_all_iff : forall t sh, (exists r, wrap_all sh t = Some r) <->
  length t <= length sh /\ forall k i n, nth_error t k = Some i -> nth_error sh k = Some n -> axis_index n i.
Proof.
  induction t as [|i t IH]; intros sh.
  - cbn. split; [intros _; split; [lia|]; intros [|k]; discriminate|]. intros _. destruct sh; eexists; reflexivity.
  - destruct sh as [|n sh]; cbn [wrap_all].
    + split; [intros [r E]; discriminate|]. intros [H _]. cbn in H. lia.
    + pose proof (wrap_iff n i) as Hw. specialize (IH sh). split.
      * intros [r E]. destruct (wrap_index n i) as [j|] eqn:Ej; [|discriminate]. destruct (wrap_all sh t) as [q|] eqn:Eq; [|discriminate].
        destruct (proj1 IH (ex_intro _ q eq_refl)) as [L H]. cbn [length]. split; [lia|]. intros [|k] i' n' Hi Hn.
        -- cbn in Hi, Hn. injection Hi as <-. injection Hn as <-. apply Hw. eexists. reflexivity.
        -- exact (H k i' n' Hi Hn).
      * intros [L H]. cbn [length] in L. destruct (proj2 Hw (H 0 i n eq_refl eq_refl)) as [j ->].
        destruct (proj2 IH) as [q ->]; [|eexists; reflexivity]. split; [lia|]. intros k i' n' Hi Hn. exact (H (S k) i' n' Hi Hn).
Qed.
Lemma may_can sh c : may_index sh c <-> can_index sh c = true.
Proof.
  destruct c as [|t|l]; cbn [may_index can_index].
  - tauto.
  - rewrite <- wrap_all_iff. destruct (wrap_all sh t) as [r|]; split; try congruence; [eexists; reflexivity|intros [r E]; discriminate].
  - destruct sh as [|n sh]; [split; [intros (n & r & E & _); discriminate|discriminate]|]. rewrite forallb_forall. split.
    + intros (n' & r & E & H) i Hi. injection E as <- _. destruct (proj2 (wrap_iff n i) (H i Hi)) as [j ->]. reflexivity.
    + intros H. exists n, sh. split; [reflexivity|]. intros i Hi. apply wrap_iff. specialize (H i Hi). destruct (wrap_index n i); [eexists; reflexivity|discriminate].
Qed.

Lemma word_side w b : word_for b w <-> side w = Ok b.
Proof.
  split.
  - intros [r ->]. destruct b; reflexivity.
  - destruct w as [|c w]; cbn [side]; [discriminate|]. intros H. exists w. destruct (Ascii.eqb_spec c "l"%char) as [->|_].
    + assert (b = false) by congruence. subst b. reflexivity.
    + destruct (Ascii.eqb_spec c "r"%char) as [->|_]; [|discriminate]. assert (b = true) by congruence. subst b. reflexivity.
Qed.

Lemma knots_last {F} {Nm : Num F} (C : list (list F)) Y : knot_values C Y -> last_col C = Y.
Proof. induction 1 as [|row y C Y [r ->] _ IH]; [reflexivity|]. unfold last_col in *. cbn [map]. rewrite IH, last_last. reflexivity. Qed.

Lemma check_iff :
  forall (F : Type) a (ref : @refarg F) isoval pin_cast (pin_p : @pinp F) sh,
    check_ref a ref isoval pin_cast pin_p sh = Ok tt <->
      (if given_ref ref then given_iso isoval = true \/ (pin_cast <> CNone /\ pin_p <> PNone)
       else pin_cast <> CNone /\ pin_p <> PNone)
      /\ match ref with
         | RNone => True
         | RFloat _ => a = Potential
         | RPair _ _ => a = Anomaly
         | ROther => False
         end
      /\ may_index sh pin_cast /\ pin_p <> POther.
Proof. intros F a ref isoval pin_cast pin_p sh. rewrite may_can. apply check_ref_iff. Qed.
