(** * Witnesses for the grids *)
From Coq Require Import Ascii String List ZArith Bool Lia Permutation.
From Verif Require Import Num Res Arr ArrLemmas Nd NdLemmas M_grid M_xgcm S_graph S_grid S_xgcm S_args P_lib P_tab P_grid P_edgedata P_tripolar P_select P_xgcm.
Import ListNotations.
Local Open Scope nat_scope.

(** a 2 by 3 grid, periodic in the second direction *)
Example rect_23 : build_edges (repeat 9 9) (repeat 8 9) 2 3 false true
  = Ok ([3; 4; 5; 0; 1; 2; 3; 4; 5], [0; 1; 2; 2; 0; 1; 5; 3; 4]).
Proof. reflexivity. Qed.

(** with two cells in a periodic direction, pairs are repeated; with one, cells
    are joined to themselves *)
Example rect_small : build_edges (repeat 9 5) (repeat 8 5) 1 2 false true = Ok ([0; 1], [1; 0])
  /\ build_edges (repeat 9 5) (repeat 8 5) 1 2 true false = Ok ([0; 1; 1], [0; 1; 0]).
Proof. split; reflexivity. Qed.

Example rect_maps : edgedata_to_maps 0 [1; 2; 3; 4; 5; 6; 7; 8; 9] 2 3 false true
  = Ok ([[0; 0; 0]; [1; 2; 3]], [[4; 5; 6]; [7; 8; 9]]).
Proof. reflexivity. Qed.

Example tri_23 : tripolar_edges (repeat 9 12) (repeat 8 12) 2 3
  = Ok ([0; 1; 2; 3; 4; 5; 0; 1; 2; 3; 4; 5], [3; 4; 5; 5; 4; 3; 1; 2; 0; 4; 5; 3]).
Proof. reflexivity. Qed.

(** ** tiles without connections *)
Definition axname (ax : axis) : string := match ax with AxX => "i" | AxY => "j" end.
Definition move (nm : string) (v : nat) (s : cell) : cell := fun m => if String.eqb m nm then v else s m.
Definition plain_nb (n : nat) (ax : axis) (right : bool) (s : cell) : option cell :=
  let nm := axname ax in
  if right then if Nat.ltb (S (s nm)) n then Some (move nm (S (s nm)) s) else None
  else match s nm with O => None | S k => Some (move nm k s) end.

(** the shift, with the j dimension moved to the end if [last] *)
Definition plain_ufunc (last : bool) (n : nat) (ax : axis) (right : bool) (x : larr Z) : larr Z :=
  let (ds, a) := x in
  let ds' := match ax with
             | AxY => if last then filter (fun d => negb (String.eqb d "j")) ds ++ ["j"%string] else ds
             | AxX => ds
             end in
  (ds', build (map (entry ds (shape a)) ds')
          (fun ix => match plain_nb n ax right (entry ds' ix) with
                     | Some s' => getd a 0%Z (map s' ds)
                     | None => (-1)%Z
                     end)).

Lemma filter_perm (ds : list string) : NoDup ds -> In "j"%string ds ->
  Permutation ds (filter (fun d => negb (String.eqb d "j")) ds ++ ["j"%string]).
Proof.
  induction ds as [|d ds IH]; intros ND H; [destruct H|]. inversion ND as [|? ? Hd ND']; subst. simpl.
  destruct (String.eqb_spec d "j") as [->|Hne]; simpl.
  - assert (E : filter (fun d => negb (String.eqb d "j")) ds = ds).
    { clear -Hd. induction ds as [|x ds IH]; [reflexivity|]. simpl. destruct (String.eqb_spec x "j") as [->|]; simpl.
      - exfalso. apply Hd. left. reflexivity.
      - rewrite IH; [reflexivity|]. intros C. apply Hd. right. assumption. }
    rewrite E. apply Permutation_cons_append.
  - constructor. apply IH; [assumption|]. destruct H as [H|H]; [congruence|assumption].
Qed.

Lemma plain_shifts last tile nf n : shifts tile nf n (plain_ufunc last n) (plain_nb n).
Proof.
  intros ax right ds a Hd [Es W]. unfold plain_ufunc.
  set (ds' := match ax with AxY => _ | AxX => ds end).
  assert (Ii : In "i"%string ds) by (eapply Permutation_in; [apply Permutation_sym; apply Hd|right; left; reflexivity]).
  assert (Ij : In "j"%string ds) by (eapply Permutation_in; [apply Permutation_sym; apply Hd|right; right; left; reflexivity]).
  assert (HP : Permutation ds ds').
  { unfold ds'. destruct ax; [reflexivity|]. destruct last; [|reflexivity]. apply filter_perm; [apply Hd|assumption]. }
  eexists ds', _. split; [reflexivity|]. split; [assumption|]. rewrite Es.
  assert (Esh : map (entry ds (map (size tile nf n) ds)) ds' = map (size tile nf n) ds').
  { apply map_ext_in. intros nm Hn. apply entry_map. eapply Permutation_in; [apply Permutation_sym; exact HP|assumption]. }
  rewrite Esh. split; [split; [reflexivity|apply build_wf]|]. intros s Hs.
  rewrite build_at by (apply valid_map; intros nm Hn; apply Hs; eapply Permutation_in; [apply Permutation_sym; exact HP|assumption]).
  assert (Ent : forall nm, In nm ds -> entry ds' (map s ds') nm = s nm).
  { intros nm Hn. apply entry_map. eapply Permutation_in; eauto. }
  assert (Hin : In (axname ax) ds) by (destruct ax; assumption).
  assert (Hti : size tile nf n (axname ax) = n).
  { unfold size. destruct (String.eqb_spec (axname ax) tile) as [E|]; [|reflexivity]. exfalso.
    destruct Hd as [HP3 ND3]. apply (Permutation_NoDup HP3) in ND3. inversion ND3 as [|? ? N1 _]; subst. apply N1.
    destruct ax; simpl; auto. }
  assert (Mv : forall v, v < n -> in_grid tile nf n ds (move (axname ax) v s)).
  { intros v Hv nm Hn. unfold move. destruct (String.eqb_spec nm (axname ax)) as [->|]; [rewrite Hti; assumption|auto]. }
  assert (Em : forall v, map (move (axname ax) v (entry ds' (map s ds'))) ds = map (move (axname ax) v s) ds).
  { intros v. apply map_ext_in. intros nm Hn. unfold move. destruct (String.eqb nm (axname ax)); [reflexivity|auto]. }
  unfold plain_nb. rewrite (Ent _ Hin). pose proof (Hs _ Hin) as Hlt. rewrite Hti in Hlt. destruct right.
  - destruct (Nat.ltb_spec (S (s (axname ax))) n) as [Hl|Hl]; [|reflexivity].
    split; [apply Mv; assumption|]. rewrite Em. symmetry. apply getd_at; [assumption|]. rewrite Es. apply valid_map. apply Mv. assumption.
  - destruct (s (axname ax)) as [|k]; [reflexivity|]. split; [apply Mv; lia|]. rewrite Em. symmetry.
    apply getd_at; [assumption|]. rewrite Es. apply valid_map. apply Mv. lia.
Qed.

Lemma plain_keeps_x last n right : keeps_order (plain_ufunc last n) AxX right.
Proof. intros ds a. reflexivity. Qed.
Lemma plain_keeps_y n right : keeps_order (plain_ufunc false n) AxY right.
Proof. intros ds a. reflexivity. Qed.

Definition tji : list string := ["tile"; "j"; "i"]%string.
Lemma good_tji : good_dims "tile" tji.
Proof.
  split; [unfold tji; constructor; apply perm_swap|]. unfold tji.
  repeat (constructor; [simpl; intros H; repeat destruct H as [H|H]; try discriminate; assumption|]). constructor.
Qed.

(** one tile of 2 by 2 cells *)
Example xgcm_22 : xgcm_grid (plain_ufunc true 2) "tile" 1 (repeat 9%Z 8) (repeat 0 8) (repeat 0 8) 2 tji "left" "left"
    (Array None (mk_nd [1; 2; 2] [1; 2; 3; 4])) (Array None (mk_nd [1; 2; 2] [5; 6; 7; 8]))
    (Array None (mk_nd [1; 2; 2] [11; 12; 13; 14])) (Array None (mk_nd [1; 2; 2] [15; 16; 17; 18]))
  = Ok (([1; 3; 2; 3], [0; 2; 0; 1]%Z), [6; 8; 3; 4], [16; 18; 13; 14]).
Proof. vm_compute. reflexivity. Qed.

Definition at_ji (j i : nat) : cell := fun m => if String.eqb m "j" then j else if String.eqb m "i" then i else 0.

(** the j axis on the right, when xgcm moves the j dimension to the end *)
Example xgcm_right : xgcm_grid (plain_ufunc true 3) "tile" 1 (repeat 9%Z 18) (repeat 0 18) (repeat 0 18) 3 tji "left" "right"
    (Array None (mk_nd [1; 3; 3] (repeat 1 9))) (Array None (mk_nd [1; 3; 3] (repeat 1 9)))
    (Array None (mk_nd [1; 3; 3] (repeat 1 9))) (Array None (mk_nd [1; 3; 3] (repeat 1 9)))
  = Ok (([1; 2; 4; 5; 7; 8; 0; 1; 3; 4; 6; 7], [0; 1; 3; 4; 6; 7; 3; 6; 4; 7; 5; 8]%Z), repeat 1 12, repeat 1 12).
Proof. vm_compute. reflexivity. Qed.

Lemma geometry_refuted : exists (ufunc : axis -> bool -> larr Z -> larr Z) nb tile nf n dims xsh ysh
    (dxC dyC dyG dxG : nd nat) junk junkd junkp a b dist distperp,
  shifts tile nf n ufunc nb /\ good_dims tile dims /\ word_for false xsh /\ word_for false ysh
  /\ keeps_order ufunc AxX false
  /\ labelled tile nf n dims dxC /\ labelled tile nf n dims dyC /\ labelled tile nf n dims dyG /\ labelled tile nf n dims dxG
  /\ xgcm_grid ufunc tile nf junk junkd junkp n dims xsh ysh (Array None dxC) (Array None dyC) (Array None dyG) (Array None dxG)
     = Ok ((a, b), dist, distperp)
  /\ exists k s s', nth_error a k = Some (number tile nf n dims s)
       /\ nth_error b k = Some (Z.of_nat (number tile nf n dims s'))
       /\ in_grid tile nf n dims s /\ nb AxX false s = Some s' /\ nb AxY false s <> Some s'
       /\ nth_error dist k <> at_ dxC (map s dims) /\ nth_error distperp k <> at_ dyG (map s dims).
Proof.
  exists (plain_ufunc true 2), (plain_nb 2), "tile"%string, 1, 2, tji, "left"%string, "left"%string.
  exists (mk_nd [1; 2; 2] [1; 2; 3; 4]), (mk_nd [1; 2; 2] [5; 6; 7; 8]), (mk_nd [1; 2; 2] [11; 12; 13; 14]), (mk_nd [1; 2; 2] [15; 16; 17; 18]).
  exists (repeat 9%Z 8), (repeat 0 8), (repeat 0 8), [1; 3; 2; 3], [0; 2; 0; 1]%Z, [6; 8; 3; 4], [16; 18; 13; 14].
  split; [apply plain_shifts|]. split; [apply good_tji|]. split; [eexists; reflexivity|]. split; [eexists; reflexivity|]. split; [apply plain_keeps_x|].
  do 4 (split; [split; reflexivity|]). split; [exact xgcm_22|].
  exists 0, (at_ji 0 1), (move "i" 0 (at_ji 0 1)). split; [reflexivity|]. split; [reflexivity|]. split.
  - intros nm Hn. unfold tji in Hn. simpl in Hn. destruct Hn as [<-|[<-|[<-|[]]]]; vm_compute; lia.
  - split; [reflexivity|]. split; [discriminate|]. split; vm_compute; discriminate.
Qed.

Lemma right_refuted : exists (ufunc : axis -> bool -> larr Z -> larr Z) nb tile nf n dims xsh ysh
    (dxC dyC dyG dxG : nd nat) junk junkd junkp a b dist distperp,
  shifts tile nf n ufunc nb /\ good_dims tile dims /\ word_for false xsh /\ word_for true ysh
  /\ keeps_order ufunc AxX false
  /\ labelled tile nf n dims dxC /\ labelled tile nf n dims dyC /\ labelled tile nf n dims dyG /\ labelled tile nf n dims dxG
  /\ xgcm_grid ufunc tile nf junk junkd junkp n dims xsh ysh (Array None dxC) (Array None dyC) (Array None dyG) (Array None dxG)
     = Ok ((a, b), dist, distperp)
  /\ exists k x y, nth_error a k = Some x /\ nth_error b k = Some y
       /\ forall ax right s s', in_grid tile nf n dims s -> nb ax right s = Some s' ->
            number tile nf n dims s = x -> Z.of_nat (number tile nf n dims s') <> y.
Proof.
  exists (plain_ufunc true 3), (plain_nb 3), "tile"%string, 1, 3, tji, "left"%string, "right"%string.
  exists (mk_nd [1; 3; 3] (repeat 1 9)), (mk_nd [1; 3; 3] (repeat 1 9)), (mk_nd [1; 3; 3] (repeat 1 9)), (mk_nd [1; 3; 3] (repeat 1 9)).
  eexists _, _, _, _, _, _, _.
  split; [apply plain_shifts|]. split; [apply good_tji|]. split; [eexists; reflexivity|]. split; [eexists; reflexivity|]. split; [apply plain_keeps_x|].
  do 4 (split; [split; reflexivity|]). split; [exact xgcm_right|].
  exists 7, 1, 6%Z. split; [reflexivity|]. split; [reflexivity|]. intros ax right s s' Hs Hnb Hx.
  assert (Ht : s "tile"%string < 1) by (apply (Hs "tile"%string); simpl; auto).
  assert (Hj : s "j"%string < 3) by (apply (Hs "j"%string); simpl; auto).
  assert (Hi : s "i"%string < 3) by (apply (Hs "i"%string); simpl; auto).
  unfold number, tji in *. simpl in Hx. simpl ravel. simpl map.
  unfold plain_nb in Hnb. destruct right.
  - destruct (Nat.ltb_spec (S (s (axname ax))) 3); [|discriminate]. injection Hnb as <-. destruct ax; unfold move; simpl in *; lia.
  - destruct (s (axname ax)) eqn:E; [discriminate|]. injection Hnb as <-. destruct ax; unfold move; simpl in *; lia.
Qed.
