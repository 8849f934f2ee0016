(** * The geometry of the synthetic ocean *)
From Coq Require Import ZArith Bool Reals Lra Lia List.
From Verif Require Import Num XRlemmas Res M_synthocean S_synthocean P_synthocean.
Import ListNotations.
Local Open Scope R_scope.

Section G.
  Variables (nx ny : nat) (nz : Z).
  Hypothesis Hx : (0 < nx)%nat.
  Hypothesis Hy : (0 < ny)%nat.
  Let g := @geometry_of R RNum sin cos PI (Z.of_nat nx) (Z.of_nat ny) nz.

  Let px : 0 < INR nx. Proof. apply lt_0_INR; exact Hx. Qed.
  Let py : 0 < INR ny. Proof. apply lt_0_INR; exact Hy. Qed.

  Definition edge (j : nat) : R := -80 + 140 * INR j / INR ny.

  Ltac start := unfold g, geometry_of; cbn [XGvec YGvec XCvec YCvec DXGvec DXCvec RACvec RASvec DYGsc rSphere];
    rewrite ?map_map, Nat2Z.id; rewrite ?map_map;
    unfold of_nat, of_Z, Ysouth, Ynorth, zero, one; cbn [add sub mul div lit fabs RNum]; rewrite ?Rlit_0, <- ?INR_IZR_INZ.

  Lemma XG_at i : (i < nx)%nat -> nth_error (XGvec g) i = Some (360 * INR i / INR nx).
  Proof.
    intros H. start. rewrite nth_error_map_seq by exact H. f_equal. rewrite !Rlit_0, <- !INR_IZR_INZ. field. lra.
  Qed.
  Lemma XC_at i : (i < nx)%nat -> nth_error (XCvec g) i = Some ((360 * INR i / INR nx + 360 * INR (i + 1) / INR nx) / 2).
  Proof.
    intros H. start. rewrite nth_error_map_seq by exact H. f_equal. rewrite !Rlit_0, <- !INR_IZR_INZ, plus_INR. simpl. field. lra.
  Qed.
  Lemma YG_at j : (j < ny)%nat -> nth_error (YGvec g) j = Some (edge j).
  Proof.
    intros H. start. rewrite nth_error_map_seq by exact H. f_equal. unfold edge. rewrite !Rlit_0, <- !INR_IZR_INZ. field. lra.
  Qed.
  Lemma YC_at j : (j < ny)%nat -> nth_error (YCvec g) j = Some ((edge j + edge (j + 1)) / 2).
  Proof.
    intros H. start. rewrite nth_error_map_seq by exact H. f_equal. unfold edge. rewrite !Rlit_0, <- !INR_IZR_INZ, plus_INR. simpl. field. lra.
  Qed.

  Lemma YG_list : YGvec g = map edge (seq 0 ny).
  Proof. start. apply seq_map_ext. intros i _. unfold edge. rewrite !Rlit_0, <- !INR_IZR_INZ. field. lra. Qed.
  Lemma YC_list : YCvec g = map (fun j => (edge j + edge (j + 1)) / 2) (seq 0 ny).
  Proof. start. apply seq_map_ext. intros i _. unfold edge. rewrite !Rlit_0, <- !INR_IZR_INZ, plus_INR. simpl. field. lra. Qed.

  Lemma rad_of y : y * (PI / 180) = radians y.
  Proof. unfold radians. field. Qed.

  Lemma DXG_at j y : nth_error (YGvec g) j = Some y -> exists d, nth_error (DXGvec g) j = Some d /\ INR nx * d = parallel (rSphere g) y.
  Proof.
    intros H.
    assert (E : DXGvec g = map (fun y => rSphere g * cos (y * (PI / 180)) / (INR nx / 360) * (PI / 180)) (YGvec g)).
    { unfold g, geometry_of. cbn [DXGvec YGvec rSphere]. apply map_ext. intros z. unfold of_Z. cbn [mul div lit RNum]. rewrite !Rlit_0, <- !INR_IZR_INZ. reflexivity. }
    rewrite E, nth_error_map, H. cbn [option_map]. eexists. split; [reflexivity|]. unfold parallel. rewrite (rad_of y). field. lra.
  Qed.
  Lemma DXC_at j y : nth_error (YCvec g) j = Some y -> exists d, nth_error (DXCvec g) j = Some d /\ INR nx * d = parallel (rSphere g) y.
  Proof.
    intros H.
    assert (E : DXCvec g = map (fun y => rSphere g * cos (y * (PI / 180)) / (INR nx / 360) * (PI / 180)) (YCvec g)).
    { unfold g, geometry_of. cbn [DXCvec YCvec rSphere]. apply map_ext. intros z. unfold of_Z. cbn [mul div lit RNum]. rewrite !Rlit_0, <- !INR_IZR_INZ. reflexivity. }
    rewrite E, nth_error_map, H. cbn [option_map]. eexists. split; [reflexivity|]. unfold parallel. rewrite (rad_of y). field. lra.
  Qed.
  Lemma DYG_total : INR ny * DYGsc g = rSphere g * radians 140.
  Proof.
    unfold g, geometry_of. cbn [DYGsc rSphere]. unfold of_Z, Ynorth, Ysouth. cbn [mul div sub lit RNum]. rewrite !Rlit_0, <- !INR_IZR_INZ. unfold radians. field. lra.
  Qed.

  (** zones *)
  Lemma zone_sum r (f : nat -> R) n : total (map (fun j => zone r (f j) (f (j + 1)%nat)) (seq 0 n)) = zone r (f 0%nat) (f n).
  Proof.
    assert (A : forall m k, total (map (fun j => zone r (f j) (f (j + 1)%nat)) (seq k m)) = zone r (f k) (f (k + m)%nat)).
    { induction m as [|m IH]; intros k; cbn [seq map total fold_right].
      - rewrite Nat.add_0_r. unfold zone. ring.
      - fold (total (map (fun j => zone r (f j) (f (j + 1)%nat)) (seq (S k) m))). rewrite IH. replace (S k + m)%nat with (k + S m)%nat by lia.
        replace (k + 1)%nat with (S k) by lia. unfold zone. ring. }
    rewrite A. reflexivity.
  Qed.
  Lemma total_scale c (l : list R) : total (map (Rmult c) l) = c * total l.
  Proof. induction l as [|x l IH]; simpl; [ring|]. fold (total l). fold (total (map (Rmult c) l)). rewrite IH. ring. Qed.

  Lemma sin_up a b : -90 <= a -> a < b -> b <= 90 -> sin (radians a) < sin (radians b).
  Proof.
    intros A B C. pose proof PI_RGT_0. apply sin_increasing_1; unfold radians; nra.
  Qed.
  Lemma edge_step j : edge j < edge (j + 1).
  Proof.
    unfold edge. rewrite plus_INR. simpl. apply Rplus_lt_compat_l. unfold Rdiv. apply Rmult_lt_compat_r; [apply Rinv_0_lt_compat; exact py|lra].
  Qed.
  Lemma edge_range j : (j <= ny)%nat -> -80 <= edge j <= 60.
  Proof.
    intros H. apply le_INR in H. pose proof (pos_INR j). unfold edge. split.
    - assert (0 <= 140 * INR j / INR ny) by (apply Rmult_le_pos; [lra|left; apply Rinv_0_lt_compat; exact py]). lra.
    - assert (140 * INR j / INR ny <= 140). { apply (Rmult_le_reg_r (INR ny)); [exact py|]. field_simplify; lra. } lra.
  Qed.
  Lemma edge_last : edge ny = 60.
  Proof. unfold edge. field. lra. Qed.
  Lemma edge_first : edge 0 = -80.
  Proof. unfold edge. simpl. field. lra. Qed.

  Lemma RAC_list : map (Rmult (INR nx)) (RACvec g) = map (fun j => zone (rSphere g) (edge j) (edge (j + 1))) (seq 0 ny).
  Proof.
    assert (E : RACvec g = map (fun y => rSphere g * rSphere g / (INR nx / 360) * (PI / 180) * Rabs (sin ((y + 1 / (INR ny / 140)) * (PI / 180)) - sin (y * (PI / 180)))) (YGvec g)).
    { unfold g, geometry_of. cbn [RACvec YGvec rSphere]. apply map_ext. intros z. unfold of_Z, one, Ynorth, Ysouth. cbn [add sub mul div lit fabs RNum].
      rewrite !Rlit_0, <- !INR_IZR_INZ. replace (60 - -80) with 140 by lra. reflexivity. }
    rewrite E, YG_list, !map_map. apply seq_map_ext. intros j Hj.
    replace (edge j + 1 / (INR ny / 140)) with (edge (j + 1)) by (unfold edge; rewrite plus_INR; simpl; field; lra).
    rewrite (rad_of (edge j)), (rad_of (edge (j + 1))). rewrite Rabs_right. { unfold zone. field. lra. }
    pose proof (sin_up (edge j) (edge (j + 1))) as A. pose proof (edge_range j ltac:(lia)). pose proof (edge_range (j + 1) ltac:(lia)). pose proof (edge_step j). lra.
  Qed.

  (** the cells around the southern edges: they reach half a cell further south *)
  Lemma RAS_list : (7 <= ny)%nat ->
    map (Rmult (INR nx)) (RASvec g) = map (fun j => zone (rSphere g) (edge j - 70 / INR ny) (edge (j + 1) - 70 / INR ny)) (seq 0 ny).
  Proof.
    intros H7. assert (P7 : 70 / INR ny <= 10).
    { apply le_INR in H7. replace (INR 7) with 7 in H7 by (simpl; lra). apply (Rmult_le_reg_r (INR ny)); [exact py|]. field_simplify; lra. }
    assert (P0 : 0 < 70 / INR ny) by (apply Rdiv_lt_0_compat; lra).
    assert (E : RASvec g = map (fun y => rSphere g * rSphere g / (INR nx / 360) * (PI / 180) * Rabs (sin (y * (PI / 180)) - sin ((y - 1 / (INR ny / 140)) * (PI / 180)))) (YCvec g)).
    { unfold g, geometry_of. cbn [RASvec YCvec rSphere]. apply map_ext. intros z. unfold of_Z, one, Ynorth, Ysouth. cbn [add sub mul div lit fabs RNum].
      rewrite !Rlit_0, <- !INR_IZR_INZ. replace (60 - -80) with 140 by lra. reflexivity. }
    rewrite E, YC_list, !map_map. apply seq_map_ext. intros j Hj.
    replace ((edge j + edge (j + 1)) / 2 - 1 / (INR ny / 140)) with (edge j - 70 / INR ny) by (unfold edge; rewrite plus_INR; simpl; field; lra).
    replace ((edge j + edge (j + 1)) / 2) with (edge (j + 1) - 70 / INR ny) by (unfold edge; rewrite plus_INR; simpl; field; lra).
    rewrite (rad_of (edge j - 70 / INR ny)), (rad_of (edge (j + 1) - 70 / INR ny)). rewrite Rabs_right. { unfold zone. field. lra. }
    pose proof (sin_up (edge j - 70 / INR ny) (edge (j + 1) - 70 / INR ny)) as A. pose proof (edge_range j ltac:(lia)). pose proof (edge_range (j + 1) ltac:(lia)). pose proof (edge_step j). lra.
  Qed.

  Theorem coordinates :
    length (XGvec g) = nx /\ length (XCvec g) = nx /\ length (YGvec g) = ny /\ length (YCvec g) = ny
    /\ (forall i, (i < nx)%nat -> let x k := 360 * INR k / INR nx in
          nth_error (XGvec g) i = Some (x i) /\ nth_error (XCvec g) i = Some ((x i + x (i + 1)%nat) / 2))
    /\ (forall j, (j < ny)%nat -> let y k := -80 + 140 * INR k / INR ny in
          nth_error (YGvec g) j = Some (y j) /\ nth_error (YCvec g) j = Some ((y j + y (j + 1)%nat) / 2)).
  Proof.
    repeat split; try (unfold g, geometry_of; cbn [XGvec YGvec XCvec YCvec]; rewrite !map_length, seq_length; apply Nat2Z.id).
    - apply XG_at; assumption.
    - apply XC_at; assumption.
    - apply YG_at; assumption.
    - apply YC_at; assumption.
  Qed.

  Theorem distances :
    (forall j y, nth_error (YGvec g) j = Some y -> exists d, nth_error (DXGvec g) j = Some d /\ INR nx * d = parallel (rSphere g) y)
    /\ (forall j y, nth_error (YCvec g) j = Some y -> exists d, nth_error (DXCvec g) j = Some d /\ INR nx * d = parallel (rSphere g) y)
    /\ INR ny * DYGsc g = rSphere g * radians 140 /\ DYCsc g = DYGsc g.
  Proof. split; [exact DXG_at|]. split; [exact DXC_at|]. split; [exact DYG_total|reflexivity]. Qed.

  Lemma zone_positive r a b : 0 < r -> -90 <= a -> a < b -> b <= 90 -> 0 < zone r a b.
  Proof.
    intros Hr A B C. unfold zone. pose proof PI_RGT_0. pose proof (sin_up a b A B C).
    apply Rmult_lt_0_compat; [|lra]. apply Rmult_lt_0_compat; [lra|]. apply pow_lt; exact Hr.
  Qed.

  Lemma radius : rSphere g = 6370000.
  Proof. unfold g, geometry_of. cbn [rSphere lit RNum]. apply Rlit_0. Qed.

  Theorem areas :
    INR nx * total (RACvec g) = zone (rSphere g) (-80) 60
    /\ (forall j, (j < ny)%nat -> exists a, nth_error (RACvec g) j = Some a /\ 0 < a
          /\ INR nx * a = zone (rSphere g) (edge j) (edge (j + 1)))
    /\ RAWvec g = RACvec g
    /\ RAZvec g = RASvec g
    /\ ((7 <= ny)%nat -> INR nx * total (RASvec g) = zone (rSphere g) (-80 - 70 / INR ny) (60 - 70 / INR ny)).
  Proof.
    split; [|split; [|split; [reflexivity|split; [reflexivity|]]]].
    - rewrite <- total_scale, RAC_list, zone_sum, edge_first, edge_last. reflexivity.
    - intros j Hj. assert (E : nth_error (map (Rmult (INR nx)) (RACvec g)) j = Some (zone (rSphere g) (edge j) (edge (j + 1)))).
      { rewrite RAC_list. apply (nth_error_map_seq (fun j => zone (rSphere g) (edge j) (edge (j + 1)))). exact Hj. }
      rewrite nth_error_map in E. destruct (nth_error (RACvec g) j) as [a|]; [|discriminate]. assert (E' : INR nx * a = zone (rSphere g) (edge j) (edge (j + 1))) by (cbn [option_map] in E; congruence). clear E. rename E' into E. exists a. split; [reflexivity|]. split; [|exact E].
      assert (Z : 0 < zone (rSphere g) (edge j) (edge (j + 1))).
      { pose proof (edge_range j ltac:(lia)). pose proof (edge_range (j + 1) ltac:(lia)). pose proof (edge_step j). rewrite radius. apply zone_positive; lra. }
      rewrite <- E in Z. pose proof px. apply (Rmult_lt_reg_l (INR nx)); lra.
    - intros H7. rewrite <- total_scale, (RAS_list H7).
      rewrite (zone_sum (rSphere g) (fun j => edge j - 70 / INR ny) ny). rewrite edge_first, edge_last. reflexivity.
  Qed.
End G.
