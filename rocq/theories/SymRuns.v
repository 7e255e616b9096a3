(** * Turned terrains: counterexamples and examples *)

From Flocq Require Import IEEE754.BinarySingleNaN.
From Verif Require Import Base BaseProofs Num Float64 Float64Proofs FillModel FillSpec FillProofs FillThms FlowModel FlowSpec DemModel LabelModel CompSpec CompProofs VectorModel BluespotModel BluespotSpec BluespotThms
  RainThms RelaxProofs SymSpec SymProofs SymThms.

(** Two hollows on either side of a ridge; the terrain is its own mirror image. *)
Definition twin_dem : raster b64 := zrows [[9;9;9;9;9]; [5;3;8;3;5]; [9;9;9;9;9]].

Lemma twin_ok : dem32 twin_dem /\ dem_finite twin_dem.
Proof. apply dem_ok. vm_compute. reflexivity. Qed.

Lemma turned_by : forall s a b, symmetry (nrows a) (ncols a) (nrows b) (ncols b) s ->
  forallb (fun x => Beqb (at_ b (s x)) (at_ a x)) (rcells a) = true -> turned s a b.
Proof. intros s a b Sy H. split; [exact Sy|]. intros x Hx. rewrite forallb_forall in H. apply H. apply in_cells_of. exact Hx. Qed.

Definition mirror5 (x : cell) : cell := (fst x, 5 - 1 - snd x).

Lemma twin_turned : turned mirror5 twin_dem twin_dem.
Proof. apply turned_by; [exact (sy_cols 3 5)|vm_compute; reflexivity]. Qed.

Definition watershed_at (r : res bluespot_out) (c : cell) : Z := match r with Ok o => at_ (bo_watersheds o) c | _ => -1 end.

Lemma ties_refuted : exists cc s dem t f fuel d out, labels_components cc /\ turned s dem dem /\ dem32 dem /\ dem_finite dem /\ reads_no_sum f /\
  dem_process false fuel (gt1 t) (gt5 t) dem = Ok d /\
  bluespot_process false cc fuel t (do_depths d) (do_flowdir d) (Some f) None (Some dem) = Ok out /\
  ~ same_areas s (bo_watersheds out) (bo_watersheds out) /\
  exists a b, flows (do_flowdir d) a b /\ ~ flows (do_flowdir d) (s a) (s b).
Proof.
  exists cc_memo, mirror5, twin_dem, ex_gt, all_pass, 20%nat.
  destruct (is_ok_ex (dem_process false 20 (gt1 ex_gt) (gt5 ex_gt) twin_dem)) as (d & Ed); [vm_compute; reflexivity|].
  destruct (is_ok_ex (bluespot_process false cc_memo 20 ex_gt (do_depths d) (do_flowdir d) (Some all_pass) None (Some twin_dem))) as (out & Eo).
  { assert (K : is_ok (d <- dem_process false 20 (gt1 ex_gt) (gt5 ex_gt) twin_dem ;; bluespot_process false cc_memo 20 ex_gt (do_depths d) (do_flowdir d) (Some all_pass) None (Some twin_dem)) = true)
      by (vm_compute; reflexivity). rewrite Ed in K. exact K. }
  exists d, out. split; [apply cc_memo_ok|]. split; [apply twin_turned|]. split; [apply twin_ok|]. split; [apply twin_ok|]. split; [intros a b _ _ _ _; reflexivity|].
  split; [exact Ed|]. split; [exact Eo|]. split.
  - set (run := (d <- dem_process false 20 (gt1 ex_gt) (gt5 ex_gt) twin_dem ;; bluespot_process false cc_memo 20 ex_gt (do_depths d) (do_flowdir d) (Some all_pass) None (Some twin_dem))).
    assert (R : run = Ok out) by (unfold run; rewrite Ed; exact Eo).
    assert (V : (watershed_at run (1, 1), watershed_at run (1, 2), watershed_at run (1, 3)) = (1, 2, 2) /\ on_ok (fun o => (nrows (bo_watersheds o) =? 3) && (ncols (bo_watersheds o) =? 5)) run = true)
      by (vm_compute; split; reflexivity).
    rewrite R in V. cbn [watershed_at on_ok] in V. destruct V as [V Sh]. apply andb_prop in Sh. destruct Sh as [S1 S2]. apply Z.eqb_eq in S1, S2.
    injection V as V1 V2 V3. intros (_ & _ & Q). specialize (Q (1, 2) (1, 3)). rewrite S1, S2 in Q.
    assert (Q' : at_ (bo_watersheds out) (1, 2) = at_ (bo_watersheds out) (1, 1)) by (apply Q; [split; cbn; lia|split; cbn; lia|congruence]). congruence.
  - assert (V : match dem_process false 20 (gt1 ex_gt) (gt5 ex_gt) twin_dem with Ok d => (nrows (do_flowdir d), ncols (do_flowdir d), at_ (do_flowdir d) (1, 2)) | _ => (0, 0, 0) end = (3, 5, 2)) by (vm_compute; reflexivity).
    rewrite Ed in V. injection V as V1 V2 V3. exists (1, 2), (1, 3). split.
    + split; [rewrite V1, V2; split; cbn; lia|]. split; [rewrite V1, V2; split; cbn; lia|]. unfold target. rewrite V3. reflexivity.
    + intros (_ & _ & Tg). unfold target in Tg. change (mirror5 (1, 2)) with (1, 2) in Tg. rewrite V3 in Tg. discriminate Tg.
Qed.

(** The compiled filling of a terrain and of its mirror image. *)
Definition c06_mirrored : raster b64 := zrows [[100;100;100;100];[100;0;0;100];[100;100;0;100];[100;100;100;0]].

Lemma compiled_turned_refuted : exists s dem dem' f f' c, turned s dem dem' /\ 4 <= nrows dem /\ 4 <= ncols dem /\ dem32 dem /\ dem32 dem' /\ dem_finite dem /\ dem_finite dem' /\
  fill64_cy 20 dem = Ok f /\ fill64_cy 20 dem' = Ok f' /\ inside (nrows dem) (ncols dem) c /\ eq64 (at_ f c) (f64_ofZ 100) /\ eq64 (at_ f' (s c)) (f64_ofZ 0).
Proof.
  destruct (is_ok_ex (fill64_cy 20 c06_dem)) as (f & Ef); [vm_compute; reflexivity|].
  destruct (is_ok_ex (fill64_cy 20 c06_mirrored)) as (f' & Ef'); [vm_compute; reflexivity|].
  destruct (dem_ok c06_dem) as [A B]; [vm_compute; reflexivity|]. destruct (dem_ok c06_mirrored) as [A' B']; [vm_compute; reflexivity|].
  assert (V1 : Beqb (at_ok (fill64_cy 20 c06_dem) (2, 2)) (f64_ofZ 100) = true) by (vm_compute; reflexivity).
  assert (V2 : Beqb (at_ok (fill64_cy 20 c06_mirrored) (1, 2)) (f64_ofZ 0) = true) by (vm_compute; reflexivity).
  rewrite Ef in V1. rewrite Ef' in V2.
  exists (fun x => (4 - 1 - fst x, snd x)), c06_dem, c06_mirrored, f, f', (2, 2).
  split; [apply turned_by; [exact (sy_rows 4 4)|vm_compute; reflexivity]|].
  split; [cbn; lia|]. split; [cbn; lia|]. repeat (split; [assumption|]). split; [split; cbn; lia|]. split; [exact V1|exact V2].
Qed.

(** A terrain without ties and its transpose. *)
Definition plain_dem : raster b64 := zrows [[9;9;9;9]; [5;3;8;9]; [9;9;9;9]].
Definition plain_turned : raster b64 := zrows [[9;5;9]; [9;3;9]; [9;8;9]; [9;9;9]].

Definition one_best (t : raster b64) (c : cell) : bool :=
  existsb (fun n => forallb (fun m => cell_eqb m n || Bltb (slope_to by_sqrt2 t c m) (slope_to by_sqrt2 t c n)) (nbrs8 (fst c) (snd c))) (nbrs8 (fst c) (snd c)).

Lemma one_best_ok : forall t c, one_best t c = true -> exists n, only_steepest by_sqrt2 t c n.
Proof.
  intros t [i j] H. apply existsb_exists in H. destruct H as (n & In & H). exists n. rewrite forallb_forall in H. split; [apply adjacent_nbrs8; exact In|].
  intros m Am Ne. apply adjacent_nbrs8 in Am. specialize (H m Am). apply orb_prop in H. destruct H as [H|H]; [|exact H].
  destruct (cell_eqb_spec m n); [contradiction|discriminate].
Qed.

(** Everything below 4 raised to 4. *)
Definition at_least_4 (x : b64) : b64 := if Bltb x (f64_ofZ 4) then f64_ofZ 4 else x.

Lemma at_least_mono : forall a b, le64 a b -> le64 (at_least_4 a) (at_least_4 b).
Proof.
  intros a b L. assert (N : not_nan a /\ not_nan b).
  { unfold le64, not_nan in *. split; [destruct a; auto; discriminate L|]. destruct b; auto. destruct a as [|[]| |[]]; discriminate L. }
  destruct N as [Na Nb]. assert (N4 : not_nan (f64_ofZ 4)) by reflexivity. apply le64_rank in L; auto. unfold at_least_4.
  rewrite !Bltb_rank by auto.
  destruct (Z.ltb_spec (rank a) (rank (f64_ofZ 4))), (Z.ltb_spec (rank b) (rank (f64_ofZ 4))); apply le64_rank; auto; lia.
Qed.
