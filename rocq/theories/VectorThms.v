(** * Proofs about cell coordinates *)

From Coq Require Import QArith Qabs Lqa.
From Verif Require Import Base Num HypsProofs VectorModel.
Local Open Scope Z_scope.

(** The corner image is what GDAL documents for integer pixel coordinates; a point of the
    plane given by column and row coordinates. *)
Definition image (t : geotransform Q) (px ln : Q) : Q * Q :=
  ((gt0 t + px * gt1 t + ln * gt2 t)%Q, (gt3 t + px * gt4 t + ln * gt5 t)%Q).

Definition det (t : geotransform Q) : Q := (gt1 t * gt5 t - gt2 t * gt4 t)%Q.

Definition qpair_eq (p q : Q * Q) : Prop := (fst p == fst q /\ snd p == snd q)%Q.

Theorem cell_centre : forall (t : geotransform Q) r c,
  let p := image t (inject_Z c) (inject_Z r) in
  let q := image t (inject_Z (c + 1)) (inject_Z (r + 1)) in
  qpair_eq (transform_cell_to_world QOps (r, c) t) ((1 # 2) * (fst p + fst q), (1 # 2) * (snd p + snd q))%Q.
Proof.
  intros t r c. cbv zeta. unfold qpair_eq, transform_cell_to_world, apply_geotransform, image, nhalf.
  cbn [fst snd nadd nmul ndiv nofZ QOps]. rewrite !inject_S.
  change (inject_Z 1 / inject_Z 2)%Q with (1 # 2)%Q. split; ring.
Qed.

(** Solving for the coordinates (Cramer). *)
Lemma cell_of_world : forall (t : geotransform Q) r c,
  let w := transform_cell_to_world QOps (r, c) t in
  ((inject_Z c + (1#2)) * det t == (fst w - gt0 t) * gt5 t - (snd w - gt3 t) * gt2 t)%Q /\
  ((inject_Z r + (1#2)) * det t == (snd w - gt3 t) * gt1 t - (fst w - gt0 t) * gt4 t)%Q.
Proof.
  intros t r c. cbv zeta. unfold transform_cell_to_world, apply_geotransform, nhalf, det.
  cbn [fst snd nadd nmul ndiv nofZ QOps]. change (inject_Z 1 / inject_Z 2)%Q with (1 # 2)%Q. split; ring.
Qed.

Lemma inject_inj : forall a b, (inject_Z a == inject_Z b)%Q -> a = b.
Proof. intros a b H. apply inject_Z_injective. exact H. Qed.

Theorem cells_distinct : forall (t : geotransform Q) a b, ~ (det t == 0)%Q ->
  qpair_eq (transform_cell_to_world QOps a t) (transform_cell_to_world QOps b t) -> a = b.
Proof.
  intros t [r c] [r' c'] D (E1 & E2).
  destruct (cell_of_world t r c) as (A1 & A2). destruct (cell_of_world t r' c') as (B1 & B2). cbv zeta in *.
  rewrite <- E1, <- E2 in B1, B2. rewrite <- A1 in B1. rewrite <- A2 in B2.
  apply Qmult_inj_r in B1; auto. apply Qmult_inj_r in B2; auto.
  f_equal; apply inject_inj; lra.
Qed.

(** ** Area *)

(** Twice the signed area of the triangle p q r. *)
Definition area2 (p q r : Q * Q) : Q :=
  ((fst q - fst p) * (snd r - snd p) - (fst r - fst p) * (snd q - snd p))%Q.

(** The area of a cell: the parallelogram of its corner images. *)
Definition true_area (t : geotransform Q) (r c : Z) : Q :=
  Qabs (area2 (image t (inject_Z c) (inject_Z r)) (image t (inject_Z (c + 1)) (inject_Z r))
              (image t (inject_Z c) (inject_Z (r + 1)))).

Lemma nabs_Qabs : forall x, (nabs QOps x == Qabs x)%Q.
Proof.
  intros x. unfold nabs. cbn [nltb nsub nofZ QOps]. destruct (Qltb x (inject_Z 0)) eqn:E.
  - apply Qltb_lt in E. change (inject_Z 0) with 0%Q in *. rewrite Qabs_neg by lra. lra.
  - apply Qltb_ge in E. change (inject_Z 0) with 0%Q in *. rewrite Qabs_pos by lra. reflexivity.
Qed.

Theorem area_unrotated : forall (t : geotransform Q) r c, (gt2 t == 0)%Q \/ (gt4 t == 0)%Q ->
  (cell_area QOps t == true_area t r c)%Q.
Proof.
  intros t r c H. unfold cell_area, true_area. cbn [nmul QOps]. rewrite !nabs_Qabs, <- Qabs_Qmult.
  apply Qabs_wd. unfold area2, image. cbn [fst snd]. rewrite !inject_S. destruct H as [H|H]; rewrite H; ring.
Qed.

Definition rotated : geotransform Q := mkGT 0%Q 1%Q 1%Q 0%Q 1%Q (-1)%Q.

Theorem area_refuted : exists (t : geotransform Q), ~ (det t == 0)%Q /\ (cell_area QOps t == 1)%Q /\
  forall r c, (true_area t r c == 2)%Q.
Proof.
  exists rotated. split; [vm_compute; discriminate|]. split; [reflexivity|].
  intros r c. unfold true_area, area2, image. cbn [fst snd rotated gt0 gt1 gt2 gt3 gt4 gt5]. rewrite !inject_S.
  match goal with |- (Qabs ?x == _)%Q => assert (E : (x == -2)%Q) by ring; rewrite E end. reflexivity.
Qed.
