(** * Raising the ground *)

From Flocq Require Import IEEE754.BinarySingleNaN.
From Verif Require Import Base BaseProofs Num Float64 Float64Proofs Float32Proofs BluespotThms FillModel FillSpec FillProofs FillThms GridProofs LevelProofs DemModel DemProofs WindowThms ErrorThms.

Theorem raised_depths : forall dem dem', size_ok false dem -> same_shape dem dem' -> dem32 dem -> dem32 dem' -> dem_finite dem -> dem_finite dem' ->
  (forall c, inside (nrows dem) (ncols dem) c -> le64 (at_ dem c) (at_ dem' c)) ->
  forall fuel fuel' t1 t5 t1' t5' out out', dem_process false fuel t1 t5 dem = Ok out -> dem_process false fuel' t1' t5' dem' = Ok out' ->
  forall c, inside (nrows dem) (ncols dem) c -> eq64 (at_ dem' c) (at_ dem c) -> le64 (at_ (do_depths out) c) (at_ (do_depths out') c).
Proof.
  intros dem dem' Z S D D' F F' L fuel fuel' t1 t5 t1' t5' out out' H H' c I Q. pose proof S as (E1 & E2).
  assert (Z' : size_ok false dem') by (cbn in *; lia).
  assert (I' : inside (nrows dem') (ncols dem') c) by (rewrite <- E1, <- E2; exact I).
  destruct (dem_process_parts _ _ _ _ _ _ H) as (_ & E & _). destruct (dem_process_parts _ _ _ _ _ _ H') as (_ & E' & _). cbn in E, E', Z.
  destruct (filled_facts false fuel t1 t5 dem out Z D F H) as (A1 & A2 & A3 & A4 & A5 & _ & A6).
  destruct (filled_facts false fuel' t1' t5' dem' out' Z' D' F' H') as (B1 & B2 & B3 & B4 & B5 & _ & B6).
  assert (M : le64 (at_ (do_filled out) c) (at_ (do_filled out') c)) by (apply (fill64_mono dem dem') with (fuel := fuel) (fuel' := fuel'); auto; lia).
  assert (If : inside (nrows (do_filled out)) (ncols (do_filled out)) c) by (rewrite A1, A2; exact I).
  assert (If' : inside (nrows (do_filled out')) (ncols (do_filled out')) c) by (rewrite B1, B2; exact I').
  destruct (depths_facts false _ _ _ dem out Z D F H) as (S1 & P1 & _). destruct (depths_facts false _ _ _ dem' out' Z' D' F' H') as (S2 & P2 & _).
  assert (N : forall x, le64 f64_zero x -> not_nan x) by (intros [s|s| |s m e B] X; try reflexivity; discriminate X).
  apply le64_rank; [apply N, P1, I|apply N, P2, I'|]. rewrite A6, B6. unfold raster_sub32, at_. cbn [rget].
  apply le64_rank in M; [|apply A3, If|apply B3, If']. apply eq64_rank in Q; [|apply D', I'|apply D, I].
  pose proof (A5 c I) as X. apply le64_rank in X; [|apply D, I|apply A3, If].
  apply sub32_anti; first [apply A3; exact If|apply B3; exact If'|apply D'; exact I'|apply D; exact I|apply A4; exact If|apply B4; exact If'|apply F'; exact I'|apply F; exact I|idtac].
  - exact M.
  - unfold at_ in Q. rewrite Q. apply Z.le_refl.
  - exact X.
Qed.

Theorem level_kept : forall dem dem', 2 <= nrows dem -> 2 <= ncols dem -> same_shape dem dem' -> dem32 dem -> dem32 dem' ->
  forall fuel fuel' f f', fill64 fuel dem = Ok f -> fill64 fuel' dem' = Ok f' ->
  forall c, inside (nrows dem) (ncols dem) c ->
  (forall x, inside (nrows dem) (ncols dem) x -> eq64 (at_ dem' x) (at_ dem x) \/ le64 (at_ dem' x) (at_ f c)) ->
  le64 (at_ f' c) (at_ f c).
Proof.
  intros dem dem' R C S D D' fuel fuel' f f' H H' c I K. pose proof S as (E1 & E2).
  assert (I' : inside (nrows dem') (ncols dem') c) by (rewrite <- E1, <- E2; exact I).
  destruct (fill64_basic dem R C D _ _ H) as (A1 & A2 & A3 & _).
  assert (N : not_nan (at_ f c)) by (apply A3; rewrite A1, A2; exact I).
  apply (fill64_level dem' ltac:(lia) ltac:(lia) D' _ _ H' c _ I' N).
  assert (X : escapes le64 (nrows dem) (ncols dem) (at_ dem) (at_ f c) c).
  { apply (fill64_level dem R C D _ _ H c _ I N). apply le64_rank; auto. lia. }
  rewrite <- E1, <- E2. set (L := at_ f c) in *. clearbody L.
  assert (V : forall x, inside (nrows dem) (ncols dem) x -> le64 (at_ dem x) L -> le64 (at_ dem' x) L).
  { intros x J Y. destruct (K x J) as [Q|Q]; [|exact Q]. assert (J' : inside (nrows dem') (ncols dem') x) by (rewrite <- E1, <- E2; exact J).
    apply le64_rank in Y; [|apply D, J|exact N]. apply eq64_rank in Q; [|apply D', J'|apply D, J]. apply le64_rank; [apply D', J'|exact N|lia]. }
  clear - X V. induction X as [x E Y|x d J Y A X IH]; [apply esc_edge; [exact E|apply V; [apply E|exact Y]]|apply (esc_step _ _ _ _ _ _ d); auto].
Qed.

(** ** Examples *)
(** A hollow of depth 4, the same with a dike on the rim, and with its bottom raised. *)
Definition hollow : raster b64 := zrows [[9;9;9;9];[9;2;3;6];[9;9;9;9]].
Definition diked : raster b64 := zrows [[9;9;9;9];[9;2;3;8];[9;9;9;9]].
Definition raised : raster b64 := zrows [[9;9;9;9];[9;2;5;6];[9;9;9;9]].
Definition hollow_run (dem : raster b64) (depths : list Z) : bool :=
  on_ok (fun o => forallb (fun p => Beqb (at_ (do_depths o) (1, fst p)) (f64_ofZ (snd p))) (combine (zseq 0 4) depths))
    (dem_process false 20 (f64_ofZ 1) (f64_ofZ 1) dem).
Lemma hollows : (dem32 hollow /\ dem_finite hollow) /\ (dem32 diked /\ dem_finite diked) /\ (dem32 raised /\ dem_finite raised) /\
  (forall c, inside (nrows hollow) (ncols hollow) c -> le64 (at_ hollow c) (at_ diked c)) /\
  hollow_run hollow [0;4;3;0] = true /\ hollow_run diked [0;6;5;0] = true /\ hollow_run raised [0;4;1;0] = true.
Proof.
  split; [apply dem_ok; vm_compute; reflexivity|]. split; [apply dem_ok; vm_compute; reflexivity|]. split; [apply dem_ok; vm_compute; reflexivity|].
  split; [apply leb_cells_ok; vm_compute; reflexivity|]. repeat split; vm_compute; reflexivity.
Qed.

(** With speedups: raising the corner by 1 drains a bluespot far away. *)
Definition far : raster b64 := zrows [[0;10;3;0;10];[10;0;0;0;3];[3;3;3;0;10];[3;3;10;0;3];[3;3;10;3;3]].
Definition far' : raster b64 := zrows [[1;10;3;0;10];[10;0;0;0;3];[3;3;3;0;10];[3;3;10;0;3];[3;3;10;3;3]].
Theorem compiled_far : exists dem dem' f f' c, size_ok true dem /\ same_shape dem dem' /\ dem32 dem /\ dem32 dem' /\ dem_finite dem /\ dem_finite dem' /\
  (forall c, inside (nrows dem) (ncols dem) c -> le64 (at_ dem c) (at_ dem' c)) /\
  fill64_cy 20 dem = Ok f /\ fill64_cy 20 dem' = Ok f' /\ inside (nrows dem) (ncols dem) c /\ eq64 (at_ dem' c) (at_ dem c) /\ lt64 (at_ f' c) (at_ f c).
Proof.
  assert (A : on_ok (fun f => on_ok (fun f' => Bltb (at_ f' (3, 3)) (at_ f (3, 3))) (fill64_cy 20 far')) (fill64_cy 20 far) = true) by (vm_compute; reflexivity).
  apply on_ok_ex in A. destruct A as (f & F & A). apply on_ok_ex in A. destruct A as (f' & F' & A).
  assert (D : dem32 far /\ dem_finite far) by (apply dem_ok; vm_compute; reflexivity).
  assert (D' : dem32 far' /\ dem_finite far') by (apply dem_ok; vm_compute; reflexivity).
  exists far, far', f, f', (3, 3). split; [cbn; lia|]. split; [split; reflexivity|]. split; [apply D|]. split; [apply D'|]. split; [apply D|]. split; [apply D'|].
  split; [apply leb_cells_ok; vm_compute; reflexivity|]. split; [exact F|]. split; [exact F'|]. split; [unfold inside; cbn; lia|]. split; [vm_compute; reflexivity|exact A].
Qed.
