From Flocq Require Import IEEE754.BinarySingleNaN.
From Verif Require Import Base BaseProofs Num Float64 FillSpec FillModel FlowModel DemModel LabelModel LabelSpec
  CompSpec CompProofs VectorModel BluespotModel BluespotSpec BluespotProofs IoModel StepModel StepSpec
  Float64Proofs FillProofs FillThms DemProofs LevelProofs GridProofs BluespotThms StepThms.
Local Open Scope Z_scope.

Notation sea := (f64_ofZ (-999)).

Lemma sea_not_nan : not_nan sea.
Proof. vm_compute. reflexivity. Qed.

Section Hole.
Variable f : raster_file.
Hypothesis NZ : forall nd, rf_nodata f = Some nd -> Beqb nd f64_zero = false.
Let dem := load (Some sea) f.

Lemma load_nodata : forall c, nodata_at f c -> at_ dem c = sea.
Proof.
  intros [i j] (Hi & nd & E & H). unfold dem, load, at_ in *. cbn [rget fst snd] in *.
  rewrite (proj2 (insideb_inside _ _ _ _) Hi), E. unfold reader_read. rewrite (NZ _ E). cbn [rget].
  destruct (is_nan nd); rewrite H; apply B2SF_inj; vm_compute; reflexivity.
Qed.

Lemma load_data : forall c, inside (nrows dem) (ncols dem) c -> ~ nodata_at f c -> at_ dem c = at_ (rf_data f) c.
Proof.
  intros [i j] Hi N. unfold nodata_at in N. unfold dem, load, at_ in *. cbn [rget fst snd nrows ncols] in *.
  rewrite (proj2 (insideb_inside _ _ _ _) Hi). unfold reader_read. destruct (rf_nodata f) as [nd|]; [|reflexivity].
  rewrite (NZ nd) by reflexivity. cbn [rget].
  destruct (if is_nan nd then is_nan _ else isclose _ _) eqn:M; [|reflexivity].
  exfalso. apply N. split; [exact Hi|]. exists nd. split; [reflexivity|]. destruct (is_nan nd); exact M.
Qed.

Lemma nodata_dec : forall c, nodata_at f c \/ ~ nodata_at f c.
Proof.
  intros c. unfold nodata_at. destruct (insideb (nrows (rf_data f)) (ncols (rf_data f)) (fst c) (snd c)) eqn:I.
  2:{ right. intros [A _]. destruct c. apply insideb_inside in A. cbn in I. congruence. }
  assert (Hi : inside (nrows (rf_data f)) (ncols (rf_data f)) c) by (destruct c; apply insideb_inside; exact I).
  destruct (rf_nodata f) as [nd|]; [|right; intros (_ & nd & E & _); discriminate E].
  destruct (if is_nan nd then is_nan (at_ (rf_data f) c) else isclose (at_ (rf_data f) c) nd) eqn:M.
  - left. split; [exact Hi|]. exists nd. split; [reflexivity|]. destruct (is_nan nd); exact M.
  - right. intros (_ & nd' & E & H). inversion E; subst nd'. destruct (is_nan nd); congruence.
Qed.

Lemma open_escapes : forall c, open_hole f c -> escapes le64 (nrows dem) (ncols dem) (at_ dem) sea c.
Proof.
  induction 1 as [c N He | c d N Ha _ IH].
  - apply esc_edge; [exact He|]. rewrite (load_nodata c N). vm_compute. reflexivity.
  - apply esc_step with d; auto; [apply N|]. rewrite (load_nodata c N). vm_compute. reflexivity.
Qed.

Lemma escapes_open : (forall c, inside (nrows dem) (ncols dem) c -> ~ nodata_at f c -> lt64 sea (at_ dem c)) ->
  dem32 dem ->
  forall c, escapes le64 (nrows dem) (ncols dem) (at_ dem) sea c -> open_hole f c.
Proof.
  intros HL H32 c H.
  assert (K : forall e, inside (nrows dem) (ncols dem) e -> le64 (at_ dem e) sea -> nodata_at f e).
  { intros e He Hle. destruct (nodata_dec e) as [|N]; auto. exfalso.
    pose proof (HL e He N) as L. apply le64_rank in Hle; [|apply H32; auto|apply sea_not_nan].
    apply lt64_rank in L; [lia|apply sea_not_nan|apply H32; auto]. }
  induction H as [e He Hle | e d He Hle Ha _ IH].
  - apply hole_edge; [apply K; auto; exact (proj1 He)|exact He].
  - apply hole_step with d; auto.
Qed.
End Hole.

Lemma le64_right : forall x y, le64 x y -> not_nan y.
Proof.
  intros x y H. unfold le64, Bleb, SpecFloat.SFleb, not_nan in *. destruct y as [| | |]; try reflexivity.
  destruct x as [[]|[]| |[]]; discriminate H.
Qed.

(** ** C71 *)
Lemma open_dry : forall fuel t1 t5 demf out,
  (forall nd, rf_nodata demf = Some nd -> Beqb nd f64_zero = false) ->
  let dem := load (Some sea) demf in
  size_ok false dem -> dem32 dem -> dem_finite dem -> dem_process false fuel t1 t5 dem = Ok out ->
  forall c, open_hole demf c ->
  eq64 (at_ (do_filled out) c) sea /\ eq64 (at_ (do_depths out) c) f64_zero.
Proof.
  intros fuel t1 t5 demf out NZ dem S H32 HF H c O.
  assert (N : nodata_at demf c) by (clear - O; destruct O; assumption).
  assert (Hi : inside (nrows dem) (ncols dem) c) by apply N.
  assert (P : 2 <= nrows dem /\ 2 <= ncols dem) by (clear - S; unfold size_ok in S; lia). destruct P as [P1 P2].
  destruct (dem_process_parts _ _ _ _ _ _ H) as (_ & E & _).
  destruct (filled_facts _ _ _ _ _ _ S H32 HF H) as (Er & Ec & F32 & _ & FL & _).
  destruct (depths_facts _ _ _ _ _ _ S H32 HF H) as (Sd & DF & _).
  assert (G : not_nan (at_ (do_filled out) c)).
  { apply F32. rewrite Er, Ec. exact Hi. }
  pose proof (load_nodata demf NZ c N) as EN. fold dem in EN.
  assert (U : le64 (at_ (do_filled out) c) sea).
  { apply (FillProofs.fill64_level dem P1 P2 H32 fuel _ E); [exact Hi|apply sea_not_nan|]. apply open_escapes; assumption. }
  pose proof (FL c Hi) as L. rewrite EN in L.
  assert (Q : eq64 (at_ (do_filled out) c) sea) by (apply rank_le_eq; auto using sea_not_nan).
  split; [exact Q|].
  destruct (DF c Hi) as [D0 D1].
  pose proof (le64_right _ _ D0) as GD. apply eq64_rank; [exact GD|reflexivity|].
  apply le64_rank in D0; [|reflexivity|exact GD].
  destruct (Z.eq_dec (rank (at_ (do_depths out) c)) (rank f64_zero)) as [|NE]; [assumption|exfalso].
  assert (W : lt64 f64_zero (at_ (do_depths out) c)) by (apply lt64_rank; [reflexivity|exact GD|lia]).
  apply D1 in W. rewrite EN in W. apply lt64_rank in W; [|apply sea_not_nan|exact G].
  apply eq64_rank in Q; [|exact G|apply sea_not_nan]. lia.
Qed.

Lemma open_unlabelled : forall cc, labels_components cc -> forall fuel t1 t5 demf dout fuel' t f accum dem' out,
  (forall nd, rf_nodata demf = Some nd -> Beqb nd f64_zero = false) ->
  let dem := load (Some sea) demf in
  size_ok false dem -> dem32 dem -> dem_finite dem -> dem_process false fuel t1 t5 dem = Ok dout ->
  bluespot_process false cc fuel' t (do_depths dout) (do_flowdir dout) (Some f) accum dem' = Ok out ->
  forall c, open_hole demf c -> at_ (bo_labeled out) c = 0.
Proof.
  intros cc HC fuel t1 t5 demf dout fuel' t f accum dem' out NZ dem S H32 HF H HB c O.
  destruct (open_dry _ _ _ _ _ NZ S H32 HF H c O) as [_ D].
  assert (N : nodata_at demf c) by (clear - O; destruct O; assumption).
  assert (Hi : inside (nrows dem) (ncols dem) c) by apply N.
  destruct (depths_facts _ _ _ _ _ _ S H32 HF H) as ((Sr & Sc) & _).
  destruct (size_pos _ _ S) as [P1 P2]. rewrite Sr in P1. rewrite Sc in P2.
  destruct (process_filter cc HC _ _ _ _ _ _ _ _ _ P1 P2 HB) as (_ & _ & L & _).
  rewrite Sr, Sc in Hi. specialize (L c Hi).
  destruct (Z.eq_dec (at_ (bo_labeled out) c) 0) as [|NE]; [assumption|exfalso].
  apply L in NE. destruct NE as [W _]. unfold nonzero, at_ in W. cbn [rget] in W.
  unfold eq64, at_ in D. rewrite D in W. discriminate W.
Qed.

(** An enclosed hole is flooded, by either variant. *)
Lemma closed_flooded : forall sp fuel t1 t5 demf out,
  (forall nd, rf_nodata demf = Some nd -> Beqb nd f64_zero = false) ->
  let dem := load (Some sea) demf in
  size_ok sp dem -> dem32 dem -> dem_finite dem -> dem_process sp fuel t1 t5 dem = Ok out ->
  (forall c, inside (nrows dem) (ncols dem) c -> ~ nodata_at demf c -> lt64 sea (at_ (rf_data demf) c)) ->
  forall c, nodata_at demf c -> ~ open_hole demf c -> lt64 f64_zero (at_ (do_depths out) c).
Proof.
  intros sp fuel t1 t5 demf out NZ dem S H32 HF H HL c N O.
  assert (HL' : forall e, inside (nrows dem) (ncols dem) e -> ~ nodata_at demf e -> lt64 sea (at_ dem e)).
  { intros e He Ne. unfold dem. rewrite (load_data demf NZ e He Ne). apply HL; assumption. }
  assert (Hi : inside (nrows dem) (ncols dem) c) by apply N.
  assert (P : 2 <= nrows dem /\ 2 <= ncols dem) by (clear - S; destruct sp; unfold size_ok in S; lia). destruct P as [P1 P2].
  destruct (dem_process_parts _ _ _ _ _ _ H) as (_ & E & _).
  destruct (filled_facts _ _ _ _ _ _ S H32 HF H) as (Er & Ec & F32 & _ & FL & _).
  destruct (depths_facts _ _ _ _ _ _ S H32 HF H) as (Sd & DF & _).
  assert (G : not_nan (at_ (do_filled out) c)).
  { apply F32. rewrite Er, Ec. exact Hi. }
  pose proof (load_nodata demf NZ c N) as EN. fold dem in EN.
  apply (DF c Hi). rewrite EN. apply lt64_rank; [apply sea_not_nan|exact G|].
  destruct (Z_lt_le_dec (rank sea) (rank (at_ (do_filled out) c))) as [|W]; [assumption|exfalso]. apply O.
  assert (K : exists f k, forall fuel, (fuel >= k)%nat -> fill64 fuel dem = Ok f) by (apply fill64_total; assumption).
  destruct K as (g & k & K). specialize (K k (le_n k)).
  assert (Gg : not_nan (at_ g c)).
  { destruct (fill64_basic dem P1 P2 H32 _ _ K) as (Eg1 & Eg2 & D & _). apply D. rewrite Eg1, Eg2. exact Hi. }
  assert (V : rank (at_ g c) <= rank sea).
  { destruct sp.
    - unfold size_ok in S. destruct (cy_safe dem ltac:(lia) ltac:(lia) H32 HF _ _ E) as (_ & _ & _ & _ & _ & _ & X).
      specialize (X _ _ K c Hi). apply le64_rank in X; [lia|exact Gg|exact G].
    - assert (X : le64 (at_ g c) (at_ (do_filled out) c)).
      { apply (FillProofs.fill64_level dem P1 P2 H32 _ _ K); [exact Hi|exact G|].
        apply (FillProofs.fill64_level dem P1 P2 H32 _ _ E); [exact Hi|exact G|]. apply le64_rank; auto. lia. }
      apply le64_rank in X; [lia|exact Gg|exact G]. }
  apply (escapes_open demf NZ HL' H32). apply (FillProofs.fill64_level dem P1 P2 H32 _ _ K); [exact Hi|apply sea_not_nan|].
  apply le64_rank; [exact Gg|apply sea_not_nan|exact V].
Qed.

Definition hole_file : raster_file :=
  mkFile (zrows [[10;10;10;10;10];[10;10;10;10;10];[10;10;-9999;10;10];[10;10;10;10;10];[10;10;10;10;10]]) (Some (f64_ofZ (-9999))).
Definition strip_file : raster_file :=
  mkFile (zrows [[10;10;10;-9999];[10;10;-9999;10];[10;-9999;-9999;10];[10;10;10;10]]) (Some (f64_ofZ (-9999))).

Lemma nodata_of : forall f c, insideb (nrows (rf_data f)) (ncols (rf_data f)) (fst c) (snd c) = true ->
  match rf_nodata f with Some nd => negb (is_nan nd) && isclose (at_ (rf_data f) c) nd | None => false end = true ->
  nodata_at f c.
Proof.
  intros f c I H. split; [destruct c; apply insideb_inside; exact I|].
  destruct (rf_nodata f) as [nd|]; [|discriminate H]. exists nd. split; [reflexivity|].
  apply andb_true_iff in H. destruct H as [A B]. apply negb_true_iff in A. rewrite A. exact B.
Qed.

Theorem closed_refuted : forall sp, exists demf dout out,
  let dem := load (Some sea) demf in
  rf_nodata demf = Some (f64_ofZ (-9999)) /\ size_ok sp dem /\ dem32 dem /\ dem_finite dem /\ nodata_at demf (2, 2) /\
  dem_process sp 40 (gt1 ex_gt) (gt5 ex_gt) dem = Ok dout /\
  bluespot_process sp cc_memo 40 ex_gt (do_depths dout) (do_flowdir dout) (Some (fun _ => true)) None (Some dem) = Ok out /\
  eq64 (at_ (do_depths dout) (2, 2)) (f64_ofZ 1009) /\
  to_rows (bo_labeled out) = [[0;0;0;0;0];[0;0;0;0;0];[0;0;1;0;0];[0;0;0;0;0];[0;0;0;0;0]].
Proof.
  intros sp.
  assert (A : on_ok (fun d => on_ok (fun o => Beqb (at_ (do_depths d) (2, 2)) (f64_ofZ 1009) &&
     zz_eqb (to_rows (bo_labeled o)) [[0;0;0;0;0];[0;0;0;0;0];[0;0;1;0;0];[0;0;0;0;0];[0;0;0;0;0]])
     (bluespot_process sp cc_memo 40 ex_gt (do_depths d) (do_flowdir d) (Some (fun _ => true)) None (Some (load (Some sea) hole_file))))
     (dem_process sp 40 (gt1 ex_gt) (gt5 ex_gt) (load (Some sea) hole_file)) = true) by (destruct sp; vm_compute; reflexivity).
  apply on_ok_ex in A. destruct A as (d & A & B). apply on_ok_ex in B. destruct B as (o & B & C).
  apply andb_true_iff in C. destruct C as [C1 C2]. apply zz_eq in C2.
  assert (D : dem32 (load (Some sea) hole_file) /\ dem_finite (load (Some sea) hole_file)) by (apply dem_ok; vm_compute; reflexivity).
  exists hole_file, d, o. split; [reflexivity|]. split; [destruct sp; cbn; lia|]. split; [apply D|]. split; [apply D|].
  split; [apply nodata_of; vm_compute; reflexivity|]. split; [exact A|]. split; [exact B|]. split; [exact C1|exact C2].
Qed.

Theorem strip_refuted : exists demf dout,
  let dem := load (Some sea) demf in
  rf_nodata demf = Some (f64_ofZ (-9999)) /\ size_ok true dem /\ dem32 dem /\ dem_finite dem /\ open_hole demf (2, 2) /\
  dem_process true 40 (gt1 ex_gt) (gt5 ex_gt) dem = Ok dout /\
  eq64 (at_ (do_depths dout) (2, 2)) (f64_ofZ 1009).
Proof.
  assert (A : on_ok (fun d => Beqb (at_ (do_depths d) (2, 2)) (f64_ofZ 1009))
     (dem_process true 40 (gt1 ex_gt) (gt5 ex_gt) (load (Some sea) strip_file)) = true) by (vm_compute; reflexivity).
  apply on_ok_ex in A. destruct A as (d & A & B).
  assert (D : dem32 (load (Some sea) strip_file) /\ dem_finite (load (Some sea) strip_file)) by (apply dem_ok; vm_compute; reflexivity).
  exists strip_file, d. split; [reflexivity|]. split; [cbn; lia|]. split; [apply D|]. split; [apply D|].
  split; [|split; [exact A|exact B]].
  apply hole_step with (1, 2); [apply nodata_of; vm_compute; reflexivity|unfold adjacent; cbn; split; [discriminate|lia]|].
  apply hole_step with (0, 3); [apply nodata_of; vm_compute; reflexivity|unfold adjacent; cbn; split; [discriminate|lia]|].
  apply hole_edge; [apply nodata_of; vm_compute; reflexivity|unfold on_edge, inside; cbn; lia].
Qed.

Lemma nodata_example :
  Beqb (f64_ofZ (-9999)) f64_zero = false /\
  rf_nodata strip_file = Some (f64_ofZ (-9999)) /\ size_ok false (load (Some sea) strip_file) /\
  dem32 (load (Some sea) strip_file) /\ dem_finite (load (Some sea) strip_file) /\ open_hole strip_file (2, 2) /\
  on_ok (fun o => Beqb (at_ (do_filled o) (2, 2)) sea)
    (dem_process false 40 (gt1 ex_gt) (gt5 ex_gt) (load (Some sea) strip_file)) = true /\
  rf_nodata hole_file = Some (f64_ofZ (-9999)) /\ nodata_at hole_file (2, 2) /\ ~ open_hole hole_file (2, 2) /\
  (forall c, inside 5 5 c -> ~ nodata_at hole_file c -> lt64 sea (at_ (rf_data hole_file) c)).
Proof.
  assert (D : dem32 (load (Some sea) strip_file) /\ dem_finite (load (Some sea) strip_file)) by (apply dem_ok; vm_compute; reflexivity).
  assert (C : forallb (fun c => cell_eqb c (2, 2) ||
      (negb (isclose (at_ (rf_data hole_file) c) (f64_ofZ (-9999))) && Bltb sea (at_ (rf_data hole_file) c)))
      (rcells (rf_data hole_file)) = true) by (vm_compute; reflexivity).
  rewrite forallb_forall in C.
  assert (M : forall c, inside 5 5 c -> c = (2, 2) \/ ~ nodata_at hole_file c /\ lt64 sea (at_ (rf_data hole_file) c)).
  { intros c Hi. specialize (C c (proj2 (in_cells_of _ _ _) Hi)). destruct (cell_eqb_spec c (2, 2)) as [|NE]; [left; assumption|right].
    cbn [orb] in C. apply andb_true_iff in C. destruct C as [C1 C2]. split; [|exact C2]. intros (_ & nd & E & H).
    change (Some (f64_ofZ (-9999)) = Some nd) in E. assert (X : nd = f64_ofZ (-9999)) by congruence. rewrite X in H.
    replace (is_nan (f64_ofZ (-9999))) with false in H by (vm_compute; reflexivity). rewrite H in C1. discriminate C1. }
  split; [vm_compute; reflexivity|]. split; [reflexivity|]. split; [cbn; lia|]. split; [apply D|]. split; [apply D|]. split.
  { apply hole_step with (1, 2); [apply nodata_of; vm_compute; reflexivity|unfold adjacent; cbn; split; [discriminate|lia]|].
    apply hole_step with (0, 3); [apply nodata_of; vm_compute; reflexivity|unfold adjacent; cbn; split; [discriminate|lia]|].
    apply hole_edge; [apply nodata_of; vm_compute; reflexivity|unfold on_edge, inside; cbn; lia]. }
  split; [vm_compute; reflexivity|]. split; [reflexivity|]. split; [apply nodata_of; vm_compute; reflexivity|]. split.
  - intros O. remember (2, 2) as c eqn:Ec. destruct O as [c N He | c d N Ha O].
    + subst c. unfold on_edge, inside in He. cbn in He. lia.
    + subst c. assert (N' : nodata_at hole_file d) by (clear - O; destruct O; assumption).
      destruct (M d (proj1 N')) as [->|[K _]]; [apply (proj1 Ha); reflexivity|exact (K N')].
  - intros c Hi N. destruct (M c Hi) as [->|[_ L]]; [|exact L]. exfalso. apply N. apply nodata_of; vm_compute; reflexivity.
Qed.
