(** * The histograms the pour points carry *)

From Coq Require Import QArith String.
From Verif Require Import Base BaseProofs Num LabelModel LabelSpec BluespotSpec HypsModel HypsSpec HypsThms NetworkProofs.
Local Open Scope Z_scope.

(** ** What the pour points carry *)
Theorem own_histogram : forall (lab : raster Z) (dem : raster Q) cell_res ids w n pinf ninf out,
  numbered lab n -> largest_label lab n -> NoDup ids ->
  (forall c, inside (nrows lab) (ncols lab) c -> (ninf < at_ dem c < pinf)%Q) ->
  bluespot_hypsometry_io QOps Q_int pinf ninf lab dem cell_res ids w = Ok out ->
  forall f, In f out -> 1 <= hf_bspot f -> exists h d cs,
    hf_dict f = Some d /\ hyps_from_flatdict d = Ok h /\ lists_cells (has_label lab (hf_bspot f)) cs /\ cs <> [] /\
    let zs := map (at_ dem) cs in
    least zs (z_min h) /\ greatest zs (z_max h) /\ histogram_of zs w (z_hist h).
Proof.
  intros lab dem cell_res ids w n pinf ninf out Nb LG ND R H f Hf Hl.
  destruct (hypsometry_io_sound QOps Q_int pinf ninf lab dem cell_res ids w n out (proj1 Nb) LG ND H)
    as (Sh & W & M & _ & Le & st & E & F).
  assert (W' : (0 < w)%Q).
  { cbn in W. apply negb_true_iff in W. destruct (Qlt_le_dec 0 w) as [X|X]; [exact X|].
    apply Qle_bool_iff in X. unfold inject_Z in *. congruence. }
  destruct (hypsometry_exact lab dem w n pinf ninf Sh Nb LG W' R) as (st' & _ & E' & Ln & G).
  rewrite E in E'. injection E' as <-.
  destruct (F f Hf ltac:(lia)) as (h & d & Hi & Hd & Hr & _).
  assert (Hn : hf_bspot f <= n). { apply Le. rewrite <- M. apply in_map. exact Hf. }
  destruct (G (hf_bspot f) (conj Hl Hn)) as (h' & cs & Hk & Lc & X). cbv zeta in X.
  assert (h' = h).
  { apply nth_error_In in Hk. pose proof (stats_labels_n _ _ _ _ _ _ _ _ _ _ Sh (proj1 Nb) LG E) as LB.
    assert (ND' : NoDup (map fst st)) by (rewrite LB; apply zseq_NoDup).
    assert (X' : (hf_bspot f, h') = (hf_bspot f, h)) by (apply (NoDup_map_inj fst _ _ _ ND' Hk Hi); reflexivity). congruence. }
  subst h'. exists h, d, cs. split; [exact Hd|]. split; [exact Hr|]. split; [exact Lc|]. split; [|cbv zeta; destruct X as (X1 & X2 & X3 & _); auto].
  destruct (proj2 (proj2 Nb) (hf_bspot f) (conj Hl Hn)) as (c & Hc). apply Lc in Hc. intros ->. destruct Hc.
Qed.
