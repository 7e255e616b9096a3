(** * Example data for the complete command in floats *)

From Coq Require Import QArith Qabs.
From Flocq Require Import IEEE754.BinarySingleNaN.
From Verif Require Import Base BaseProofs Num Float64 FillSpec FillThms CompSpec CompProofs DemModel VectorModel BluespotModel BluespotThms NetworkModel NetworkSpec NetworkThms
  NetworkFloatSpec NetworkFloatThms RainModel RainThms PipelineModel FloatPipeModel FloatPipeSpec OverflowSpec RoundSpec RoundEx.
Local Open Scope Z_scope.

(** 10.1 mm on the terrain [rain_dem] with cells of 0.7 m. *)
Definition fp_mm : b64 := tenth 101.
Definition fp_check (o : float_out) : bool :=
  forallb (fun p => is_finite (snd p) && is_finite (nf_vol (fst p))) (fo_nodes o) && finite_out (fo_final o).
Definition fp_total (o : float_out) : Q :=
  (Qsum (map (written e_vol) (fo_final o)) + Qsum (map (written e_spill) (filter (fun p => is_root (fst p)) (fo_final o))))%Q.
Definition fp_rain : Q := (inject_Z (nrows rain_dem * ncols rain_dem) * area_Q (gt1 acc_gt) (gt5 acc_gt) * (b64_Q fp_mm / 1000))%Q.

Lemma fp_check_ok : forall o, fp_check o = true -> no_overflow o.
Proof.
  intros o H. apply andb_prop in H. destruct H as [H1 H2]. split; [|apply finite_out_ok; exact H2].
  intros n v Hn. rewrite forallb_forall in H1. specialize (H1 _ Hn). cbn [fst snd] in H1. apply andb_prop in H1. exact H1.
Qed.

Lemma fp_run : exists o, complete64 false cc_memo 25 acc_gt rain_dem all_pass true fp_mm = Ok o /\ no_overflow o /\
  length (fo_nodes o) = 3%nat /\ ~ (fp_total o == fp_rain)%Q.
Proof.
  assert (C : on_ok (fun o => fp_check o && (Z.of_nat (length (fo_nodes o)) =? 3) && negb (Qeq_bool (fp_total o) fp_rain))
    (complete64 false cc_memo 25 acc_gt rain_dem all_pass true fp_mm) = true) by (vm_compute; reflexivity).
  apply on_ok_ex in C. destruct C as (o & E & C). exists o. split; [exact E|].
  apply andb_prop in C. destruct C as [C C3]. apply andb_prop in C. destruct C as [C1 C2].
  split; [apply fp_check_ok; exact C1|]. split; [apply Z.eqb_eq in C2; apply Nat2Z.inj; exact C2|].
  intros X. apply Qeq_bool_iff in X. rewrite X in C3. discriminate C3.
Qed.

(** Two nodes with 2^1023 m3 each. *)
Definition flood : list (@node b64) :=
  [mkNode 1 None (f64 1 1023) f64_zero; mkNode 2 (Some 1) (f64 1 1023) f64_zero].

Definition inf_spill (p : @node b64 * option (@event b64)) : bool :=
  match snd p with Some e => negb (is_finite (e_spill e)) | None => false end.

Lemma flood_overflows : exists out n e, process F64Ops 5 flood = Ok out /\ In (n, Some e) out /\ ~ finite64 (e_spill e).
Proof.
  assert (X : match process F64Ops 5 flood with Ok out => existsb inf_spill out | _ => false end = true) by (vm_compute; reflexivity).
  destruct (process F64Ops 5 flood) as [out| |]; try discriminate X. apply existsb_exists in X. destruct X as ([n [e|]] & Hn & X); [|discriminate X].
  exists out, n, e. split; [reflexivity|]. split; [exact Hn|]. unfold finite64, inf_spill in *. cbn [snd] in X. intros F. rewrite F in X. discriminate X.
Qed.

Lemma flood_ok : forall n, In n flood -> nonneg64 (n_water n) /\ nonneg64 (n_cap n).
Proof. intros n [<-|[<-|[]]]; repeat split; vm_compute; reflexivity. Qed.

Lemma tenths_small : forall n, In n tenths -> at_most 970 (n_water n).
Proof. intros n Hn. unfold tenths in Hn. cbn [In] in Hn. decompose [or] Hn; subst; try contradiction; vm_compute; discriminate. Qed.

Lemma rain_dem_small : forall c, inside (nrows rain_dem) (ncols rain_dem) c -> at_most 126 (at_ rain_dem c).
Proof.
  intros c Hc. apply in_cells_of in Hc.
  assert (X : forallb (fun c => Qle_bool (Qabs (b64_Q (at_ rain_dem c))) (inject_Z (2 ^ 126))) (cells_of (nrows rain_dem) (ncols rain_dem)) = true) by (vm_compute; reflexivity).
  rewrite forallb_forall in X. apply Qle_bool_iff. apply X. exact Hc.
Qed.
