(** * Accumulated flow and watersheds on part of a flow direction raster *)

From Flocq Require Import IEEE754.BinarySingleNaN.
From Verif Require Import Base BaseProofs PartSpec Num Float64 FillModel FillSpec FillThms FlowModel FlowSpec FlowProofs AccumProofs WatershedProofs FlowDirProofs WindowSpec WindowThms SymProofs SymThms WindowFlow FlowThms.

Section Cut.
Variables (r0 c0 : Z) (f w g : raster Z).
Hypothesis Hs : 0 <= r0 /\ 0 <= c0 /\ r0 + nrows w <= nrows f /\ c0 + ncols w <= ncols f.
Hypothesis g_facts : nrows g = nrows w /\ ncols g = ncols w /\ (forall c, on_edge (nrows w) (ncols w) c -> flows_off g c) /\
  (forall c, interior (nrows w) (ncols w) c -> at_ g c = at_ f (moved r0 c0 c)).
Hypothesis Df : fully_draining f.
Notation mv := (moved r0 c0).
Notation inw := (inside (nrows w) (ncols w)).

Lemma mv_in : forall c, inw c -> inside (nrows f) (ncols f) (mv c).
Proof. destruct Hs as (A & B & C & D). intros c (I & J). unfold inside, moved. cbn. lia. Qed.
Lemma mv_inj : forall c d, mv c = mv d -> c = d.
Proof. intros [i j] [k l] E. unfold moved in E. cbn in E. injection E as E1 E2. f_equal; lia. Qed.
Lemma split_cell : forall c, inw c -> on_edge (nrows w) (ncols w) c \/ interior (nrows w) (ncols w) c.
Proof. intros [i j] (I & J). unfold on_edge, interior, inside. cbn in *. lia. Qed.
Lemma int_in : forall c, interior (nrows w) (ncols w) c -> inw c.
Proof. intros [i j] (I & J). unfold inside. cbn in *. lia. Qed.

(** A cell inside the part flows to the same cell in both. *)
Lemma step : forall c, interior (nrows w) (ncols w) c -> exists d, inw d /\ target g c = Some d /\ target f (mv c) = Some (mv d).
Proof.
  intros c I. destruct g_facts as (E1 & E2 & _ & V). unfold target. rewrite (V c I).
  destruct Df as (K & Dr). pose proof (Dr _ (mv_in c (int_in c I))) as X.
  assert (T : exists d, target f (mv c) = Some d) by (destruct X as [c' (_ & d & T & _)|c' d (_ & _ & T) _]; exists d; exact T).
  destruct T as (d & T). unfold target in T. destruct (offset (at_ f (mv c))) as [o|] eqn:O; [|discriminate T].
  exists (shift c o). split; [apply (interior_shift _ _ _ _ _ I O)|]. split; [reflexivity|]. f_equal. unfold shift, moved. cbn. f_equal; lia.
Qed.

Lemma off_flows : forall h c d, flows_off h c -> flows h c d -> False.
Proof. intros h c d (_ & e & T & N) (_ & I & T'). rewrite T in T'. injection T' as ->. contradiction. Qed.

Lemma flows_interior : forall c d, flows g c d -> interior (nrows w) (ncols w) c /\ inw d /\ flows f (mv c) (mv d).
Proof.
  intros c d F. destruct g_facts as (E1 & E2 & V & _). pose proof F as (I & J & T). rewrite E1, E2 in I, J.
  destruct (split_cell c I) as [H|H]; [destruct (off_flows g c d (V c H) F)|].
  destruct (step c H) as (e & K & T1 & T2). rewrite T in T1. injection T1 as <-.
  split; [exact H|]. split; [exact K|]. split; [apply mv_in, I|]. split; [apply mv_in, K|exact T2].
Qed.

Theorem cut_drains : fully_draining g.
Proof.
  destruct g_facts as (E1 & E2 & V & K). split.
  - intros c I. rewrite E1, E2 in I. destruct (split_cell c I) as [H|H].
    + destruct (V c H) as (_ & d & T & _). unfold target in T. destruct (offset (at_ g c)) as [o|] eqn:O; [|discriminate T].
      pose proof (offset_some _ _ O). lia.
    + rewrite K by exact H. apply Df, mv_in, I.
  - rewrite E1, E2. assert (X : forall c', drains_off f c' -> forall c, inw c -> c' = mv c -> drains_off g c).
    { intros c' H. induction H as [c' O|c' d F H IH]; intros c I ->.
      - destruct (split_cell c I) as [E|E]; [apply do_off, V, E|]. destruct (step c E) as (d & J & _ & T).
        destruct O as (_ & d' & T' & N). rewrite T in T'. injection T' as <-. destruct N. apply mv_in, J.
      - destruct (split_cell c I) as [E|E]; [apply do_off, V, E|]. destruct (step c E) as (e & J & T1 & T2).
        destruct F as (_ & _ & T). rewrite T2 in T. injection T as <-. apply (do_step _ _ e); [|apply IH; auto].
        split; [rewrite E1, E2; exact I|]. split; [rewrite E1, E2; exact J|exact T1]. }
    intros c I. apply (X (mv c)); auto. apply Df, mv_in, I.
Qed.

Lemma passes_window : forall a b, passes g a b -> passes f (mv a) (mv b).
Proof.
  destruct g_facts as (E1 & E2 & _). intros a b H. induction H as [a I|a b c F H IH].
  - apply pa_here, mv_in. rewrite E1, E2 in I. exact I.
  - apply (pa_step _ _ (mv b)); [|exact IH]. apply flows_interior, F.
Qed.

Lemma passes_inside : forall a b, passes g a b -> inw a.
Proof. destruct g_facts as (E1 & E2 & _). intros a b [a' I|a' b' c' (I & _) _]; rewrite E1, E2 in I; exact I. Qed.

Lemma passes_interior : forall a b, passes g a b -> a = b \/ interior (nrows w) (ncols w) a.
Proof. intros a b [a' I|a' b' c' F _]; [left; reflexivity|right; apply (flows_interior _ _ F)]. Qed.

Definition own (c d : cell) : Prop := d = mv c \/ exists e, interior (nrows w) (ncols w) e /\ d = mv e.

Lemma passes_back : forall c, inw c -> (forall d, passes f d (mv c) -> own c d) ->
  forall d, passes f d (mv c) -> exists e, d = mv e /\ passes g e c.
Proof.
  intros c Ic H. destruct g_facts as (E1 & E2 & _ & _).
  assert (Pc : passes g c c) by (apply pa_here; rewrite E1, E2; exact Ic).
  assert (X : forall d m, passes f d m -> m = mv c -> exists e, d = mv e /\ passes g e c).
  { intros d m P. induction P as [a I|a b m F P IH]; intros ->; [exists c; auto|].
    destruct (IH eq_refl) as (e & -> & Q). destruct (H a (pa_step _ _ _ _ F P)) as [->|(x & Ix & ->)]; [exists c; auto|].
    exists x. split; [reflexivity|]. apply (pa_step _ _ e); [|exact Q].
    destruct (step x Ix) as (y & J & T1 & T2). destruct F as (_ & _ & T). assert (T' : mv y = mv e) by congruence. apply mv_inj in T'. subst y.
    split; [rewrite E1, E2; apply int_in, Ix|]. split; [rewrite E1, E2; exact J|exact T1]. }
  intros d P. apply (X d _ P eq_refl).
Qed.

Lemma mv_NoDup : forall l, NoDup l -> NoDup (map mv l).
Proof. intros l H. apply FinFun.Injective_map_NoDup; [|exact H]. intros x y. apply mv_inj. Qed.

Lemma counts_cut : forall c n m, inw c -> counts (fun d => passes g d c) n -> counts (fun d => passes f d (mv c)) m ->
  n <= m /\ (n = m <-> forall d, passes f d (mv c) -> own c d).
Proof.
  intros c n m Ic (l & Nl & Hl & ->) (k & Nk & Hk & ->).
  assert (I : incl (map mv l) k) by (intros x Hx; apply in_map_iff in Hx; destruct Hx as (y & <- & Hy); apply Hk, passes_window, Hl, Hy).
  pose proof (NoDup_incl_length (mv_NoDup l Nl) I) as L. rewrite map_length in L. split; [lia|]. split.
  - intros E d Hd. assert (In d (map mv l)) as M.
    { assert (Q : (length k <= length (map mv l))%nat) by (rewrite map_length; lia). apply (NoDup_length_incl (mv_NoDup l Nl) Q I). apply Hk, Hd. }
    apply in_map_iff in M. destruct M as (e & <- & He). apply Hl in He. destruct (passes_interior e c He) as [->|J]; [left; reflexivity|right; eauto].
  - intros H. assert (J : incl k (map mv l)).
    { intros d Hd. apply Hk in Hd. destruct (passes_back c Ic H d Hd) as (e & -> & Pe). apply in_map, Hl, Pe. }
    pose proof (NoDup_incl_length Nk J) as L'. rewrite map_length in L'. lia.
Qed.

(** ** Watersheds *)
Variables lab lw : raster Z.
Variable un : Z.
Hypothesis Hl : window r0 c0 lab lw.
Hypothesis Sl : same_shape w lw.

Lemma label_val : forall c, inw c -> at_ lw c = at_ lab (mv c).
Proof. intros c I. apply Hl. destruct Sl as (<- & <-). exact I. Qed.

Lemma first_cut : forall c l, first_label g lw un c l -> l <> un -> first_label f lab un (mv c) l.
Proof.
  destruct g_facts as (E1 & E2 & _). intros c l H. induction H as [c I V|c d l V F H IH|c V O]; intros N.
  - rewrite E1, E2 in I. rewrite (label_val c I) in *. apply fl_here; [apply mv_in, I|exact V].
  - destruct (flows_interior c d F) as (J & _ & F'). apply (fl_step _ _ _ _ (mv d)); [|exact F'|apply IH, N].
    rewrite <- label_val by (apply int_in, J). exact V.
  - contradiction N; reflexivity.
Qed.

Lemma first_lost : forall c l, first_label g lw un c l -> l = un ->
  exists e, on_edge (nrows w) (ncols w) e /\ at_ lab (mv e) = un /\ passes f (mv c) (mv e).
Proof.
  destruct g_facts as (E1 & E2 & V & _). intros c l H. induction H as [c I N|c d l U F H IH|c U O]; intros E.
  - contradiction.
  - destruct (IH E) as (e & A & B & P). exists e. split; [exact A|]. split; [exact B|]. apply (pa_step _ _ (mv d)); [|exact P]. apply flows_interior, F.
  - pose proof O as (I & d & T & N). rewrite E1, E2 in I, N. exists c. rewrite <- label_val by exact I. split; [|split; [exact U|apply pa_here, mv_in, I]].
    destruct (split_cell c I) as [K|K]; [exact K|]. destruct (step c K) as (e & J & T1 & _). rewrite T in T1. injection T1 as ->. contradiction.
Qed.
End Cut.

(** Part of f, starting at row r0, column c0, made to flow outward at its edge. *)
Lemma cut_facts : forall r0 c0 f w g, window r0 c0 f w -> 1 <= nrows w -> 1 <= ncols w -> set_edges_flow_outward w = Ok g -> flow_part r0 c0 f g.
Proof.
  intros r0 c0 f w g Hw Wr Wc G. destruct (edges_ok w Wr Wc) as (g' & E & A & B & C & D). rewrite E in G. injection G as <-.
  destruct Hw as (? & ? & ? & ? & V). unfold flow_part. rewrite A, B. split; [lia|]. split; [exact C|].
  intros c I. rewrite D by exact I. apply V. apply (int_in w c I).
Qed.

Theorem cut_accum : forall r0 c0 f g, flow_part r0 c0 f g -> fully_draining f ->
  fully_draining g /\
  forall (sp sp' : bool) fuel fuel' a b, (if sp then accumulated_flow_cy else accumulated_flow) fuel f = Ok a -> (if sp' then accumulated_flow_cy else accumulated_flow) fuel' g = Ok b ->
  forall c, inside (nrows g) (ncols g) c -> at_ b c <= at_ a (moved r0 c0 c) /\
    (at_ b c = at_ a (moved r0 c0 c) <->
     forall d, passes f d (moved r0 c0 c) -> d = moved r0 c0 c \/ exists e, interior (nrows g) (ncols g) e /\ d = moved r0 c0 e).
Proof.
  intros r0 c0 f g (S & P) D. assert (P' := conj (eq_refl (nrows g)) (conj (eq_refl (ncols g)) P)).
  pose proof (cut_drains r0 c0 f g g S P' D) as Dg. split; [exact Dg|].
  intros sp sp' fuel fuel' a b A B c I.
  assert (X : forall sp fuel f a, fully_draining f -> (if sp : bool then accumulated_flow_cy else accumulated_flow) fuel f = Ok a ->
    forall c, inside (nrows f) (ncols f) c -> counts (fun d => passes f d c) (at_ a c)).
  { intros [|] fu f' a' D' A'; [apply (accum_cy_counts f' fu a' D' A')|apply (accum_counts f' fu a' D' A')]. }
  apply (counts_cut r0 c0 f g g S P' D c _ _ I).
  - apply (X sp' fuel' g b Dg B). exact I.
  - apply (X sp fuel f a D A). apply (mv_in r0 c0 f g S c I).
Qed.

Theorem cut_watersheds : forall r0 c0 f g lab lw un, flow_part r0 c0 f g -> fully_draining f ->
  same_shape f lab -> window r0 c0 lab lw -> same_shape g lw -> 1 <= nrows g -> 1 <= ncols g ->
  forall fuel fuel' ws wp, watersheds_from_labels fuel f lab un = Ok ws -> watersheds_from_labels fuel' g lw un = Ok wp ->
  forall c, inside (nrows g) (ncols g) c ->
    at_ wp c = at_ ws (moved r0 c0 c) \/
    (at_ wp c = un /\ exists e, on_edge (nrows g) (ncols g) e /\ at_ lab (moved r0 c0 e) = un /\ passes f (moved r0 c0 c) (moved r0 c0 e)).
Proof.
  intros r0 c0 f g lab lw un (S & P) D Sf Wl Sl R C fuel fuel' ws wp A B c I.
  assert (P' := conj (eq_refl (nrows g)) (conj (eq_refl (ncols g)) P)).
  pose proof (cut_drains r0 c0 f g g S P' D) as Dg.
  destruct (watersheds_first_label f lab un fuel ws D Sf) as (_ & _ & F1); [lia|lia|exact A|].
  destruct (watersheds_first_label g lw un fuel' wp Dg Sl R C B) as (_ & _ & F2).
  specialize (F2 c I). destruct (Z.eq_dec (at_ wp c) un) as [E|N].
  - right. split; [exact E|]. apply (first_lost r0 c0 f g g S P' D lab lw un Wl Sl c _ F2 E).
  - left. pose proof (first_cut r0 c0 f g g S P' D lab lw un Wl Sl c _ F2 N) as H.
    apply (first_label_unique f lab un _ _ H). apply F1, (mv_in r0 c0 f g S c I).
Qed.

(** A terrain filled without flats that is dry on the edge of the part. *)
Theorem dry_part : forall r0 c0 dem w, window r0 c0 dem w -> 2 <= nrows w -> 2 <= ncols w ->
  forall short diag, nonneg64 short -> nonneg64 diag -> dem64 dem ->
  forall fuel fuel' f g, fill_nf64 short diag fuel dem = Ok f -> fill_nf64 short diag fuel' w = Ok g ->
  (forall c, on_edge (nrows w) (ncols w) c -> eq64 (at_ f (moved r0 c0 c)) (at_ dem (moved r0 c0 c))) ->
  forall edges fd gd, flowdir64 f edges = Ok fd -> flowdir64 g true = Ok gd -> flow_part r0 c0 fd gd.
Proof.
  intros r0 c0 dem w W R C short diag Ps Pd D fuel fuel' f g F G E edges fd gd FD GD.
  pose proof (window_directions r0 c0 dem w W R C short diag Ps Pd D fuel fuel' f g F G E edges true fd gd FD GD) as K.
  destruct (dem_big r0 c0 dem w W R C) as (R' & C').
  destruct (nf_cheapest dem short diag R' C' D Ps Pd _ _ F) as (E1 & E2 & _).
  destruct (nf_cheapest w short diag R C (w64 r0 c0 dem w W D) Ps Pd _ _ G) as (E1' & E2' & _).
  assert (X : forall t e h, 1 <= nrows t -> 1 <= ncols t -> flowdir64 t e = Ok h -> nrows h = nrows t /\ ncols h = ncols t /\
    (e = true -> forall c, on_edge (nrows h) (ncols h) c -> flows_off h c)).
  { intros t e h Ht Ht' H. unfold flowdir64, terrain_flowdirection in H.
    destruct (terrain_flow_ok by_sqrt2 t) as (f0 & Ef & A & B & _). rewrite Ef in H. cbn [bind] in H. destruct e.
    - destruct (edges_ok f0) as (f' & E' & A' & B' & C1 & _); [lia|lia|]. rewrite E' in H. injection H as <-.
      split; [lia|]. split; [lia|]. intros _. rewrite A', B'. exact C1.
    - injection H as <-. split; [auto|]. split; [auto|discriminate]. }
  destruct (X f edges fd ltac:(lia) ltac:(lia) FD) as (A1 & A2 & _). destruct (X g true gd ltac:(lia) ltac:(lia) GD) as (B1 & B2 & B3).
  destruct W as (? & ? & ? & ? & _). split; [lia|]. split; [apply B3; reflexivity|].
  intros c I. apply K. rewrite B1, B2, E1', E2' in I. exact I.
Qed.

(** The first three columns of [ex_flow]. *)
Definition part_flow : raster Z := of_rows 0 [[7; 0; 0]; [6; 6; 6]; [6; 2; 0]; [5; 4; 4]].
Definition part_labels : raster Z := of_rows 0 [[0; 0; 0]; [0; 5; 0]; [0; 0; 0]; [0; 0; 0]].
Lemma col3 : forall i j, 0 <= i < 4 -> 0 <= j < 3 -> (i = 0 \/ i = 1 \/ i = 2 \/ i = 3) /\ (j = 0 \/ j = 1 \/ j = 2).
Proof. lia. Qed.
Lemma ex_part : window 0 0 ex_flow part_flow /\ window 0 0 ex_labels part_labels /\
  exists g a b ws wp, set_edges_flow_outward part_flow = Ok g /\ accumulated_flow 16 ex_flow = Ok a /\ accumulated_flow 16 g = Ok b /\
    watersheds_from_labels 16 ex_flow ex_labels 0 = Ok ws /\ watersheds_from_labels 16 g part_labels 0 = Ok wp /\
    (at_ a (1, 1), at_ b (1, 1), at_ a (2, 1), at_ b (2, 1)) = (4, 1, 1, 1) /\ (at_ ws (2, 1), at_ wp (2, 1), at_ ws (1, 1), at_ wp (1, 1)) = (5, 0, 5, 5).
Proof.
  split; [|split].
  1, 2: split; [lia|]; split; [lia|]; split; [vm_compute; discriminate|]; split; [vm_compute; discriminate|];
    intros [i j] (I & J); cbn [fst snd] in I, J; destruct (col3 i j I J) as ([->|[->|[->| ->]]] & [->|[->| ->]]); vm_compute; reflexivity.
  do 5 eexists. split; [reflexivity|]. split; [vm_compute; reflexivity|]. split; [vm_compute; reflexivity|].
  split; [vm_compute; reflexivity|]. split; [vm_compute; reflexivity|]. split; vm_compute; reflexivity.
Qed.
