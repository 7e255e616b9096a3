(** * Junction insertion *)

From Coq Require Import Permutation.
From Verif Require Import Base BaseProofs Dict FlowModel NetModel NetSpec.

(** ** Lists *)
Definition lst (l : list cell) : cell := last l (0, 0).
Definition lst2 (l : list cell) : cell := lst (removelast l).

Lemma lst_app : forall a x, lst (a ++ [x]) = x.
Proof. intros. unfold lst. apply last_last. Qed.

Lemma lst_split : forall l, l <> [] -> l = removelast l ++ [lst l].
Proof. intros. apply app_removelast_last. auto. Qed.

Lemma removelast_length : forall {A} (l : list A), length (removelast l) = pred (length l).
Proof.
  intros A l. induction l as [|x l IH]; auto. destruct l; auto. cbn [removelast length] in *. rewrite IH. auto.
Qed.

Lemma rd_last : forall l : list cell, l <> [] -> list_rd l (-1) = Ok (lst l).
Proof.
  intros l H. destruct (exists_last H) as (a & x & ->). rewrite lst_app.
  unfold list_rd, pyidx. rewrite app_length. cbn [length].
  replace ((0 <=? -1) && _) with false by reflexivity.
  replace ((- Z.of_nat (length a + 1) <=? -1) && (-1 <? 0)) with true.
  2:{ symmetry. apply andb_true_intro. split; [apply Z.leb_le; lia | reflexivity]. }
  rewrite nth_error_app2 by lia.
  replace (Z.to_nat (-1 + Z.of_nat (length a + 1)) - length a)%nat with 0%nat by lia. reflexivity.
Qed.

Lemma rd_last2 : forall l : list cell, (2 <= length l)%nat -> list_rd l (-2) = Ok (lst2 l).
Proof.
  intros l H. assert (H1 : l <> []) by (intros ->; cbn in H; lia).
  destruct (exists_last H1) as (a & x & ->). rewrite app_length in H. cbn [length] in H.
  assert (H2 : a <> []) by (intros ->; cbn in H; lia).
  destruct (exists_last H2) as (a' & y & ->). rewrite app_length in H. cbn [length] in H.
  unfold lst2. rewrite removelast_last, lst_app.
  unfold list_rd, pyidx. rewrite !app_length. cbn [length].
  replace ((0 <=? -2) && _) with false by reflexivity.
  replace ((- Z.of_nat (length a' + 1 + 1) <=? -2) && (-2 <? 0)) with true.
  2:{ symmetry. apply andb_true_intro. split; [apply Z.leb_le; lia | reflexivity]. }
  rewrite nth_error_app1 by (rewrite app_length; cbn [length]; lia). rewrite nth_error_app2 by lia.
  replace (Z.to_nat (-2 + Z.of_nat (length a' + 1 + 1)) - length a')%nat with 0%nat by lia. reflexivity.
Qed.

Lemma removelast_snoc : forall {A} (l : list A) x, removelast (l ++ [x]) = l.
Proof. intros. apply removelast_last. Qed.

Lemma removelast_in : forall {A} (x : A) l, In x (removelast l) -> In x l.
Proof.
  intros A x l. induction l as [|y l IH]; auto. destruct l; [intros []|]. cbn [removelast].
  intros [->|H]; [left; auto | right; auto].
Qed.

Lemma filter_incl_in : forall {A} (p : A -> bool) l x, In x (filter p l) -> In x l.
Proof. intros A p l x H. apply filter_In in H. tauto. Qed.

Lemma filter_split_perm : forall {A} (p : A -> bool) l,
  Permutation l (filter p l ++ filter (fun x => negb (p x)) l).
Proof.
  intros A p l. induction l as [|x l IH]; cbn; auto.
  destruct (p x); cbn [negb]; [constructor; auto | apply Permutation_cons_app; auto].
Qed.

Lemma filter_length_le : forall {A} (p : A -> bool) l, (length (filter p l) <= length l)%nat.
Proof. intros A p l. induction l as [|x l IH]; cbn; auto. destruct (p x); cbn; lia. Qed.

Lemma NoDup_filter_map : forall {A B} (f : A -> B) (p : A -> bool) l, NoDup (map f l) -> NoDup (map f (filter p l)).
Proof.
  intros A B f p l. induction l as [|x l IH]; cbn; intros H; auto. inversion H as [|? ? H1 H2]; subst.
  destruct (p x); cbn; auto. constructor; auto. intros X. apply H1. apply in_map_iff in X.
  destruct X as (y & <- & Hy). apply in_map. eapply filter_incl_in; eauto.
Qed.

Lemma NoDup_ids_inj : forall (ns : list gnode) a b, NoDup (map g_id ns) -> In a ns -> In b ns -> g_id a = g_id b -> a = b.
Proof.
  intros ns a b. induction ns as [|x ns IH]; cbn; intros ND Ha Hb E; [tauto|].
  inversion ND as [|? ? N1 N2]; subst.
  destruct Ha as [->|Ha], Hb as [->|Hb]; auto; exfalso; apply N1.
  - rewrite E. apply in_map; auto.
  - rewrite <- E. apply in_map; auto.
Qed.

(** ** Removing a node *)
Lemma geom_eqb_refl : forall l, geom_eqb l l = true.
Proof.
  intros l. unfold geom_eqb. rewrite Nat.eqb_refl. cbn [andb].
  induction l as [|x l IH]; cbn; auto. destruct (cell_eqb_spec x x); auto.
Qed.
Lemma gnode_eqb_refl : forall n, gnode_eqb n n = true.
Proof.
  intros n. unfold gnode_eqb. rewrite Z.eqb_refl, geom_eqb_refl, Bool.eqb_reflx.
  destruct (cell_eqb_spec (g_pix n) (g_pix n)); [|congruence].
  destruct (g_dstr n); cbn; [rewrite Z.eqb_refl|]; auto.
Qed.
Lemma gnode_eqb_id : forall a b, g_id a <> g_id b -> gnode_eqb a b = false.
Proof. intros a b H. unfold gnode_eqb. apply Z.eqb_neq in H. rewrite H. reflexivity. Qed.

Lemma list_remove_mid : forall kept x t, (forall y, In y kept -> g_id y <> g_id x) ->
  list_remove (kept ++ x :: t) x = Ok (kept ++ t).
Proof.
  induction kept as [|y kept IH]; intros x t H; cbn [app list_remove].
  - rewrite gnode_eqb_refl. reflexivity.
  - rewrite gnode_eqb_id by (apply H; left; auto). rewrite IH; [reflexivity|]. intros; apply H; right; auto.
Qed.

(** ** Grouping *)
Definition long (n : gnode) : bool := 2 <? Z.of_nat (length (g_geom n)).
Definition same (n o : gnode) : bool := long n && long o && cell_eqb (lst2 (g_geom n)) (lst2 (g_geom o)).

Inductive groups_of : list gnode -> list (list gnode) -> Prop :=
| go_nil : groups_of [] []
| go_cons : forall n rest gs, groups_of (filter (fun o => negb (same n o)) rest) gs ->
    groups_of (n :: rest) ((n :: filter (same n) rest) :: gs).

Lemma long_rd2 : forall n, long n = true -> list_rd (g_geom n) (-2) = Ok (lst2 (g_geom n)).
Proof. intros n H. apply rd_last2. unfold long in H. apply Z.ltb_lt in H. lia. Qed.

Definition gstep (n : gnode) (st : list gnode * list gnode) (other_n : gnode) : res (list gnode * list gnode) :=
  let '(this_group, unhandled) := st in
  if long other_n then
    a <- list_rd (g_geom n) (-2) ;;
    b <- list_rd (g_geom other_n) (-2) ;;
    if cell_eqb a b then
      unhandled <- list_remove unhandled other_n ;;
      Ok (this_group ++ [other_n], unhandled)
    else Ok st
  else Ok st.

Lemma gstep_same : forall n o grp kept todo, long n = true -> same n o = true ->
  NoDup (map g_id (kept ++ o :: todo)) -> gstep n (grp, kept ++ o :: todo) o = Ok (grp ++ [o], kept ++ todo).
Proof.
  intros n o grp kept todo Ln So ND. unfold gstep. unfold same in So.
  apply andb_prop in So. destruct So as [So Ec]. apply andb_prop in So. destruct So as [_ Lo].
  rewrite Lo, !long_rd2 by auto. cbn [bind]. rewrite Ec. rewrite list_remove_mid; [reflexivity|].
  intros y Hy Ey. rewrite map_app in ND. cbn [map] in ND. apply NoDup_remove_2 in ND.
  apply ND. apply in_or_app. left. rewrite <- Ey. apply in_map; auto.
Qed.

Lemma gstep_other : forall n o st, long n = true -> same n o = false -> gstep n st o = Ok st.
Proof.
  intros n o [grp unh] Ln So. unfold gstep. unfold same in So. rewrite Ln in So. cbn [andb] in So.
  destruct (long o) eqn:Lo; [|reflexivity]. rewrite !long_rd2 by auto. cbn [bind andb] in *. rewrite So. reflexivity.
Qed.

Lemma gstep_fold : forall n todo kept grp, long n = true -> NoDup (map g_id (kept ++ todo)) ->
  mfold (gstep n) todo (grp, kept ++ todo) =
  Ok (grp ++ filter (same n) todo, kept ++ filter (fun o => negb (same n o)) todo).
Proof.
  intros n todo. induction todo as [|o todo IH]; intros kept grp Ln ND; cbn [mfold filter].
  - rewrite !app_nil_r. reflexivity.
  - destruct (same n o) eqn:So; cbn [negb].
    + rewrite gstep_same by auto. cbn [bind]. rewrite IH; auto.
      * rewrite <- app_assoc. reflexivity.
      * rewrite map_app in *. cbn [map] in ND. eapply NoDup_remove_1; eauto.
    + rewrite gstep_other by auto. cbn [bind].
      replace (kept ++ o :: todo) with ((kept ++ [o]) ++ todo) by (rewrite <- app_assoc; reflexivity).
      rewrite IH; auto.
      * rewrite <- app_assoc. reflexivity.
      * rewrite <- app_assoc. auto.
Qed.

Lemma split_loop_eq : forall fuel n rest, split_loop (S fuel) 2 (n :: rest) =
  ('(this_group, unhandled) <- (if long n then mfold (gstep n) rest ([n], rest) else Ok ([n], rest)) ;;
   groups <- split_loop fuel 2 unhandled ;;
   Ok (this_group :: groups)).
Proof.
  intros fuel n rest. cbn [split_loop]. change (n :: rest) with ([] ++ n :: rest).
  rewrite list_remove_mid by (intros y []). reflexivity.
Qed.

Lemma split_loop_ok : forall fuel ns, (length ns <= fuel)%nat -> NoDup (map g_id ns) ->
  exists gs, split_loop fuel 2 ns = Ok gs /\ groups_of ns gs.
Proof.
  induction fuel as [|fuel IH]; intros ns L ND.
  - destruct ns; [|cbn in L; lia]. exists []. split; [reflexivity | constructor].
  - destruct ns as [|n rest]; [exists []; split; [reflexivity | constructor]|].
    cbn [map] in ND. inversion ND as [|? ? N1 N2]; subst.
    destruct (IH (filter (fun o => negb (same n o)) rest)) as (gs & E & G).
    { pose proof (filter_length_le (fun o => negb (same n o)) rest). cbn [length] in L. lia. }
    { apply NoDup_filter_map; auto. }
    exists ((n :: filter (same n) rest) :: gs). split; [|constructor; auto].
    rewrite split_loop_eq.
    assert (X : (if long n then mfold (gstep n) rest ([n], rest) else Ok ([n], rest)) =
      Ok (n :: filter (same n) rest, filter (fun o => negb (same n o)) rest)).
    { destruct (long n) eqn:Ln.
      - exact (gstep_fold n rest [] [n] Ln N2).
      - assert (forall o, same n o = false) as F by (intros; unfold same; rewrite Ln; reflexivity).
        assert (filter (same n) rest = []) as ->.
        { clear - F. induction rest; cbn; auto. rewrite F. auto. }
        assert (filter (fun o => negb (same n o)) rest = rest) as ->; [|reflexivity].
        clear - F. induction rest; cbn; auto. rewrite F. cbn. f_equal. auto. }
    rewrite X. cbn [bind]. rewrite E. reflexivity.
Qed.

Lemma split_ok : forall ns, ns <> [] -> NoDup (map g_id ns) ->
  exists gs, split_into_common_flow_groups ns 2 = Ok gs /\ groups_of ns gs.
Proof.
  intros ns H ND. unfold split_into_common_flow_groups. destruct (Z.leb_spec (Z.of_nat (length ns)) 1).
  - exists [ns]. split; auto. destruct ns as [|n [|m t]]; [congruence| |cbn [length] in *; lia].
    repeat constructor.
  - apply split_loop_ok; auto.
Qed.

(** ** Common flow *)
Lemma mmap_last : forall geoms : list (list cell), (forall g, In g geoms -> g <> []) ->
  mmap (fun g => list_rd g (-1)) geoms = Ok (map lst geoms).
Proof.
  induction geoms as [|g gs IH]; intros H; cbn [mmap map]; auto.
  rewrite rd_last by (apply H; left; auto). cbn [bind]. rewrite IH; [reflexivity|]. intros; apply H; right; auto.
Qed.

Lemma mmap_last2 : forall geoms : list (list cell), (forall g, In g geoms -> (2 <= length g)%nat) ->
  mmap (fun g => list_rd g (-2)) geoms = Ok (map lst2 geoms).
Proof.
  induction geoms as [|g gs IH]; intros H; cbn [mmap map]; auto.
  rewrite rd_last2 by (apply H; left; auto). cbn [bind]. rewrite IH; [reflexivity|]. intros; apply H; right; auto.
Qed.

(** The first cell of a node's stream is on no other stream. *)
Definition heads_free (ns : list gnode) : Prop :=
  forall a b x, In a ns -> In b ns -> g_id a <> g_id b -> hd_error (g_geom a) = Some x -> ~ In x (g_geom b).

Definition parts (tail : list cell) (prs : list (gnode * list cell)) : Prop :=
  forall n r, In (n, r) prs -> g_geom n = r ++ tail /\ r <> [].

Lemma other_node : forall (ns : list gnode) n, NoDup (map g_id ns) -> (2 <= length ns)%nat -> In n ns ->
  exists m, In m ns /\ g_id m <> g_id n.
Proof.
  intros ns n ND L H. destruct ns as [|a [|b t]]; cbn [length] in L; try lia.
  cbn [map] in ND. inversion ND as [|? ? N1 N2]; subst.
  destruct (Z.eq_dec (g_id a) (g_id n)) as [E|E].
  - exists b. split; [cbn; auto|]. intros X. apply N1. rewrite E, <- X. left; auto.
  - exists a. split; [cbn; auto | auto].
Qed.

Lemma shared_loop_ok : forall fuel prs acc, (2 <= length prs)%nat -> NoDup (map g_id (map fst prs)) ->
  parts (rev acc) prs -> heads_free (map fst prs) ->
  (forall n r t, prs = (n, r) :: t -> (length r <= fuel)%nat) ->
  exists prs' acc', shared_loop fuel (map snd prs) acc = Ok (acc', map snd prs') /\
    map fst prs' = map fst prs /\ parts (rev acc') prs' /\
    (exists n r m s, In (n, r) prs' /\ In (m, s) prs' /\ lst r <> lst s) /\
    (exists e, acc' = acc ++ e).
Proof.
  induction fuel as [|fuel IH]; intros prs acc L ND P HF Fu;
    (destruct prs as [|[n0 r0] prs]; [cbn in L; lia|]);
    pose proof (Fu _ _ _ eq_refl) as L0; destruct (P n0 r0 (or_introl eq_refl)) as [G0 N0].
  { destruct r0; [congruence | cbn in L0; lia]. }
  set (all := (n0, r0) :: prs) in *.
  assert (NE : forall g, In g (map snd all) -> g <> []).
  { intros g Hg. apply in_map_iff in Hg. destruct Hg as ([n r] & <- & Hin). apply (P n r Hin). }
  assert (ES : shared_loop (S fuel) (map snd all) acc =
    if forallb (cell_eqb (lst r0)) (map lst (map snd all)) then
      shared_loop fuel (map (@removelast cell) (map snd all)) (acc ++ [lst r0])
    else Ok (acc, map snd all)).
  { unfold all in *. cbn [map snd] in *. cbn [shared_loop]. rewrite rd_last by auto. cbn [bind].
    rewrite mmap_last by auto. reflexivity. }
  rewrite ES. clear ES. destruct (forallb (cell_eqb (lst r0)) (map lst (map snd all))) eqn:FB.
  - rewrite forallb_forall in FB.
    assert (LS : forall n r, In (n, r) all -> lst r = lst r0).
    { intros n r Hin. specialize (FB (lst r)). destruct (cell_eqb_spec (lst r0) (lst r)); [auto|].
      exfalso. assert (X : false = true); [|discriminate X]. apply FB. rewrite map_map.
      apply in_map_iff. exists (n, r). auto. }
    set (cut := fun p : gnode * list cell => (fst p, removelast (snd p))).
    destruct (IH (map cut all) (acc ++ [lst r0])) as (prs' & acc' & E & M & P' & D & (e & Ee)).
    + rewrite map_length. auto.
    + rewrite !map_map in *. cbn [cut fst]. exact ND.
    + intros n r Hin. apply in_map_iff in Hin. destruct Hin as ([n' r'] & Eq & Hin).
      unfold cut in Eq. cbn [fst snd] in Eq. inversion Eq; subst n r; clear Eq.
      destruct (P n' r' Hin) as [G N]. pose proof (LS n' r' Hin) as Lr. split.
      * rewrite rev_app_distr. cbn [rev app]. rewrite G, (lst_split r' N) at 1. rewrite Lr, <- app_assoc. reflexivity.
      * intros Em. assert (Er : r' = [lst r0]) by (rewrite (lst_split r' N), Em, Lr; reflexivity).
        destruct (other_node (map fst all) n') as (m & Hm & Nm).
        { exact ND. } { rewrite map_length. auto. } { apply in_map_iff. exists (n', r'). auto. }
        assert (Hn' : In n' (map fst all)) by (apply in_map_iff; exists (n', r'); auto).
        apply (HF n' m (lst r0) Hn' Hm); auto.
        { rewrite G, Er. reflexivity. }
        apply in_map_iff in Hm. destruct Hm as ([m' s] & Em' & Hms). cbn in Em'. subst m'.
        destruct (P m s Hms) as [Gm Ns]. rewrite Gm. apply in_or_app. left.
        rewrite (lst_split s Ns), (LS m s Hms). apply in_or_app. right. left. auto.
    + intros a b x Ha Hb. rewrite map_map in Ha, Hb. cbn [cut fst] in Ha, Hb. apply HF; auto.
    + intros n r t Eq. unfold all in Eq. cbn [map] in Eq. unfold cut in Eq at 1. cbn [fst snd] in Eq.
      inversion Eq; subst. rewrite removelast_length. lia.
    + exists prs', acc'. split.
      { rewrite <- E. f_equal. rewrite !map_map. reflexivity. }
      split; [rewrite M, map_map; reflexivity|]. split; auto. split; auto.
      exists ([lst r0] ++ e). rewrite Ee, app_assoc. reflexivity.
  - exists all, acc. split; auto. split; auto. split; auto. split; [|exists []; rewrite app_nil_r; auto].
    assert (X : exists p, In p all /\ lst (snd p) <> lst r0).
    { rewrite map_map in FB. clear - FB. induction all as [|p all IH]; cbn [map forallb] in FB; [discriminate|].
      destruct (cell_eqb_spec (lst r0) (lst (snd p))) as [Eq|Ne]; cbn [andb] in FB.
      - destruct (IH FB) as (q & Hq & Nq). exists q. split; [right|]; auto.
      - exists p. split; [left|]; auto. }
    destruct X as ([m s] & Hm & Ns). exists m, s, n0, r0. split; auto. split; [left; auto | exact Ns].
Qed.

Definition pruned (a : Z) (pix : cell) (p : gnode * list cell) : gnode :=
  let '(n, g) := p in mkG (g_id n) (Some a) (g_junction n) (g_pix n) (g ++ [pix]).

Lemma prune_ok : forall n0 tl D a, tl <> [] -> NoDup (map g_id (n0 :: tl)) ->
  (forall n, In n (n0 :: tl) -> g_dstr n = D /\ long n = true /\
     lst2 (g_geom n) = lst2 (g_geom n0) /\ lst (g_geom n) = lst (g_geom n0)) ->
  heads_free (n0 :: tl) ->
  exists prs pix t, map fst prs = n0 :: tl /\ parts (pix :: t) prs /\
    (exists n r m s, In (n, r) prs /\ In (m, s) prs /\ lst r <> lst s) /\
    prune_common_flow (n0 :: tl) a = Ok (map (pruned a pix) prs, mkG a D true pix (pix :: t)).
Proof.
  intros n0 tl D a Ht ND H HF.
  assert (LG : forall n, In n (n0 :: tl) -> (2 < length (g_geom n))%nat).
  { intros n Hn. destruct (H n Hn) as (_ & X & _). unfold long in X. apply Z.ltb_lt in X. lia. }
  set (prs0 := map (fun n => (n, g_geom n)) (n0 :: tl)).
  assert (M0 : map fst prs0 = n0 :: tl) by (unfold prs0; rewrite map_map; apply map_id).
  assert (S0 : map snd prs0 = map g_geom (n0 :: tl)) by (unfold prs0; rewrite map_map; reflexivity).
  destruct (shared_loop_ok (S (length (g_geom n0))) prs0 []) as (prs & acc & E & M & P & Df & _).
  { unfold prs0. rewrite map_length. destruct tl; [congruence | cbn [length]; lia]. }
  { rewrite M0. auto. }
  { intros n r Hin. unfold prs0 in Hin. apply in_map_iff in Hin. destruct Hin as (n' & Eq & Hin).
    inversion Eq; subst. cbn [rev]. rewrite app_nil_r. split; auto.
    intros Em. specialize (LG n Hin). rewrite Em in LG. cbn in LG. lia. }
  { rewrite M0. auto. }
  { intros n r t Eq. unfold prs0 in Eq. cbn [map] in Eq. inversion Eq; subst. lia. }
  rewrite M0 in M.
  assert (X : rev acc <> []).
  { intros Em. destruct Df as (n & r & m & s & H1 & H2 & N). apply N.
    destruct (P n r H1) as [G1 _], (P m s H2) as [G2 _]. rewrite Em, app_nil_r in G1, G2. subst r s.
    assert (I1 : In n (n0 :: tl)) by (rewrite <- M; apply in_map_iff; exists (n, g_geom n); auto).
    assert (I2 : In m (n0 :: tl)) by (rewrite <- M; apply in_map_iff; exists (m, g_geom m); auto).
    destruct (H n I1) as (_ & _ & _ & ->), (H m I2) as (_ & _ & _ & ->). auto. }
  destruct (rev acc) as [|pix t] eqn:Er; [congruence|].
  exists prs, pix, t. split; auto. split; auto. split; auto.
  unfold prune_common_flow.
  replace (forallb (fun n => optZ_eqb (g_dstr n0) (g_dstr n)) (n0 :: tl)) with true.
  2:{ symmetry. apply forallb_forall. intros n Hn. destruct (H n Hn) as (-> & _).
      destruct (H n0 (or_introl eq_refl)) as (-> & _). destruct D; cbn; auto. apply Z.eqb_refl. }
  cbn [negb]. rewrite rd_last2 by (specialize (LG n0 (or_introl eq_refl)); lia). cbn [bind].
  rewrite mmap_last2.
  2:{ intros g Hg. apply in_map_iff in Hg. destruct Hg as (n & <- & Hn). specialize (LG n Hn). lia. }
  cbn [bind].
  replace (forallb (cell_eqb (lst2 (g_geom n0))) (map lst2 (map g_geom (n0 :: tl)))) with true.
  2:{ symmetry. apply forallb_forall. intros x Hx. rewrite map_map in Hx. apply in_map_iff in Hx.
      destruct Hx as (n & <- & Hn). destruct (H n Hn) as (_ & _ & -> & _).
      destruct (cell_eqb_spec (lst2 (g_geom n0)) (lst2 (g_geom n0))); auto. }
  cbn [negb]. rewrite <- S0, E. cbn [bind]. rewrite Er.
  cbn [list_rd bind]. unfold list_rd. rewrite pyidx_in by (cbn [length]; lia). cbn [nth_error Z.to_nat bind].
  destruct (H n0 (or_introl eq_refl)) as (-> & _). f_equal. f_equal.
  rewrite <- M. clear. induction prs as [|[n r] prs IH]; cbn; auto. f_equal. auto.
Qed.

Lemma last_app_ne : forall (p s : list cell) d, s <> [] -> last (p ++ s) d = last s d.
Proof.
  intros p s d H. induction p as [|a p IH]; auto. cbn [app last]. destruct (p ++ s) eqn:E; auto.
  exfalso. apply app_eq_nil in E. tauto.
Qed.

(** ** Streams that follow the same flow *)
Section Runs.
Variable nxt : cell -> option cell.

(** A stream following [nxt] up to the first cell satisfying E. *)
Inductive run (E : cell -> Prop) : list cell -> Prop :=
| run_end : forall e, E e -> run E [e]
| run_cons : forall x y g, ~ E x -> nxt x = Some y -> run E (y :: g) -> run E (x :: y :: g).

Lemma run_suffix : forall E p x s, run E (p ++ x :: s) -> run E (x :: s).
Proof.
  intros E p. induction p as [|y p IH]; intros x s H; auto. cbn [app] in H. apply IH.
  inversion H as [e He Eq|a b g Na Nx R Eq]; subst.
  - destruct p; discriminate.
  - exact R.
Qed.

Lemma run_det : forall E s x s', run E (x :: s) -> run E (x :: s') -> s = s'.
Proof.
  intros E s. induction s as [|y s IH]; intros x s' H H'; inversion H as [e He Eq|a b g Na Nx R Eq]; subst;
    inversion H' as [e' He' Eq'|a' b' g' Na' Nx' R' Eq']; subst; auto; try tauto.
  assert (b' = y) by congruence. subst b'. f_equal. eapply IH; eauto.
Qed.

Lemma run_NoDup : forall E g, run E g -> NoDup g.
Proof.
  intros E g H. induction H as [e He|x y g Nx Ex H IH]; [repeat constructor; auto|].
  constructor; auto. intros Hin. assert (H0 : run E (x :: y :: g)) by (constructor; auto).
  apply in_split in Hin. destruct Hin as (p & q & Eq).
  assert (R : run E (x :: q)) by (apply (run_suffix E (x :: p) x q); cbn [app]; rewrite <- Eq; exact H0).
  apply (run_det E _ _ _ H0) in R. apply (f_equal (@length cell)) in R. apply (f_equal (@length cell)) in Eq.
  rewrite app_length in Eq. cbn [length] in *. lia.
Qed.

Lemma run_nonempty : forall E g, run E g -> g <> [].
Proof. intros E g H. destruct H; discriminate. Qed.

(** Cells of a stream other than the last. *)
Definition body (n : gnode) : list cell := removelast (g_geom n).
Definition apart (n m : gnode) : Prop := forall x, In x (body n) -> In x (body m) -> False.

Lemma apart_sym : forall n m, apart n m -> apart m n.
Proof. intros n m H x A B. exact (H x B A). Qed.

Lemma body_split : forall (g : list cell) x, In x (removelast g) -> exists p q e, g = p ++ x :: q ++ [e].
Proof.
  intros g x H. assert (N : g <> []) by (intros ->; destruct H).
  pose proof (lst_split g N) as Eg. apply in_split in H. destruct H as (p & q & Eq). rewrite Eq in Eg.
  exists p, q, (lst g). rewrite Eg at 1. rewrite <- app_assoc. reflexivity.
Qed.

Lemma lst_suffix : forall p x q e, lst (p ++ x :: q ++ [e]) = e.
Proof.
  intros p x q e. replace (p ++ x :: q ++ [e]) with ((p ++ x :: q) ++ [e]) by (rewrite <- app_assoc; reflexivity).
  apply lst_app.
Qed.

Lemma lst2_suffix : forall p x q e, lst2 (p ++ x :: q ++ [e]) = lst (x :: q).
Proof.
  intros p x q e. replace (p ++ x :: q ++ [e]) with ((p ++ x :: q) ++ [e]) by (rewrite <- app_assoc; reflexivity).
  unfold lst2. rewrite removelast_last. unfold lst. apply last_app_ne. discriminate.
Qed.

Lemma run_share : forall E g h x, run E g -> run E h -> In x (removelast g) -> In x (removelast h) ->
  lst2 g = lst2 h /\ lst g = lst h.
Proof.
  intros E g h x Rg Rh Hg Hh. apply body_split in Hg. apply body_split in Hh.
  destruct Hg as (p & q & e & ->), Hh as (p' & q' & e' & ->).
  apply run_suffix in Rg. apply run_suffix in Rh. pose proof (run_det _ _ _ _ Rg Rh) as Eq.
  apply app_inj_tail in Eq. destruct Eq; subst. rewrite !lst2_suffix, !lst_suffix. auto.
Qed.

Record tidy (E : cell -> Prop) (D : option Z) (ns : list gnode) : Prop := {
  td_ids : NoDup (map g_id ns);
  td_run : forall n, In n ns -> run E (g_geom n);
  td_dstr : forall n, In n ns -> g_dstr n = D;
  td_heads : forall a b x, In a ns -> In b ns -> g_id a <> g_id b -> (2 <= length (g_geom a))%nat ->
    hd_error (g_geom a) = Some x -> ~ In x (g_geom b)
}.

Lemma tidy_incl : forall E D ns ms, tidy E D ns -> NoDup (map g_id ms) -> (forall m, In m ms -> In m ns) -> tidy E D ms.
Proof.
  intros E D ns ms [A B C F] ND I. split; auto. intros a b x Ha Hb. apply F; auto.
Qed.

Lemma same_iff : forall a b, same a b = true <->
  (2 < length (g_geom a))%nat /\ (2 < length (g_geom b))%nat /\ lst2 (g_geom a) = lst2 (g_geom b).
Proof.
  intros a b. unfold same, long. rewrite !andb_true_iff, !Z.ltb_lt.
  destruct (cell_eqb_spec (lst2 (g_geom a)) (lst2 (g_geom b))); split; intros; intuition (try lia; try discriminate; auto).
Qed.

Lemma apart_or_same : forall E D ns a b, tidy E D ns -> In a ns -> In b ns -> g_id a <> g_id b ->
  same a b = false -> apart a b.
Proof.
  intros E D ns a b T Ha Hb N S x Xa Xb. unfold body in *.
  destruct (run_share E _ _ x (td_run _ _ _ T a Ha) (td_run _ _ _ T b Hb) Xa Xb) as [E2 _].
  assert (L : forall c d y, In c ns -> In d ns -> g_id c <> g_id d -> In y (removelast (g_geom c)) ->
    In y (removelast (g_geom d)) -> (2 < length (g_geom c))%nat).
  { intros c d y Hc Hd Nd Yc Yd. destruct (Nat.le_gt_cases (length (g_geom c)) 2) as [L|L]; [|lia]. exfalso.
    apply body_split in Yc. destruct Yc as (p & q & e & Eq). rewrite Eq in L.
    rewrite app_length in L. cbn [length] in L. rewrite app_length in L. cbn [length] in L.
    destruct p; [|cbn [length] in L; lia]. destruct q; [|cbn [length] in L; lia]. cbn [app] in Eq.
    apply (td_heads _ _ _ T c d y Hc Hd Nd).
    - rewrite Eq. cbn. lia.
    - rewrite Eq. reflexivity.
    - apply removelast_in; auto. }
  assert (X : same a b = true) by (apply same_iff; split; [apply (L a b x) | split; [apply (L b a x)|]]; auto).
  congruence.
Qed.

(** What [untangle] does: from nodes and the next free label to nodes and the next free label. *)
Inductive unt : list gnode -> Z -> list gnode -> Z -> Prop :=
| un_nil : forall a, unt [] a [] a
| un_single : forall n rest a out b, NoDup (g_geom n) -> (forall m, In m rest -> apart n m) ->
    unt rest a out b -> unt (n :: rest) a (n :: out) b
| un_group : forall prs pix t D rest a out1 b out2 c,
    prs <> [] -> t <> [] -> parts (pix :: t) prs -> (forall n, In n (map fst prs) -> g_dstr n = D /\ NoDup (g_geom n)) ->
    (forall n m, In n (map fst prs) -> In m rest -> apart n m) ->
    unt (map (pruned a pix) prs) (a + 1) out1 b -> unt rest b out2 c ->
    unt (map fst prs ++ rest) a (mkG a D true pix (pix :: t) :: out1 ++ out2) c
| un_perm : forall ns ms a out b, Permutation ns ms -> unt ms a out b -> unt ns a out b.

Lemma unt_app : forall n1 a o1 b, unt n1 a o1 b -> forall n2 o2 c, unt n2 b o2 c ->
  (forall n m, In n n1 -> In m n2 -> apart n m) -> unt (n1 ++ n2) a (o1 ++ o2) c.
Proof.
  intros n1 a o1 b H. induction H as [a|n rest a out b ND AP H IH|prs pix t D rest a out1 b out2 c NE TN P HD AP H1 IH1 H2 IH2|ns ms a out b PM H IH];
    intros n2 o2 c' U AX.
  - exact U.
  - cbn [app]. constructor; auto.
    + intros m Hm. apply in_app_or in Hm. destruct Hm; auto. apply AX; auto. left; auto.
    + apply IH; auto. intros; apply AX; auto. right; auto.
  - rewrite <- app_assoc. cbn [app]. rewrite <- app_assoc. eapply un_group; eauto.
    + intros n m Hn Hm. apply in_app_or in Hm. destruct Hm; auto. apply AX; auto. apply in_or_app; auto.
    + apply IH2; auto. intros; apply AX; auto. apply in_or_app; auto.
  - eapply un_perm; [apply Permutation_app_tail; exact PM|]. apply IH; auto.
    intros n m Hn Hm. apply AX; auto. apply Permutation_sym in PM. eapply Permutation_in; eauto.
Qed.

Lemma groups_size : forall ns gs, groups_of ns gs -> forall g, In g gs ->
  (length g < length ns)%nat \/ (forall x y, In x ns -> In y ns -> lst2 (g_geom x) = lst2 (g_geom y)).
Proof.
  intros ns gs H. induction H as [|n rest gs H IH]; intros g []; subst.
  - destruct (Nat.lt_ge_cases (length (filter (same n) rest)) (length rest)) as [L|L]; [left; cbn; lia|]. right.
    assert (A : forall o, In o rest -> lst2 (g_geom n) = lst2 (g_geom o)).
    { clear - L. induction rest as [|o rest IH]; cbn [filter length] in *; [intros ? []|].
      pose proof (filter_length_le (same n) rest). destruct (same n o) eqn:S; cbn [length] in L; [|lia].
      intros o' [<-|Ho].
      - apply same_iff in S. tauto.
      - apply IH; auto. lia. }
    intros x y [<-|Hx] [<-|Hy]; auto.
    + symmetry. auto.
    + rewrite <- (A x Hx). auto.
  - left. pose proof (filter_length_le (fun o => negb (same n o)) rest).
    assert (L : forall ns gs, groups_of ns gs -> forall g, In g gs -> (length g <= length ns)%nat).
    { clear. intros ns gs H. induction H as [|n rest gs H IH]; intros g []; subst.
      - pose proof (filter_length_le (same n) rest). cbn. lia.
      - pose proof (filter_length_le (fun o => negb (same n o)) rest). specialize (IH g H0). cbn. lia. }
    specialize (L _ _ H _ H0). cbn [length]. lia.
Qed.

Lemma pruned_tidy : forall E D prs pix t a, tidy E D (map fst prs) -> parts (pix :: t) prs ->
  tidy (eq pix) (Some a) (map (pruned a pix) prs).
Proof.
  intros E D prs pix t a [ND R Ds Hd] P.
  assert (I : forall m, In m (map (pruned a pix) prs) -> exists n r, In (n, r) prs /\ In n (map fst prs) /\
    m = pruned a pix (n, r) /\ g_geom n = r ++ pix :: t /\ r <> []).
  { intros m Hm. apply in_map_iff in Hm. destruct Hm as ([n r] & <- & Hin). exists n, r.
    destruct (P n r Hin). repeat (split; [auto; fail|]). split; [apply in_map_iff; exists (n, r); auto|]. auto. }
  split.
  - rewrite map_map. rewrite map_map in ND. erewrite map_ext; [exact ND|]. intros [n r]. reflexivity.
  - intros m Hm. destruct (I m Hm) as (n & r & Hin & Hn & -> & G & Nr). cbn [pruned g_geom].
    specialize (R n Hn). pose proof (run_NoDup E _ R) as NDg. rewrite G in R, NDg. clear G Hin Hm Hn I.
    induction r as [|x r IHr]; [congruence|]. cbn [app] in *. inversion NDg as [|? ? N1 N2]; subst.
    assert (Np : pix <> x) by (intros ->; apply N1; apply in_or_app; right; left; auto).
    destruct r as [|y r].
    + cbn [app] in *. inversion R; subst. constructor; auto. constructor; auto.
    + cbn [app] in *. inversion R; subst. constructor; auto. apply IHr; auto. discriminate.
  - intros m Hm. destruct (I m Hm) as (n & r & _ & _ & -> & _). reflexivity.
  - intros m m' x Hm Hm' N L Hx Hin.
    destruct (I m Hm) as (n & r & H1 & Hn & -> & G & Nr), (I m' Hm') as (n' & r' & H1' & Hn' & -> & G' & Nr').
    cbn [pruned g_geom g_id] in *. apply (Hd n n' x Hn Hn' N).
    + rewrite G. destruct r; [congruence|]. rewrite app_length. cbn [length]. lia.
    + rewrite G. destruct r; [congruence|]. exact Hx.
    + rewrite G'. apply in_app_or in Hin. apply in_or_app. destruct Hin as [|[<-|[]]]; [left; auto | right; left; auto].
Qed.

Lemma long_iff : forall n, long n = true <-> (2 < length (g_geom n))%nat.
Proof. intros n. unfold long. rewrite Z.ltb_lt. lia. Qed.

Lemma same_last : forall E D ns a b, tidy E D ns -> In a ns -> In b ns -> same a b = true ->
  lst (g_geom a) = lst (g_geom b).
Proof.
  intros E D ns a b T Ha Hb S. apply same_iff in S. destruct S as (La & Lb & E2).
  pose proof (td_run _ _ _ T a Ha) as Ra. pose proof (td_run _ _ _ T b Hb) as Rb.
  assert (B : forall g, (2 < length g)%nat -> In (lst2 g) (removelast g)).
  { intros g L. unfold lst2. assert (N : removelast g <> []) by (intros X; apply (f_equal (@length cell)) in X; rewrite removelast_length in X; cbn in X; lia).
    rewrite (lst_split _ N) at 2. apply in_or_app. right. left. auto. }
  apply (run_share E _ _ (lst2 (g_geom a)) Ra Rb); auto. rewrite E2. auto.
Qed.

Definition unt_step (k : nat) (st : list gnode * Z) (group : list gnode) : res (list gnode * Z) :=
  let '(out, next_available_label) := st in
  if 1 <? Z.of_nat (length group) then
    '(untangled_nodes, new_node) <- prune_common_flow group next_available_label ;;
    '(ns, next_available_label) <- untangle k untangled_nodes (next_available_label + 1) ;;
    Ok (out ++ new_node :: ns, next_available_label)
  else
    n <- list_rd group 0 ;;
    Ok (out ++ [n], next_available_label).

Lemma untangle_eq : forall k ns a, untangle (S k) ns a =
  (groups <- split_into_common_flow_groups ns 2 ;; mfold (unt_step k) groups ([], a)).
Proof. reflexivity. Qed.

Lemma NoDup_split_ids : forall (n : gnode) rest, NoDup (map g_id (n :: rest)) ->
  Permutation (n :: rest) ((n :: filter (same n) rest) ++ filter (fun o => negb (same n o)) rest) /\
  NoDup (map g_id (n :: filter (same n) rest)) /\ NoDup (map g_id (filter (fun o => negb (same n o)) rest)) /\
  (forall x y, In x (n :: filter (same n) rest) -> In y (filter (fun o => negb (same n o)) rest) -> g_id x <> g_id y).
Proof.
  intros n rest ND.
  assert (P : Permutation (n :: rest) ((n :: filter (same n) rest) ++ filter (fun o => negb (same n o)) rest)).
  { cbn [app]. constructor. apply filter_split_perm. }
  split; auto. pose proof (Permutation_NoDup (Permutation_map g_id P) ND) as N2. rewrite map_app in N2.
  split; [|split].
  - clear - N2. revert N2. generalize (map g_id (n :: filter (same n) rest)) as l. intros l H. induction l; auto.
    + constructor.
    + cbn [app] in H. inversion H; subst. constructor; auto. intros X. apply H2. apply in_or_app; auto.
  - cbn [map] in ND. inversion ND; subst. apply NoDup_filter_map; auto.
  - intros x y Hx Hy E. clear - N2 Hx Hy E.
    apply (in_map g_id) in Hx. apply (in_map g_id) in Hy. rewrite E in Hx. revert N2 Hx Hy.
    generalize (map g_id (n :: filter (same n) rest)) as l. generalize (map g_id (filter (fun o => negb (same n o)) rest)) as r.
    intros r l. induction l as [|z l IH]; cbn [app]; intros ND Hl Hr; [destruct Hl|].
    inversion ND; subst. destruct Hl as [->|Hl].
    + apply H1. apply in_or_app; auto.
    + auto.
Qed.

Theorem untangle_ok : forall k ns E D a, ns <> [] -> tidy E D ns ->
  (forall gs g, groups_of ns gs -> In g gs -> (length g <= S k)%nat) ->
  forall fuel, (S k <= fuel)%nat ->
  exists out b, untangle fuel ns a = Ok (out, b) /\ unt ns a out b.
Proof.
  induction k as [k IHk] using (well_founded_induction lt_wf).
  intros ns E D a NE T Sz fuel Fu. destruct fuel as [|fuel]; [lia|]. rewrite untangle_eq.
  destruct (split_ok ns NE (td_ids _ _ _ T)) as (gs & Es & G). rewrite Es. cbn [bind].
  specialize (Sz gs). assert (Sz' : forall g, In g gs -> (length g <= S k)%nat) by (intros; apply Sz; auto). clear Sz.
  assert (X : forall out0 a, exists out b, mfold (unt_step fuel) gs (out0, a) = Ok (out0 ++ out, b) /\ unt ns a out b).
  2:{ destruct (X [] a) as (out & b & E1 & E2). exists out, b. rewrite E1. auto. }
  clear Es NE a. induction G as [|n rest gs G IH]; intros out0 a.
  { exists [], a. rewrite app_nil_r. split; [reflexivity | constructor]. }
  pose proof (td_ids _ _ _ T) as ND. destruct (NoDup_split_ids n rest ND) as (PM & ND1 & ND2 & NX).
  assert (In1 : forall m, In m (n :: filter (same n) rest) -> In m (n :: rest)).
  { intros m [<-|H]; [left; auto | right; eapply filter_incl_in; eauto]. }
  assert (In2 : forall m, In m (filter (fun o => negb (same n o)) rest) -> In m (n :: rest)).
  { intros m H. right. eapply filter_incl_in; eauto. }
  pose proof (tidy_incl _ _ _ _ T ND1 In1) as T1. pose proof (tidy_incl _ _ _ _ T ND2 In2) as T2.
  specialize (IH T2 ltac:(intros; apply Sz'; right; auto)).
  assert (AP : forall x y, In x (n :: filter (same n) rest) -> In y (filter (fun o => negb (same n o)) rest) -> apart x y).
  { intros x y Hx Hy. apply (apart_or_same E D (n :: rest)); auto.
    destruct (same x y) eqn:S; auto. exfalso. apply filter_In in Hy. destruct Hy as [_ Hy].
    assert (X : same n y = true); [|rewrite X in Hy; discriminate Hy].
    destruct Hx as [<-|Hx]; auto. apply filter_In in Hx. destruct Hx as [_ Hx].
    apply same_iff in S. apply same_iff in Hx. apply same_iff. intuition congruence. }
  cbn [mfold]. unfold unt_step at 1.
  destruct (filter (same n) rest) as [|m grp] eqn:EF.
  - change (1 <? Z.of_nat (length [n])) with false. cbv iota. cbn [list_rd]. unfold list_rd.
    rewrite pyidx_in by (cbn; lia). cbn [nth_error Z.to_nat bind].
    destruct (IH (out0 ++ [n]) a) as (out & b & E1 & U). exists (n :: out), b. split.
    + rewrite E1, <- app_assoc. reflexivity.
    + eapply un_perm; [exact PM|]. cbn [app]. constructor; auto.
      * eapply run_NoDup. apply (td_run _ _ _ T n). left; auto.
      * intros y Hy. apply AP; auto. left; auto.
  - replace (1 <? Z.of_nat (length (n :: m :: grp))) with true by (symmetry; apply Z.ltb_lt; cbn [length]; lia).
    cbv iota.
    assert (SM : forall x, In x (n :: m :: grp) -> same n x = true).
    { intros x Hx. assert (Sm : same n m = true) by (apply (proj2 (proj1 (filter_In (same n) m rest) ltac:(rewrite EF; left; auto)))).
      destruct Hx as [<-|Hx].
      - apply same_iff in Sm. apply same_iff. tauto.
      - rewrite <- EF in Hx. apply filter_In in Hx. tauto. }
    destruct (prune_ok n (m :: grp) D a) as (prs & pix & t & M & P & Df & Ep); [discriminate | exact ND1 | | |].
    { intros x Hx. pose proof (SM x Hx) as S. split; [apply (td_dstr _ _ _ T1); auto|].
      pose proof S as S'. apply same_iff in S'. destruct S' as (L1 & L2 & L3).
      split; [apply long_iff; auto|]. split; [auto|]. symmetry.
      apply (same_last E D (n :: m :: grp)); auto. left; auto. }
    { intros x y z Hx Hy N Hz. apply (td_heads _ _ _ T1 x y z); auto.
      pose proof (SM x Hx) as S. apply same_iff in S. lia. }
    rewrite Ep. cbn [bind].
    assert (Lp : length prs = length (n :: m :: grp)) by (rewrite <- M, map_length; auto).
    assert (T3 : tidy (eq pix) (Some a) (map (pruned a pix) prs)).
    { apply (pruned_tidy E D prs pix t a); auto. rewrite M. auto. }
    assert (Kk : (length (n :: m :: grp) <= S k)%nat) by (apply Sz'; left; auto).
    cbn [length] in Kk, Lp.
    destruct (IHk (pred k) ltac:(lia) (map (pruned a pix) prs) (eq pix) (Some a) (a + 1)) with (fuel := fuel)
      as (out1 & b & E1 & U1); [| exact T3 | | lia |].
    { destruct prs; [cbn in Lp; lia | discriminate]. }
    { intros gs' g Hg Hin. destruct (groups_size _ _ Hg g Hin) as [L|Eq].
      - rewrite map_length in L. lia.
      - exfalso. destruct Df as (n1 & r1 & n2 & r2 & H1 & H2 & N). apply N.
        specialize (Eq _ _ (in_map (pruned a pix) _ _ H1) (in_map (pruned a pix) _ _ H2)).
        cbn [pruned g_geom] in Eq. unfold lst2 in Eq. rewrite !removelast_last in Eq. exact Eq. }
    rewrite E1. cbn [bind].
    destruct (IH (out0 ++ mkG a D true pix (pix :: t) :: out1) b) as (out2 & c & E2 & U2).
    exists (mkG a D true pix (pix :: t) :: out1 ++ out2), c. split.
    + rewrite E2, <- app_assoc. reflexivity.
    + eapply un_perm; [exact PM|]. rewrite <- M. eapply un_group; eauto.
      * destruct prs; [cbn in Lp; lia | discriminate].
      * intros ->. destruct Df as (n1 & r1 & n2 & r2 & H1 & H2 & N). apply N.
        assert (Q : forall x r, In (x, r) prs -> lst r = lst2 (g_geom n)).
        { intros x r Hx. destruct (P x r Hx) as [G' _]. assert (S : same n x = true) by (apply SM; rewrite <- M; apply in_map_iff; exists (x, r); auto).
          apply same_iff in S. destruct S as (_ & _ & ->). unfold lst2. rewrite G', removelast_last. reflexivity. }
        rewrite (Q _ _ H1), (Q _ _ H2). reflexivity.
      * rewrite M. intros x Hx. split; [apply (td_dstr _ _ _ T1); auto | eapply run_NoDup; apply (td_run _ _ _ T1); auto].
      * rewrite M. exact AP.
Qed.
End Runs.
