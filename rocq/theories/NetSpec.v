(** * Specifications for the bluespot network *)

From Verif Require Import Base FlowSpec LabelSpec BluespotModel BluespotSpec NetModel NetworkSpec.

(** [first_foreign lab src bg tr l path]: on the cells [tr], [l] is the first label other
    than [src] and the background, [path] the cells up to and including the one carrying
    it; no such label: None and all of [tr]. *)
Definition foreign_cell (lab : raster Z) (src : Z) (bg : option Z) (d : cell) : Prop :=
  at_ lab d <> src /\ bg <> Some (at_ lab d).

Definition first_foreign (lab : raster Z) (src : Z) (bg : option Z) (tr : list cell)
    (l : option Z) (path : list cell) : Prop :=
  (l = None /\ path = tr /\ forall d, In d tr -> ~ foreign_cell lab src bg d) \/
  (exists before d after, tr = before ++ d :: after /\ path = before ++ [d] /\
     l = Some (at_ lab d) /\ foreign_cell lab src bg d /\
     forall x, In x before -> ~ foreign_cell lab src bg x).

(** One pour point per label 0..n: that of a bluespot lies in it and water leaving it does
    not come back to the bluespot; that of the background lies in the background and flows
    directly off the raster. *)
Definition pourpoints_ok (f lab : raster Z) (pps : list cell) : Prop :=
  labels_in lab (Z.of_nat (length pps) - 1) /\
  forall k c, nth_error pps k = Some c ->
    pour_ok f lab (Z.of_nat k) c /\ (k = 0%nat -> flows_off f c).

(** One pour point per label 0..n, the cell of least potential of its label; (-1, -1), the
    index written for a label without cells, otherwise. *)
Definition lowest_points (h : cell -> Z) (lab : raster Z) (pps : list cell) : Prop :=
  labels_in lab (Z.of_nat (length pps) - 1) /\
  forall k c, nth_error pps k = Some c ->
    (has_label lab (Z.of_nat k) c /\ forall d, has_label lab (Z.of_nat k) d -> h c <= h d) \/
    (c = (-1, -1) /\ forall d, ~ has_label lab (Z.of_nat k) d).

(** [reach ns a p d]: from node a, following downstream nodes through any number of
    junctions along the cells p, the last reference being d. *)
Inductive reach (ns : list gnode) : Z -> list cell -> option Z -> Prop :=
| rc_here : forall n, In n ns -> reach ns (g_id n) (g_geom n) (g_dstr n)
| rc_junction : forall n j p d, In n ns -> In j ns -> g_junction j = true ->
    g_dstr n = Some (g_id j) -> reach ns (g_id j) p d ->
    reach ns (g_id n) (removelast (g_geom n) ++ p) d.

(** ... until something that is not a junction. *)
Definition leads (ns : list gnode) (a : Z) (p : list cell) (d : option Z) : Prop :=
  reach ns a p d /\ forall j, In j ns -> g_junction j = true -> d <> Some (g_id j).

(** x is followed by y in the list. *)
Definition step_in (l : list cell) (x y : cell) : Prop := exists p q, l = p ++ x :: y :: q.

(** The nodes as the network solver sees them: given water and capacity for pour points,
    none for junctions. *)
Definition as_network {T} (zero : T) (water cap : Z -> T) (ns : list gnode) : list (@NetworkModel.node T) :=
  map (fun n => NetworkModel.mkNode (g_id n) (g_dstr n)
                  (if g_junction n then zero else water (g_id n))
                  (if g_junction n then zero else cap (g_id n))) ns.

(** The nodes are one per pour point, ids from 0; the network of [pps] is closed and
    acyclic; downstream nodes are other bluespots. *)
Definition good_network (plain : list gnode) (pps : list cell) : Prop :=
  map g_id plain = zseq 0 (length pps) /\ map g_pix plain = pps /\
  (forall n d, In n plain -> g_dstr n = Some d -> d <> 0 /\ d <> g_id n /\ exists m, In m plain /\ g_id m = d) /\
  forall T (zero : T) water cap, acyclic_closed (as_network zero water cap plain).

(** The cells of the pour points written by the bluespot tool. *)
Definition pps_of (out : bluespot_out) : list cell := map (fun p => (pp_row p, pp_col p)) (bo_pourpoints out).
