(** * Results for two cell sizes

    The same terrain with cells r times as large (in area).  [times r x y]: y is r times x. *)

From Coq Require Import QArith Qabs.
From Verif Require Import Base Float64 LabelModel VectorModel BluespotModel NetworkModel RainModel ApproxModel PipelineModel.

Definition times (r x y : Q) : Prop := (y == r * x)%Q.

(** A pour point: same place and greatest depth, areas and volume r times as large, and the same
    rain that fills it. *)
Record pp_times (r : Q) (p p' : @pourpoint Q) : Prop := {
  pt_id : pp_id p' = pp_id p;
  pt_row : pp_row p' = pp_row p;
  pt_col : pp_col p' = pp_col p;
  pt_dmax : (pp_dmax p' == pp_dmax p)%Q;
  pt_fumm : (pp_fumm p' == pp_fumm p)%Q;
  pt_area : times r (pp_area p) (pp_area p');
  pt_vol : times r (pp_vol p) (pp_vol p');
  pt_wshed : times r (pp_wshed p) (pp_wshed p')
}.

(** A node with the rain it gets. *)
Record node_times (r : Q) (n n' : @node_feature Q * Q) : Prop := {
  nt_id : nf_id (fst n') = nf_id (fst n);
  nt_dstr : nf_dstr (fst n') = nf_dstr (fst n);
  nt_junction : nf_junction (fst n') = nf_junction (fst n);
  nt_row : nf_row (fst n') = nf_row (fst n);
  nt_col : nf_col (fst n') = nf_col (fst n);
  nt_bspot : nf_bspot (fst n') = nf_bspot (fst n);
  nt_area : times r (nf_area (fst n)) (nf_area (fst n'));
  nt_vol : times r (nf_vol (fst n)) (nf_vol (fst n'));
  nt_wshed : times r (nf_wshed (fst n)) (nf_wshed (fst n'));
  nt_rain : times r (snd n) (snd n')
}.

(** A percentage: both or neither. *)
Definition same_pct (a b : option Q) : Prop :=
  match a, b with Some x, Some y => (x == y)%Q | None, None => True | _, _ => False end.

(** The final state of a node: r times the water, the same percentage. *)
Definition final_times (r : Q) (p p' : @node Q * option (@event Q)) : Prop :=
  n_id (fst p') = n_id (fst p) /\ n_dstr (fst p') = n_dstr (fst p) /\
  match snd p, snd p' with
  | Some e, Some e' => times r (e_vol e) (e_vol e') /\ times r (e_spill e) (e_spill e') /\ times r (e_water e) (e_water e') /\
                       same_pct (e_pct e) (e_pct e')
  | None, None => True
  | _, _ => False
  end.

(** The level of a bluespot: the same height for r times the water. *)
Definition level_times (r : Q) (l l' : @level_feature Q) : Prop :=
  lf_bspot l' = lf_bspot l /\ times r (lf_v l) (lf_v l') /\ (lf_z l' == lf_z l)%Q /\ (lf_dmax l' == lf_dmax l)%Q.

(** Rasters of equal numbers. *)
Definition equal_raster (a b : raster Q) : Prop :=
  nrows b = nrows a /\ ncols b = ncols a /\ forall c, inside (nrows a) (ncols a) c -> (at_ b c == at_ a c)%Q.

(** The area of a cell. *)
Definition area_of (t : geotransform b64) : Q := (Qabs (b64_Q (gt1 t)) * Qabs (b64_Q (gt5 t)))%Q.
