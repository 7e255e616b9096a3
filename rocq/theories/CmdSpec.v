(** * What the layers of a run have to contain *)

From Coq Require Import QArith String.
From Verif Require Import Base Num Dict LabelModel BluespotModel NetworkModel RainModel HypsModel ApproxModel OgrModel CmdModel.
Local Open Scope list_scope.

(** The feature has these attributes with these values. *)
Definition has (g : props) (l : list (string * option value)) : Prop :=
  Forall (fun kv => dget String.eqb g (fst kv) = Some (snd kv)) l.

(** The layer has one feature for every element of [rs], in this order, with the attributes
    [attrs] says. *)
Definition layer_shows {A} (ds : store) (n : string) (attrs : A -> list (string * option value)) (rs : list A) : Prop :=
  exists gs, read_features ds (Some n) = Ok gs /\ Forall2 (fun r g => has g (attrs r)) rs gs.

Definition int_ (z : Z) : option value := Some (VInt z).
Definition real_ (q : Q) : option value := Some (VReal q).
Definition text_ (s : string) : option value := Some (VText s).

Definition node_attrs (n : @node_feature Q) : list (string * option value) :=
  [("nodeid", int_ (nf_id n)); ("dstrnodeid", option_map VInt (nf_dstr n));
   ("nodetype", text_ (if nf_junction n then "junction" else "pourpoint"));
   ("cell_row", int_ (nf_row n)); ("cell_col", int_ (nf_col n)); ("bspot_id", option_map VInt (nf_bspot n));
   ("bspot_area", real_ (nf_area n)); ("bspot_vol", real_ (nf_vol n)); ("wshed_area", real_ (nf_wshed n))]%string.

Definition stream_attrs (s : @stream_feature Q) : list (string * option value) :=
  [("nodeid", int_ (sf_id s)); ("dstrnodeid", option_map VInt (sf_dstr s))]%string.

Definition volume_attrs (attribute : string) (nv : @node_feature Q * Q) : list (string * option value) :=
  [("nodeid", int_ (nf_id (fst nv))); (attribute, real_ (snd nv))]%string.

Definition final_attrs (p : @node Q * option (@event Q)) : list (string * option value) :=
  ("nodeid"%string, int_ (n_id (fst p))) ::
  match snd p with
  | Some e => [("spillv", real_ (e_spill e)); ("v", real_ (e_vol e)); ("pctv", option_map VReal (e_pct e))]%string
  | None => []
  end.

Definition hyps_attrs (h : @hyps_input Q) : list (string * option value) :=
  let d := hi_dict h in
  [("bspot_id", int_ (hi_bspot h)); ("hist_counts", text_ (d_counts d)); ("hist_num_bins", int_ (d_num_bins d));
   ("hist_lower_bound", real_ (d_lower d)); ("hist_upper_bound", real_ (d_upper d)); ("hist_resolution", real_ (d_resolution d));
   ("zmin", real_ (d_zmin d)); ("zmax", real_ (d_zmax d)); ("cell_area", real_ (hi_cell_area h));
   ("bspot_dmax", real_ (hi_max_depth h)); ("bspot_vol", real_ (hi_max_vol h))]%string.

Definition level_attrs (l : @level_feature Q) : list (string * option value) :=
  [("bspot_id", int_ (lf_bspot l)); ("v", real_ (lf_v l)); ("approx_z", real_ (lf_z l)); ("approx_dmax", real_ (lf_dmax l))]%string.

(** The names of the layers are different from each other and not empty, and no layer with
    such a name is in the datasource before. *)
Definition names_ok (L : layer_names) (ws : list (string * list props)) : Prop :=
  let names := [l_pourpoints L; l_nodes L; l_streams L; l_init L; l_final L; l_hyps L; l_levels L] in
  NoDup names /\ ~ In ""%string names /\ forall w, In w ws -> ~ In (fst w) names.

(** Attributes of a node that later commands read. *)
Definition reserved : list string := ["nodeid"; "dstrnodeid"; "nodetype"; "bspot_id"; "bspot_vol"]%string.
