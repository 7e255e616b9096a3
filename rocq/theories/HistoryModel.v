(** * Histories of the vector commands, with commands that are killed

    What network, initvolumes, finalvolumes, hyps and finallevels (CmdModel) leave behind when
    they are run in any order, again and again, on one datasource, and when they are killed
    while they run.  All of them compute everything before they write.  A layer is written in one
    transaction (io.py 290, 346): a command killed while it writes a layer leaves a layer without
    the new features. *)

From Coq Require Import QArith String.
From Verif Require Import Base Num Float64 Dict LabelModel VectorModel BluespotModel RainModel PipelineModel OgrModel CmdModel.
Local Open Scope Z_scope.
Local Open Scope list_scope.

Inductive vcmd := Network | Initvolumes | Finalvolumes | Hyps | Finallevels.

(** The files and options that stay the same in all runs. *)
Record setting := mkSetting {
  s_fuel : nat; s_gt : geotransform b64; s_dem : raster b64; s_flowdir : raster Z; s_bluespots : raster Z;
  s_mm : Q; s_zresolution : Q; s_attribute : string; s_names : layer_names
}.

(** The layers a command writes, in this order. *)
Definition cmd_writes (s : setting) (c : vcmd) (ds : store) : res (list (string * list props)) :=
  let L := s_names s in
  match c with
  | Network =>
      (** scripts/stream.py 47-64, streams.py 108 and 123 *)
      fs <- read_features ds (Some (l_pourpoints L)) ;;
      '(nodes, streams) <- stream_tool (s_fuel s) (s_flowdir s) (s_bluespots s) fs ;;
      Ok [(l_nodes L, nodes); (l_streams L, streams)]
  | Initvolumes =>
      (** scripts/initvolume.py 61-77 *)
      source <- initvolumes_source QOps (Some (s_mm s)) false false ;;
      fs <- read_features ds (Some (l_nodes L)) ;;
      out <- simple_volume_tool (s_mm s) (s_attribute s) fs ;;
      Ok [(l_init L, out)]
  | Finalvolumes =>
      (** scripts/finalstate.py 41-61 *)
      fs <- read_features ds (Some (l_init L)) ;;
      out <- final_state_tool (s_attribute s) fs ;;
      Ok [(l_final L, out)]
  | Hyps =>
      (** scripts/hyps.py 34-54 *)
      fs <- read_features ds (Some (l_pourpoints L)) ;;
      out <- hyps_tool (s_gt s) (s_bluespots s) (s_dem s) (s_zresolution s) fs ;;
      Ok [(l_hyps L, out)]
  | Finallevels =>
      (** scripts/finalstate.py 76-89 *)
      finals <- read_features ds (Some (l_final L)) ;;
      hs <- read_features ds (Some (l_hyps L)) ;;
      out <- levels_tool finals hs ;;
      Ok [(l_levels L, out)]
  end.

Definition write_layers (ds : store) (ws : list (string * list props)) : store :=
  fold_left (fun ds w => write_features ds (fst w) (snd w)) ws ds.

(** The command of CmdModel. *)
Definition exec (s : setting) (c : vcmd) (ds : store) : res store :=
  let L := s_names s in
  match c with
  | Network => cmd_network (s_fuel s) (s_flowdir s) (s_bluespots s) ds (l_pourpoints L) ds (l_nodes L) (l_streams L)
  | Initvolumes => cmd_initvolumes_mm (s_mm s) ds (l_nodes L) ds (l_init L) (s_attribute s)
  | Finalvolumes => cmd_finalvolumes ds (l_init L) (s_attribute s) ds (l_final L)
  | Hyps => cmd_hyps (s_gt s) (s_bluespots s) (s_dem s) (s_zresolution s) ds (l_pourpoints L) ds (l_hyps L)
  | Finallevels => cmd_finallevels ds (l_final L) ds (l_hyps L) ds (l_levels L)
  end.

(** What happens: a command runs to its end (or raises), or is killed after [done] layers,
    before or while it writes the next one. *)
Inductive happening := Runs (c : vcmd) | Killed (c : vcmd) (done : nat) (writing : bool).

Definition happen (s : setting) (ds : store) (h : happening) : store :=
  match h with
  | Runs c => match exec s c ds with Ok ds' => ds' | _ => ds end
  | Killed c done writing =>
      match cmd_writes s c ds with
      | Ok ws =>
          let ds' := write_layers ds (firstn done ws) in
          match nth_error ws done with
          | Some (n, _) => if writing then write_features ds' n [] else ds'
          | None => ds'
          end
      | _ => ds
      end
  end.

(** The state of the datasource after a history. *)
Definition history (s : setting) (hs : list happening) (ds : store) : store := fold_left (happen s) hs ds.
