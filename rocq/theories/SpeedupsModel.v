(** * Model of malstroem/algorithms/speedups/__init__.py *)

From Verif Require Import Base.

(** The nine switched module attributes. *)
Inductive fname :=
  | Fill_terrain | Fill_terrain_no_flats | Trace_accumulated_flow | Accumulated_flow | Terrain_flow
  | Assign_watersheds_upstream | Label_stats | Label_min_index | Label_data.

Definition fname_eqb (f g : fname) : bool :=
  match f, g with
  | Fill_terrain, Fill_terrain | Fill_terrain_no_flats, Fill_terrain_no_flats
  | Trace_accumulated_flow, Trace_accumulated_flow | Accumulated_flow, Accumulated_flow
  | Terrain_flow, Terrain_flow | Assign_watersheds_upstream, Assign_watersheds_upstream
  | Label_stats, Label_stats | Label_min_index, Label_min_index | Label_data, Label_data => true
  | _, _ => false
  end.

(** A function object: the Python definition of that name or the compiled one. *)
Inductive impl := Original (f : fname) | Compiled (f : fname).

(** The modules' attributes, the dict _orig, the flag, and the names bound by
    [from malstroem.algorithms.label import label_stats, label_data] in hyps.py 18 (None
    until hyps is imported). *)
Record state := mkState {
  attrs : fname -> impl;
  orig : list (fname * impl);
  enabled : bool;
  hyps : option (impl * impl)
}.

Definition set_attr (f : fname) (v : impl) (a : fname -> impl) (g : fname) : impl :=
  if fname_eqb f g then v else a g.

Fixpoint orig_get (d : list (fname * impl)) (f : fname) : res impl :=
  match d with
  | [] => Exc KeyError
  | (g, v) :: t => if fname_eqb g f then Ok v else orig_get t f
  end.

(** Lines 46-76, one pair of statements: [_orig[f] = attr; attr = compiled]. *)
Definition switch (f : fname) (st : state) : state :=
  mkState (set_attr f (Compiled f) (attrs st)) (orig st ++ [(f, attrs st f)]) (enabled st) (hyps st).

(** Lines 37-79, [enable] *)
Definition enable (available : bool) (st : state) : state :=
  if negb available then st
  else match orig st with
  | _ :: _ => st
  | [] =>
      let st := switch Fill_terrain st in
      let st := switch Fill_terrain_no_flats st in
      let st := switch Trace_accumulated_flow st in
      let st := switch Accumulated_flow st in
      let st := switch Terrain_flow st in
      let st := switch Assign_watersheds_upstream st in
      let st := switch Label_stats st in
      let st := switch Label_min_index st in
      let st := switch Label_data st in
      mkState (attrs st) (orig st) true (hyps st)
  end.

(** Lines 87-97, one statement: [attr = _orig[f]]. *)
Definition restore (f : fname) (st : state) : res state :=
  v <- orig_get (orig st) f ;;
  Ok (mkState (set_attr f v (attrs st)) (orig st) (enabled st) (hyps st)).

(** Lines 82-102, [disable] *)
Definition disable (st : state) : res state :=
  match orig st with
  | [] => Ok st
  | _ :: _ =>
      st <- restore Fill_terrain st ;;
      st <- restore Fill_terrain_no_flats st ;;
      st <- restore Trace_accumulated_flow st ;;
      st <- restore Accumulated_flow st ;;
      st <- restore Terrain_flow st ;;
      st <- restore Assign_watersheds_upstream st ;;
      st <- restore Label_stats st ;;
      st <- restore Label_min_index st ;;
      st <- restore Label_data st ;;
      Ok (mkState (attrs st) [] false (hyps st))
  end.

(** hyps.py 18; a second import does nothing. *)
Definition import_hyps (st : state) : state :=
  match hyps st with
  | Some _ => st
  | None => mkState (attrs st) (orig st) (enabled st) (Some (attrs st Label_stats, attrs st Label_data))
  end.

Inductive event := Enable | Disable | Import_hyps.

Definition step (available : bool) (st : state) (e : event) : res state :=
  match e with
  | Enable => Ok (enable available st)
  | Disable => disable st
  | Import_hyps => Ok (import_hyps st)
  end.

(** Lines 105-107: the state after the first import of any malstroem.algorithms module. *)
Definition imported (available : bool) : state :=
  let st := mkState Original [] false None in
  if available then enable available st else st.

Definition run (available : bool) (es : list event) : res state := mfold (step available) es (imported available).
