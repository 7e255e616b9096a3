(** * C50, C51: switching the compiled functions on and off *)

From Verif Require Import Base SpeedupsModel SpeedupsThms.

(** ** C50 *)

(** No call sequence raises, and the nine functions agree with the flag. *)
Theorem C50_switch : forall av es, exists st, run av es = Ok st /\ enabled st = want av av es /\
  forall f, attrs st f = if enabled st then Compiled f else Original f.
Proof. exact run_ok. Qed.
Print Assumptions C50_switch.

Theorem C50_last_call : forall av es st,
  (run av (es ++ [Enable]) = Ok st -> enabled st = av /\ forall f, attrs st f = if av then Compiled f else Original f) /\
  (run av (es ++ [Disable]) = Ok st -> enabled st = false /\ forall f, attrs st f = Original f) /\
  (run false es = Ok st -> forall f, attrs st f = Original f).
Proof. exact run_last. Qed.
Print Assumptions C50_last_call.

Example C50_example : exists st, run true [Disable; Disable; Enable; Enable; Disable; Enable] = Ok st /\
  enabled st = true /\ attrs st Terrain_flow = Compiled Terrain_flow.
Proof. exact ex_switch. Qed.

(** ** C51
    Full statement: after disable() no tool uses a compiled function.  It holds for every
    tool that looks the function up in its module (C50_last_call).  hyps.py binds two
    functions by name when it is imported, so it keeps what was there. *)

Theorem C51_hyps_partial : forall av es st, run av es = Ok st ->
  hyps st = option_map (fun c : bool => if c then (Compiled Label_stats, Compiled Label_data) else (Original Label_stats, Original Label_data))
              (bound av av es).
Proof. exact run_hyps. Qed.
Print Assumptions C51_hyps_partial.

Theorem C51_hyps_refuted : exists es st, run true (es ++ [Disable]) = Ok st /\ enabled st = false /\
  hyps st = Some (Compiled Label_stats, Compiled Label_data).
Proof. exact hyps_refuted. Qed.
Print Assumptions C51_hyps_refuted.

Theorem C51_enable_refuted : exists es st, run true (es ++ [Enable]) = Ok st /\ enabled st = true /\
  hyps st = Some (Original Label_stats, Original Label_data).
Proof. exact hyps_slow. Qed.
Print Assumptions C51_enable_refuted.
