(** * What a filter expression may contain *)

From Coq Require Import String.
From Verif Require Import Base FilterModel.
Local Open Scope Z_scope.

(** The documented words and symbols. *)
Definition words : list str := [lit "area"; lit "maxdepth"; lit "volume"; lit "and"; lit "or"].
Definition symbols : str := lit "().0123456789<>=!".

(** White space: Unicode's white space characters and the four separators 28-31. *)
Definition blank (c : Z) : Prop :=
  In c [9; 10; 11; 12; 13; 28; 29; 30; 31; 32; 133; 160; 5760; 8192; 8193; 8194; 8195; 8196; 8197; 8198; 8199; 8200;
        8201; 8202; 8232; 8233; 8239; 8287; 12288].

(** A symbol character: an allowed character or white space. *)
Definition symbol (c : Z) : Prop := In c symbols \/ blank c.

(** An expression: words, each after a string of symbols, then a last string of symbols.
    [tr] is applied to the words. *)
Fixpoint render (tr : str -> str) (ps : list (str * str)) (last : str) : str :=
  match ps with
  | [] => last
  | (sep, w) :: t => sep ++ tr w ++ render tr t last
  end.

(** Two words are never adjacent. *)
Definition spaced (ps : list (str * str)) : Prop := forall sep w, In (sep, w) (tl ps) -> sep <> [].

Definition expression (ps : list (str * str)) (last : str) : Prop :=
  (forall sep w, In (sep, w) ps -> In w words /\ forall c, In c sep -> symbol c) /\ spaced ps /\
  forall c, In c last -> symbol c.

(** stats["area"] etc. *)
Definition entry (name : string) : str := lit "stats" ++ [91; 34] ++ lit name ++ [34; 93].

(** What each word becomes in the text handed to eval. *)
Definition translate (w : str) : str :=
  if list_eq_dec Z.eq_dec w (lit "area") then entry "area"
  else if list_eq_dec Z.eq_dec w (lit "maxdepth") then entry "max"
  else if list_eq_dec Z.eq_dec w (lit "volume") then entry "volume"
  else w.
