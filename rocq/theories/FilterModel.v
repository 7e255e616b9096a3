(** * Model of malstroem/scripts/_utils.py: filter expressions

    A string is the list of its code points.  [parse_filter] returns the text handed to
    [eval], which is modelled in FilterEvalModel. *)

From Coq Require Import Ascii String.
From Verif Require Import Base.
Local Open Scope Z_scope.

Definition str := list Z.

(** Code points of a literal. *)
Fixpoint lit (s : string) : str :=
  match s with
  | EmptyString => []
  | String a t => Z.of_N (N_of_ascii a) :: lit t
  end.

Fixpoint prefix (w s : str) : bool :=
  match w, s with
  | [], _ => true
  | _ :: _, [] => false
  | a :: w', b :: s' => (a =? b) && prefix w' s'
  end.

(** [s.replace(w, v)] for non-empty w: leftmost occurrences that do not overlap.  [skip] is
    the number of characters of the current occurrence still to be dropped. *)
Fixpoint replace_from (w v s : str) (skip : nat) : str :=
  match s with
  | [] => []
  | c :: t =>
      match skip with
      | S k => replace_from w v t k
      | O => if prefix w s then v ++ replace_from w v t (Nat.pred (List.length w))
             else c :: replace_from w v t O
      end
  end.
Definition replace (w v s : str) : str := replace_from w v s O.

(** [str.isspace] of one character (Unicode White_Space and the separators 28-31). *)
Definition is_space (c : Z) : bool :=
  ((9 <=? c) && (c <=? 13)) || ((28 <=? c) && (c <=? 32)) || (c =? 133) || (c =? 160) || (c =? 5760) ||
  ((8192 <=? c) && (c <=? 8202)) || (c =? 8232) || (c =? 8233) || (c =? 8239) || (c =? 8287) || (c =? 12288).

Fixpoint lstrip (s : str) : str :=
  match s with
  | [] => []
  | c :: t => if is_space c then lstrip t else s
  end.
(** [s.strip()] *)
Definition strip (s : str) : str := rev (lstrip (rev (lstrip s))).

(** _utils.py 18-19 *)
Definition allowed_words : list str := map lit ["area"; "maxdepth"; "volume"; "and"; "or"]%string.
Definition allowedchars : str := lit "<>=!0123456789.()".

(** _utils.py 16-26, [check_filter] *)
Definition check_filter (filter : str) : res unit :=
  let s := fold_left (fun s w => replace w [] s) allowed_words filter in
  let s := fold_left (fun s c => replace [c] [] s) allowedchars s in
  match strip s with
  | [] => Ok tt
  | _ :: _ => Exc PlainException
  end.

(** stats["area"] etc. *)
Definition quoted (name : string) : str := lit "stats[" ++ [34] ++ lit name ++ [34] ++ lit "]".

(** _utils.py 29-40, [parse_filter]: None for the filter that keeps everything, otherwise
    the text handed to eval. *)
Definition parse_filter (filter : option str) : res (option str) :=
  match filter with
  | None | Some [] => Ok None
  | Some s =>
      ' tt <- check_filter s ;;
      let s := replace (lit "area") (quoted "area") s in
      let s := replace (lit "maxdepth") (quoted "max") s in
      let s := replace (lit "volume") (quoted "volume") s in
      Ok (Some (lit "lambda stats: " ++ s))
  end.
