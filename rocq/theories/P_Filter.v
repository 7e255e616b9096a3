(** * C49, C62: filter expressions *)

From Coq Require Import String.
From Verif Require Import Base FilterModel FilterSpec FilterThms.
Local Open Scope Z_scope.

(** ** C49: nothing but the allowed characters is evaluated *)

Theorem C49_charset : forall s, check_filter s = Ok tt ->
  forall c, In c s -> In c (List.concat words) \/ symbol c.
Proof. exact charset. Qed.
Print Assumptions C49_charset.

Theorem C49_parse_charset : forall s t, parse_filter (Some s) = Ok (Some t) ->
  forall c, In c s -> In c (List.concat words) \/ symbol c.
Proof. exact passed_charset. Qed.
Print Assumptions C49_parse_charset.

(** Every documented expression is accepted and each word is translated. *)
Theorem C49_expressions : forall ps last, expression ps last -> render (fun w => w) ps last <> [] ->
  parse_filter (Some (render (fun w => w) ps last)) =
  Ok (Some (lit "lambda stats: " ++ render translate ps last)).
Proof. exact parse_expression. Qed.
Print Assumptions C49_expressions.

Example C49_example :
  let ps := [(lit "(", lit "area"); (lit " > 10.5) ", lit "and"); (lit " ", lit "maxdepth")] in
  let last := lit "<=3" in
  expression ps last /\ render (fun w => w) ps last = lit "(area > 10.5) and maxdepth<=3" /\
  render translate ps last = lit "(" ++ entry "area" ++ lit " > 10.5) and " ++ entry "max" ++ lit "<=3" /\
  check_filter (lit "import os") = Exc PlainException.
Proof. exact ex_expression. Qed.

(** ** C62
    Claim: every accepted string is a sequence of the words and symbols.  It is wrong:
    deleting one word can assemble another. *)

Theorem C62_reassembled_refuted : exists s, check_filter s = Ok tt /\
  ~ (exists ps last, expression ps last /\ s = render (fun w => w) ps last) /\
  parse_filter (Some s) = Ok (Some (lit "lambda stats: o" ++ entry "area" ++ lit "r")).
Proof. exact reassembled_refuted. Qed.
Print Assumptions C62_reassembled_refuted.
