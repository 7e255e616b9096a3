(** * What a filter means *)

From Coq Require Import Reals String.
From Flocq Require Import Core.Core IEEE754.BinarySingleNaN.
From Verif Require Import Base Num Float64 BluespotModel FilterModel.
Local Open Scope Z_scope.
Local Open Scope list_scope.

(** The documented properties and operators (docs/cli.rst 220-235). *)
Inductive property := Area | Maxdepth | Volume.
Inductive operator := Less | AtMost | Greater | AtLeast | Equal | Unequal.

(** A number as written: the digits before the point, and those after it if there is one. *)
Inductive operand := Of (p : property) | Number (ip : list Z) (fp : option (list Z)).

(** Comparisons in a row mean that all of them hold: 1 < area < 5. *)
Inductive formula :=
| Compare (a : operand) (rest : list (operator * operand))
| Both (f g : formula)
| Either (f g : formula).

(** ** Meaning *)

(** Digits, most significant first. *)
Fixpoint natural (ds : list Z) : Z :=
  match ds with [] => 0 | d :: t => d * 10 ^ Z.of_nat (length t) + natural t end.

Definition decimal (ip : list Z) (fp : option (list Z)) : R :=
  match fp with
  | None => IZR (natural ip)
  | Some fp => (IZR (natural ip) + IZR (natural fp) / IZR (10 ^ Z.of_nat (length fp)))%R
  end.

(** The double closest to a real number. *)
Definition closest (r : R) (x : b64) : Prop :=
  finite64 x /\ B2R x = round radix2 (FLT_exp (-1074) 53) (Znearest (fun n => negb (Z.even n))) r.

Definition denotes (st : @unit_stats b64) (a : operand) (x : b64) : Prop :=
  match a with
  | Of Area => x = u_area st
  | Of Maxdepth => x = u_max st
  | Of Volume => x = u_volume st
  | Number ip fp => closest (decimal ip fp) x
  end.

Definition compares (o : operator) (x y : b64) : Prop :=
  match o with
  | Less => lt64 x y | AtMost => le64 x y | Greater => lt64 y x | AtLeast => le64 y x
  | Equal => eq64 x y | Unequal => ~ eq64 x y
  end.

Fixpoint in_a_row (st : @unit_stats b64) (a : operand) (rest : list (operator * operand)) : Prop :=
  match rest with
  | [] => True
  | (o, b) :: t => (exists x y, denotes st a x /\ denotes st b y /\ compares o x y) /\ in_a_row st b t
  end.

Fixpoint holds (st : @unit_stats b64) (f : formula) : Prop :=
  match f with
  | Compare a rest => in_a_row st a rest
  | Both f g => holds st f /\ holds st g
  | Either f g => holds st f \/ holds st g
  end.

(** ** Spelling *)

Definition digits (ds : list Z) : str := map (Z.add 48) ds.

Definition name (p : property) : str :=
  match p with Area => lit "area" | Maxdepth => lit "maxdepth" | Volume => lit "volume" end.
Definition sign (o : operator) : str :=
  match o with
  | Less => lit "<" | AtMost => lit "<=" | Greater => lit ">" | AtLeast => lit ">=" | Equal => lit "==" | Unequal => lit "!="
  end.

Definition spelled (a : operand) : str :=
  match a with
  | Of p => name p
  | Number ip None => digits ip
  | Number ip (Some fp) => digits ip ++ lit "." ++ digits fp
  end.

(** A number has decimal digits only, at least one, and is below 10^300.  Without a point it has
    no leading zero and is at most 2^53: how numpy compares larger integers with a double depends
    on its version. *)
Definition proper (a : operand) : Prop :=
  match a with
  | Of _ => True
  | Number ip fp =>
      (forall d, In d (ip ++ match fp with Some fp => fp | None => [] end) -> 0 <= d <= 9) /\
      ip ++ match fp with Some fp => fp | None => [] end <> [] /\
      (decimal ip fp < IZR (10 ^ 300))%R /\
      (fp = None -> (ip = [0] \/ hd_error ip <> Some 0) /\ natural ip <= 2 ^ 53)
  end.

(** Each comparison in a row has a property on one side. *)
Definition is_number (a : operand) : Prop := match a with Of _ => False | Number _ _ => True end.
Fixpoint proper_row (a : operand) (rest : list (operator * operand)) : Prop :=
  proper a /\
  match rest with
  | [] => True
  | (_, b) :: t => ~ (is_number a /\ is_number b) /\ proper_row b t
  end.

(** [spells k f ts]: the words and signs ts are f.  [and] binds closer than [or]; level 0 is
    joined by or, level 1 by and, level 2 is a comparison or in parentheses. *)
Inductive spells : nat -> formula -> list str -> Prop :=
| sp_compare : forall a rest, rest <> [] -> proper_row a rest ->
    spells 2 (Compare a rest) (spelled a :: flat_map (fun p => [sign (fst p); spelled (snd p)]) rest)
| sp_parentheses : forall f ts, spells 0 f ts -> spells 2 f (lit "(" :: ts ++ [lit ")"])
| sp_and : forall f g ts us, spells 2 f ts -> spells 1 g us -> spells 1 (Both f g) (ts ++ lit "and" :: us)
| sp_or : forall f g ts us, spells 1 f ts -> spells 0 g us -> spells 0 (Either f g) (ts ++ lit "or" :: us)
| sp_higher : forall k f ts, spells (S k) f ts -> spells k f ts.

(** Space and tab. *)
Definition gap (b : str) : Prop := forall c, In c b -> c = 32 \/ c = 9.
(** A word or a number: it starts with a letter, a digit or a point. *)
Definition wordy (t : str) : Prop :=
  exists c, hd_error t = Some c /\ (97 <= c <= 122 \/ 48 <= c <= 57 \/ c = 46).

(** The text: any number of blanks between words and signs, at least one between two words. *)
Inductive laid_out : list str -> str -> Prop :=
| lo_nil : forall b, gap b -> laid_out [] b
| lo_cons : forall b t ts s, gap b -> laid_out ts s ->
    (forall u, hd_error ts = Some u -> wordy t -> wordy u -> exists c, hd_error s = Some c /\ (c = 32 \/ c = 9)) ->
    laid_out (t :: ts) (b ++ t ++ s).

Definition means (text : str) (f : formula) : Prop := exists ts, spells 0 f ts /\ laid_out ts text.

(** ** Thresholds *)
Definition above (p : property) (o : operator) (ip : list Z) (fp : option (list Z)) : formula := Compare (Of p) [(o, Number ip fp)].
Definition figure (st : @unit_stats b64) (p : property) : b64 :=
  match p with Area => u_area st | Maxdepth => u_max st | Volume => u_volume st end.
