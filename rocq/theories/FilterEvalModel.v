(** * Model of scripts/_utils.py line 39: evaluating the filter

    [eval] turns the text that [parse_filter] builds into a function of the statistics of a
    bluespot.  Modelled is the part of Python the documentation of the filter names: numbers,
    the three entries of stats, comparisons (also chained), and, or and parentheses.  Any other
    text gives [Exc PlainException]: most are syntax errors in Python, but some are valid
    (calls, shifts, line breaks inside parentheses, 1and 2). *)

From Coq Require Import Ascii String.
From Flocq Require Import Core.Core IEEE754.BinarySingleNaN.
From Verif Require Import Base Num Float64 BluespotModel FilterModel.
Local Open Scope Z_scope.
Local Open Scope list_scope.

(** ** Tokens *)

Inductive token := TInt (n : Z) | TFloat (x : b64) | TName (s : str) | TText (s : str) | TSym (s : str).

Definition is_digit (c : Z) : bool := (48 <=? c) && (c <=? 57).
Definition is_letter (c : Z) : bool := ((97 <=? c) && (c <=? 122)) || ((65 <=? c) && (c <=? 90)) || (c =? 95).
(** Blanks between tokens: space, tab and form feed. *)
Definition is_gap (c : Z) : bool := (c =? 32) || (c =? 9) || (c =? 12).

Fixpoint str_eqb (s t : str) : bool :=
  match s, t with
  | [], [] => true
  | a :: s, b :: t => (a =? b) && str_eqb s t
  | _, _ => false
  end.

(** The longest prefix of characters with p, and the rest. *)
Fixpoint span (p : Z -> bool) (s : str) : str * str :=
  match s with
  | [] => ([], [])
  | c :: t => if p c then let (w, r) := span p t in (c :: w, r) else ([], s)
  end.

(** The number written with decimal digits. *)
Definition dec (ds : str) : Z := fold_left (fun a c => 10 * a + (c - 48)) ds 0.

(** The double closest to p / q. *)
Definition b64_ratio (p q : positive) : b64 :=
  SF2B _ (proj1 (Bdiv_correct_aux 53 1024 _ _ mode_NE false p 0 false q 0)).

(** A float literal: Python rounds the decimal number to the closest double. *)
Definition float_literal (ip fp : str) : b64 :=
  match dec (ip ++ fp) with
  | Zpos p => b64_ratio p (10 ^ Pos.of_nat (length fp))
  | _ => f64_zero
  end.

Definition goes_on (r : str) : bool :=
  match r with c :: _ => is_letter c || is_digit c || (c =? 46) | [] => false end.

(** A number at the start of s.  Leading zeros are not allowed in an integer. *)
Definition number (s : str) : res (token * str) :=
  let (ip, r) := span is_digit s in
  match r with
  | 46 :: r =>
      let (fp, r) := span is_digit r in
      match ip ++ fp with
      | [] => Exc PlainException
      | _ :: _ => if goes_on r then Exc PlainException
                  else Ok (TFloat (match fp with [] => float_literal ip [48] | _ => float_literal ip fp end), r)
      end
  | _ =>
      if goes_on r then Exc PlainException
      else match ip with
           | [] => Exc PlainException
           | 48 :: _ :: _ => Exc PlainException
           | _ => Ok (TInt (dec ip), r)
           end
  end.

Fixpoint lex (fuel : nat) (s : str) : res (list token) :=
  match s with
  | [] => Ok []
  | c :: t =>
      match fuel with
      | O => Timeout
      | S n =>
          if is_gap c then lex n t
          else if is_letter c then
            let (w, r) := span (fun c => is_letter c || is_digit c) s in
            ts <- lex n r ;; Ok (TName w :: ts)
          else if is_digit c || (c =? 46) then
            '(k, r) <- number s ;; ts <- lex n r ;; Ok (k :: ts)
          else if c =? 34 then
            let (w, r) := span (fun c => negb (c =? 34)) t in
            match r with
            | [] => Exc PlainException
            | _ :: r => ts <- lex n r ;; Ok (TText w :: ts)
            end
          else if (c =? 40) || (c =? 41) || (c =? 91) || (c =? 93) then
            ts <- lex n t ;; Ok (TSym [c] :: ts)
          else if (c =? 60) || (c =? 62) || (c =? 61) || (c =? 33) then
            match t with
            | 61 :: r => ts <- lex n r ;; Ok (TSym [c; 61] :: ts)
            | d :: _ =>
                if (c =? 61) || (c =? 33) || (d =? 60) || (d =? 62) then Exc PlainException
                else ts <- lex n t ;; Ok (TSym [c] :: ts)
            | [] => Exc PlainException
            end
          else Exc PlainException
      end
  end.

(** ** Expressions *)

Inductive cmp := Lt | Le | Gt | Ge | Eq | Ne.
Definition cmp_of (s : str) : option cmp :=
  if str_eqb s (lit "<") then Some Lt else if str_eqb s (lit "<=") then Some Le
  else if str_eqb s (lit ">") then Some Gt else if str_eqb s (lit ">=") then Some Ge
  else if str_eqb s (lit "==") then Some Eq else if str_eqb s (lit "!=") then Some Ne else None.

(** The entries of stats the text can name. *)
Inductive key := KArea | KMax | KVolume.
Definition key_of (s : str) : option key :=
  if str_eqb s (lit "area") then Some KArea else if str_eqb s (lit "max") then Some KMax
  else if str_eqb s (lit "volume") then Some KVolume else None.

Inductive expr :=
| EInt (n : Z) | EFloat (x : b64) | EStats (k : key)
| ECompare (a : expr) (rest : list (cmp * expr))
| EAnd (a b : expr) | EOr (a b : expr).

(** Python's precedence: or, and, comparison, atom. *)
Fixpoint p_or (fuel : nat) (ts : list token) : res (expr * list token) :=
  match fuel with
  | O => Timeout
  | S n =>
      '(a, ts) <- p_and n ts ;;
      match ts with
      | TName w :: r => if str_eqb w (lit "or") then '(b, r) <- p_or n r ;; Ok (EOr a b, r) else Ok (a, ts)
      | _ => Ok (a, ts)
      end
  end
with p_and (fuel : nat) (ts : list token) : res (expr * list token) :=
  match fuel with
  | O => Timeout
  | S n =>
      '(a, ts) <- p_cmp n ts ;;
      match ts with
      | TName w :: r => if str_eqb w (lit "and") then '(b, r) <- p_and n r ;; Ok (EAnd a b, r) else Ok (a, ts)
      | _ => Ok (a, ts)
      end
  end
with p_cmp (fuel : nat) (ts : list token) : res (expr * list token) :=
  match fuel with
  | O => Timeout
  | S n =>
      '(a, ts) <- p_atom n ts ;;
      '(rest, ts) <- p_chain n ts ;;
      Ok (match rest with [] => a | _ :: _ => ECompare a rest end, ts)
  end
with p_chain (fuel : nat) (ts : list token) : res (list (cmp * expr) * list token) :=
  match fuel with
  | O => Timeout
  | S n =>
      match ts with
      | TSym s :: r =>
          match cmp_of s with
          | Some o => '(b, r) <- p_atom n r ;; '(rest, r) <- p_chain n r ;; Ok ((o, b) :: rest, r)
          | None => Ok ([], ts)
          end
      | _ => Ok ([], ts)
      end
  end
with p_atom (fuel : nat) (ts : list token) : res (expr * list token) :=
  match fuel with
  | O => Timeout
  | S n =>
      match ts with
      | TInt k :: r => Ok (EInt k, r)
      | TFloat x :: r => Ok (EFloat x, r)
      | TName w :: TSym [91] :: TText s :: TSym [93] :: r =>
          match key_of s with
          | Some k => if str_eqb w (lit "stats") then Ok (EStats k, r) else Exc PlainException
          | None => Exc PlainException
          end
      | TSym [40] :: r =>
          '(e, r) <- p_or n r ;;
          match r with
          | TSym [41] :: r => Ok (e, r)
          | _ => Exc PlainException
          end
      | _ => Exc PlainException
      end
  end.

(** ** Values *)

(** Python's bool, int and float; floats are also the numpy scalars in stats. *)
Inductive pyval := PBool (b : bool) | PInt (z : Z) | PFloat (x : b64).

Definition truth (v : pyval) : bool :=
  match v with
  | PBool b => b
  | PInt z => negb (z =? 0)
  | PFloat x => negb (Beqb x f64_zero)
  end.

Definition z_of (v : pyval) : option Z :=
  match v with PBool true => Some 1 | PBool false => Some 0 | PInt z => Some z | PFloat _ => None end.
Definition f_of (v : pyval) : b64 :=
  match v with PBool true => f64_ofZ 1 | PBool false => f64_ofZ 0 | PInt z => f64_ofZ z | PFloat x => x end.

(** A numpy float compared with an int: the int is rounded to a double.  (Two literals, an int
    and a float, are compared without rounding in Python.) *)
Definition compare (o : cmp) (a b : pyval) : bool :=
  match z_of a, z_of b with
  | Some x, Some y =>
      match o with
      | Lt => x <? y | Le => x <=? y | Gt => y <? x | Ge => y <=? x | Eq => x =? y | Ne => negb (x =? y)
      end
  | _, _ =>
      let x := f_of a in let y := f_of b in
      match o with
      | Lt => Bltb x y | Le => Bleb x y | Gt => Bltb y x | Ge => Bleb y x | Eq => Beqb x y | Ne => negb (Beqb x y)
      end
  end.

Fixpoint value (st : @unit_stats b64) (e : expr) : pyval :=
  match e with
  | EInt n => PInt n
  | EFloat x => PFloat x
  | EStats KArea => PFloat (u_area st)
  | EStats KMax => PFloat (u_max st)
  | EStats KVolume => PFloat (u_volume st)
  | EAnd a b => let x := value st a in if truth x then value st b else x
  | EOr a b => let x := value st a in if truth x then x else value st b
  | ECompare a rest =>
      PBool ((fix chain (x : pyval) (rest : list (cmp * expr)) : bool :=
                match rest with
                | [] => true
                | (o, b) :: t => let y := value st b in compare o x y && chain y t
                end) (value st a) rest)
  end.

(** _utils.py 29-40: the filter function.  [keep_labels] converts its values to bool
    (label.py 95). *)
Definition filter_function (filter : option str) : res (@unit_stats b64 -> bool) :=
  text <- parse_filter filter ;;
  match text with
  | None => Ok (fun _ => true)
  | Some text =>
      let body := skipn (length (lit "lambda stats: ")) text in
      ts <- lex (length body) body ;;
      '(e, r) <- p_or (5 * length ts + 5) ts ;;
      match r with
      | [] => Ok (fun st => truth (value st e))
      | _ :: _ => Exc PlainException
      end
  end.
