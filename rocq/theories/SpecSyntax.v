(** SpecSyntax.v -- what a complaint about the syntax of an expression line says: for every text
    and position, the fact about the tokens of the line that makes the complaint true.  Only token
    and position types are shared with the model, and the names of tokens of SpecCommands.v. *)
From Verif Require Import Base Position TokenTypes SyntaxTree SpecGrammar SpecCommands.
From Coq Require Import String.
Local Open Scope list_scope.

(** Every bracket in these tokens is matched within them. *)
Inductive balanced : list ptoken -> Prop :=
| bal_nil : balanced []
| bal_token : forall t p ts, t <> TOpen -> t <> TClose -> balanced ts -> balanced (tk t p :: ts)
| bal_group : forall p q ts us, balanced ts -> balanced us -> balanced (tk TOpen p :: ts ++ tk TClose q :: us).

(** The token can be the last, or the first, of an operand. *)
Definition closes_operand (t : token) : Prop :=
  match t with TNumber _ | TVariable _ | TClose => True | _ => False end.
Definition opens_operand (t : token) : Prop :=
  match t with TNumber _ | TVariable _ | TOpen | TUn _ | TFun _ => True | _ => False end.

(** Nothing that follows could be (the beginning of) the rest of an operand. *)
Definition nothing_follows (post : list ptoken) : Prop :=
  match post with [] => True | t :: _ => pd_value t = TComma \/ pd_value t = TClose end.
(** No operand follows: at most some minus signs, then a binary operator or nothing at all. *)
Inductive no_operand : list ptoken -> Prop :=
| no_end : forall post, nothing_follows post -> no_operand post
| no_operator : forall o p post, o <> Subtract -> no_operand (tk (TBin o) p :: post)
| no_minus : forall p post, no_operand post -> no_operand (tk (TBin Subtract) p :: post).

(** After these tokens an expression begins: the beginning of the line, [x =], [(] or a comma. *)
Inductive expression_begins : list ptoken -> Prop :=
| eb_line : expression_begins []
| eb_assignment : forall x p q, expression_begins [tk (TVariable x) p; tk TAssign q]
| eb_open : forall pre p, expression_begins (pre ++ [tk TOpen p])
| eb_comma : forall pre p, expression_begins (pre ++ [tk TComma p]).

(** After these tokens an operand must follow: they end with a prefix operator or the name of a
    function, and perhaps minus signs. *)
Inductive operand_wanted : list ptoken -> Prop :=
| ow_prefix : forall pre o p, operand_wanted (pre ++ [tk (TUn o) p])
| ow_function : forall pre f p, operand_wanted (pre ++ [tk (TFun f) p])
| ow_minus : forall pre p, operand_wanted pre -> operand_wanted (pre ++ [tk (TBin Subtract) p]).

(** The tokens do not end with the name of a function. *)
Definition no_call (pre : list ptoken) : Prop := forall a f p, pre <> a ++ [tk (TFun f) p].
(** The innermost open bracket after these tokens is the one of a function call; it is a plain
    parenthesis; there is none. *)
Definition within_call (pre : list ptoken) : Prop :=
  exists a f p q inner, pre = a ++ tk (TFun f) p :: tk TOpen q :: inner /\ balanced inner.
Definition within_parentheses (pre : list ptoken) : Prop :=
  exists a q inner, pre = a ++ tk TOpen q :: inner /\ no_call a /\ balanced inner.
Definition within_nothing (pre : list ptoken) : Prop := balanced pre.

(** [syntax_complaint ts text p]: the complaint [text], placed at [p], is true of the line [ts]. *)
Inductive syntax_complaint (ts : list ptoken) : str -> position -> Prop :=
| sc_nothing : expression_begins ts -> within_nothing ts ->
    syntax_complaint ts (lit "No input") (mkPos 0 0)
| sc_assign : forall pre p post, ts = pre ++ tk TAssign p :: post ->
    (forall x q, pre <> [tk (TVariable x) q]) ->
    syntax_complaint ts (lit "Unexpected token encountered: " ++ token_text TAssign) p
| sc_comma : forall pre p post, ts = pre ++ tk TComma p :: post ->
    within_nothing pre \/ within_parentheses pre ->
    syntax_complaint ts (lit "Unexpected token encountered: " ++ token_text TComma) p
| sc_operator : forall pre o p post, ts = pre ++ tk (TBin o) p :: post -> o <> Subtract -> operand_wanted pre ->
    syntax_complaint ts (lit "Unexpected token encountered: " ++ token_text (TBin o)) p
| sc_open : forall pre p post, ts = pre ++ tk TOpen p :: post -> balanced post ->
    syntax_complaint ts (lit "Mismatched open parenthesis") p
| sc_close : forall pre p post, ts = pre ++ tk TClose p :: post -> within_nothing pre ->
    syntax_complaint ts (lit "Mismatched close parenthesis") p
| sc_empty : forall pre p q post r, ts = pre ++ tk TOpen p :: tk TClose q :: post -> no_call pre ->
    p_start r = p_start p -> p_start r + p_width r = p_start q + p_width q ->
    syntax_complaint ts (lit "Empty parentheses") r
| sc_prefix : forall pre o p post, ts = pre ++ tk (TUn o) p :: post -> nothing_follows post ->
    syntax_complaint ts (token_text (TUn o) ++ lit " is missing a required operand") p
| sc_negation : forall pre p post, ts = pre ++ tk (TBin Subtract) p :: post -> operand_wanted pre -> nothing_follows post ->
    syntax_complaint ts (token_text (TUn Negate) ++ lit " is missing a required operand") p
| sc_left : forall pre o p post, ts = pre ++ tk (TBin o) p :: post -> o <> Subtract -> expression_begins pre ->
    syntax_complaint ts (token_text (TBin o) ++ lit " is missing a required operand") p
| sc_right : forall pre o p post, ts = pre ++ tk (TBin o) p :: post -> no_operand post ->
    syntax_complaint ts (token_text (TBin o) ++ lit " is missing a required operand") p
| sc_comma_before : forall pre f q o p post, ts = pre ++ tk (TFun f) q :: tk TOpen o :: tk TComma p :: post ->
    syntax_complaint ts (lit "Comma must follow an operand") p
| sc_comma_after : forall pre p post, ts = pre ++ tk TComma p :: post -> within_call pre -> nothing_follows post ->
    syntax_complaint ts (lit "Comma must be followed by an operand") p
| sc_function : forall pre f p post, ts = pre ++ tk (TFun f) p :: post -> nothing_follows post ->
    syntax_complaint ts (lit "Functions without parentheses are assumed to have a single argument, but none was found for "
      ++ token_text (TFun f)) p
| sc_adjacent : forall pre t q u r post p, ts = pre ++ tk t q :: tk u r :: post ->
    closes_operand t -> opens_operand u ->
    p_start p = p_start q + p_width q -> p_start p + p_width p = p_start r ->
    syntax_complaint ts (lit "Missing an operator between two consecutive operands") p.
