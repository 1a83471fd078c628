(** SyntaxTree.v -- model of src/syntax_tree.rs: the tree, the parser that builds it
    and its evaluation. *)
From Verif Require Import Base Position Num TokenTypes Errors Operations SavedData Variables.
From Coq Require Import String.
Local Open Scope list_scope.

Definition ptoken := positioned token.

(** ** Trees *)

(** src/syntax_tree.rs:262-270 [enum SyntaxTreeNode] with the structs it boxes
    (43-47, 64-68, 92-97, 129-135, 177-183, 240-245). *)
Inductive node :=
| NNum (v : Q) (p : position)
| NVar (name : str) (p : position)
| NUn (op : unop) (p : position) (operand : node)
| NBin (op : binop) (p : position) (a b : node)
| NFun (f : fname) (p : position) (operands : list node) (operands_pos : position)
| NParen (open_pos close_pos : position) (n : node).

(** the [position] methods: src/syntax_tree.rs:59-61, 87-89, 124-126, 169-174, 232-237, 257-259 *)
Fixpoint node_position (n : node) : position :=
  match n with
  | NNum _ p => p
  | NVar _ p => p
  | NUn _ p operand => from_span p (node_position operand)
  | NBin _ p a b => from_span p (from_span (node_position a) (node_position b))
  | NFun _ p _ ops => from_span p ops
  | NParen o c _ => from_span o c
  end.

(** ** The parser *)

(** src/syntax_tree.rs:314-318 [enum OperandOrOperator] *)
Inductive ooo := IOperand (n : node) | IOperator (o : positioned binop).
(** src/syntax_tree.rs:321-326 *)
Definition is_operator (x : ooo) : bool := match x with IOperator _ => true | _ => false end.
(** src/syntax_tree.rs:328-335 *)
Definition matches_operator (x : ooo) (o : binop) : bool :=
  match x with IOperator q => binop_eqb (pd_value q) o | _ => false end.
(** src/syntax_tree.rs:337-346 *)
Definition in_operator_slice (x : ooo) (slice : list binop) : bool :=
  match x with IOperator q => existsb (binop_eqb (pd_value q)) slice | _ => false end.

(** src/syntax_tree.rs:372-377 [enum ExpressionEnd] *)
Inductive expr_end := EComma (p : position) | EClose (p : position) | EInput.
(** src/syntax_tree.rs:381-386 [enum InputReadResult] *)
Inductive read_result := ROperand (n : node) | ROperator (o : positioned binop) | REnd (e : expr_end).

Definition pres A := outcome (positioned syntax_error) A.

(** src/syntax_tree.rs:489-518: the negation pass.  [back] is [ooos] seen from its back
    (head = last element), [temp] the vector being built.  Every iteration either
    moves one element to [temp] or removes one operator, so [length back] iterations
    are enough. *)
Fixpoint neg_pass (fuel : nat) (back temp : list ooo) : list ooo :=
  match fuel with
  | O => rev back ++ temp
  | S f =>
      match back with
      | [] => temp
      | IOperand n :: IOperator q :: rest =>
          if matches_operator (IOperator q) Subtract &&
             match rest with [] => true | x :: _ => is_operator x end
          then neg_pass f (IOperand (NUn Negate (pd_pos q) n) :: rest) temp
          else neg_pass f (IOperator q :: rest) (IOperand n :: temp)
      | x :: rest => neg_pass f rest (x :: temp)
      end
  end.

(** src/syntax_tree.rs:525-556: one round of the [for] loop over the operator table.
    Every iteration shortens [ooos], so [length ooos] iterations are enough. *)
Fixpoint bin_pass (fuel : nat) (slice : list binop) (ooos temp : list ooo) : list ooo :=
  match fuel with
  | O => temp ++ ooos
  | S f =>
      match ooos with
      | [] => temp
      | IOperand a :: IOperator q :: IOperand b :: rest =>
          if in_operator_slice (IOperator q) slice
          then bin_pass f slice (IOperand (NBin (pd_value q) (pd_pos q) a b) :: rest) temp
          else bin_pass f slice (IOperator q :: IOperand b :: rest) (temp ++ [IOperand a])
      | x :: rest => bin_pass f slice rest (temp ++ [x])
      end
  end.

(** src/syntax_tree.rs:484-556: negation pass, then one pass per row of the table. *)
Definition apply_passes (ooos : list ooo) : list ooo :=
  fold_left (fun l slice => bin_pass (List.length l) slice l [])
            ordered_binary_operators
            (neg_pass (List.length ooos) (rev ooos) []).

(** src/syntax_tree.rs:558-593: what is left must be a single operand (or nothing). *)
Definition finish_expression (ooos : list ooo) : pres (option node) :=
  match apply_passes ooos with
  | [] => Ok None
  | [IOperand n] => Ok (Some n)
  | IOperator q :: _ => Err (pmap (fun o => MissingOperand (TBin o)) q)
  | IOperand _ :: IOperator q :: [] => Err (pmap (fun o => MissingOperand (TBin o)) q)
  | IOperand _ :: IOperator q :: IOperator _ :: _ => Err (pmap (fun o => MissingOperand (TBin o)) q)
  | IOperand a :: IOperand b :: _ =>
      Err (mkPositioned MissingOperator (from_between (node_position a) (node_position b)))
  | IOperand _ :: IOperator _ :: IOperand _ :: _ => Panic OperatorTableMissing
  end.

(** The mutually recursive readers.  The Rust functions pop from a shared [VecDeque];
    here each returns the remaining tokens.  [fuel] bounds the recursion depth; the fuel
    given by [parse_fuel] is proved sufficient (C10). *)
Fixpoint read_expression (fuel : nat) (input : list ptoken)
  : pres (option node * expr_end * list ptoken) :=
  (* src/syntax_tree.rs:465-596 *)
  match fuel with
  | O => Panic OutOfFuel
  | S f =>
      ' (ooos, e, rest) <- read_items f input [] ;;
      root <- finish_expression ooos ;;
      Ok (root, e, rest)
  end
with read_items (fuel : nat) (input : list ptoken) (acc : list ooo)
  : pres (list ooo * expr_end * list ptoken) :=
  (* src/syntax_tree.rs:474-480: the loop collecting operands and operators *)
  match fuel with
  | O => Panic OutOfFuel
  | S f =>
      ' (r, rest) <- read_ooo f input ;;
      match r with
      | ROperand n => read_items f rest (acc ++ [IOperand n])
      | ROperator q => read_items f rest (acc ++ [IOperator q])
      | REnd e => Ok (acc, e, rest)
      end
  end
with read_ooo (fuel : nat) (input : list ptoken) : pres (read_result * list ptoken) :=
  (* src/syntax_tree.rs:598-632 [read_operand_or_operator] *)
  match fuel with
  | O => Panic OutOfFuel
  | S f =>
      match input with
      | [] => Ok (REnd EInput, [])
      | t :: rest =>
          let p := pd_pos t in
          match pd_value t with
          | TAssign => Err (mkPositioned (UnexpectedToken TAssign) p)
          | TComma => Ok (REnd (EComma p), rest)
          | TClose => Ok (REnd (EClose p), rest)
          | TBin o => Ok (ROperator (mkPositioned o p), rest)
          | TVariable name => Ok (ROperand (NVar name p), rest)
          | TNumber v => Ok (ROperand (NNum v p), rest)
          | TUn o => ' (n, rest') <- read_unary f rest o p ;; Ok (ROperand n, rest')
          | TOpen => ' (n, rest') <- read_paren f rest p ;; Ok (ROperand n, rest')
          | TFun fn => ' (n, rest') <- read_function f rest fn p ;; Ok (ROperand n, rest')
          end
      end
  end
with read_operand (fuel : nat) (input : list ptoken) : pres (option node * list ptoken) :=
  (* src/syntax_tree.rs:634-651; [None] = OperandReadResult::End *)
  match fuel with
  | O => Panic OutOfFuel
  | S f =>
      ' (r, rest) <- read_ooo f input ;;
      match r with
      | ROperand n => Ok (Some n, rest)
      | ROperator q =>
          if binop_eqb (pd_value q) Subtract then
            ' (n, rest') <- read_unary f rest Negate (pd_pos q) ;; Ok (Some n, rest')
          else Err (pmap (fun o => UnexpectedToken (TBin o)) q)
      | REnd _ => Ok (None, rest)
      end
  end
with read_unary (fuel : nat) (input : list ptoken) (o : unop) (p : position)
  : pres (node * list ptoken) :=
  (* src/syntax_tree.rs:653-672 *)
  match fuel with
  | O => Panic OutOfFuel
  | S f =>
      ' (r, rest) <- read_operand f input ;;
      match r with
      | Some n => Ok (NUn o p n, rest)
      | None => Err (mkPositioned (MissingOperand (TUn o)) p)
      end
  end
with read_paren (fuel : nat) (input : list ptoken) (open_pos : position)
  : pres (node * list ptoken) :=
  (* src/syntax_tree.rs:674-696 *)
  match fuel with
  | O => Panic OutOfFuel
  | S f =>
      ' (root, e, rest) <- read_expression f input ;;
      match e, root with
      | EClose cp, Some n => Ok (NParen open_pos cp n, rest)
      | EClose cp, None => Err (mkPositioned EmptyParens (from_span open_pos cp))
      | EComma cp, _ => Err (mkPositioned (UnexpectedToken TComma) cp)
      | EInput, _ => Err (mkPositioned MismatchedOpenParen open_pos)
      end
  end
with read_function (fuel : nat) (input : list ptoken) (fn : fname) (p : position)
  : pres (node * list ptoken) :=
  (* src/syntax_tree.rs:698-785 *)
  match fuel with
  | O => Panic OutOfFuel
  | S f =>
      match input with
      | [] => Err (mkPositioned (FunctionWithoutParensOrArgument fn) p)
      | t :: rest =>
          match pd_value t with
          | TOpen =>
              ' (ops, cp, rest') <- read_args f rest (pd_pos t) [] None ;;
              Ok (NFun fn p ops (from_span (pd_pos t) cp), rest')
          | _ =>
              ' (r, rest') <- read_operand f input ;;
              match r with
              | Some n => Ok (NFun fn p [n] (node_position n), rest')
              | None => Err (mkPositioned (FunctionWithoutParensOrArgument fn) p)
              end
          end
      end
  end
with read_args (fuel : nat) (input : list ptoken) (open_pos : position) (ops : list node)
               (comma : option position) : pres (list node * position * list ptoken) :=
  (* src/syntax_tree.rs:741-777: the argument loop *)
  match fuel with
  | O => Panic OutOfFuel
  | S f =>
      ' (root, e, rest) <- read_expression f input ;;
      match root with
      | Some n =>
          match e with
          | EComma cp => read_args f rest open_pos (ops ++ [n]) (Some cp)
          | EClose cp => Ok (ops ++ [n], cp, rest)
          | EInput => Err (mkPositioned MismatchedOpenParen open_pos)
          end
      | None =>
          match comma with
          | Some cp => Err (mkPositioned CommaWithoutOperandAfter cp)
          | None =>
              match e with
              | EComma cp => Err (mkPositioned CommaWithoutOperandBefore cp)
              | EClose cp => Ok (ops, cp, rest)
              | EInput => Err (mkPositioned MismatchedOpenParen open_pos)
              end
          end
      end
  end.

Definition parse_fuel (input : list ptoken) : nat := 4 * List.length input + 4.

(** src/syntax_tree.rs:406-413 [struct SyntaxTree] *)
Record syntax_tree := mkTree { st_var : option (positioned str); st_root : node }.

(** src/syntax_tree.rs:419-443: an initial [variable =] is an assignment target. *)
Definition split_assignment (input : list ptoken) : option (positioned str) * list ptoken :=
  match input with
  | t1 :: t2 :: rest =>
      match pd_value t1, pd_value t2 with
      | TVariable name, TAssign => (Some (mkPositioned name (pd_pos t1)), rest)
      | _, _ => (None, input)
      end
  | _ => (None, input)
  end.

(** src/syntax_tree.rs:416-463 [SyntaxTree::new] *)
Definition syntax_tree_new (input : list ptoken) : pres syntax_tree :=
  let '(var, body) := split_assignment input in
  ' (root, e, _) <- read_expression (parse_fuel body) body ;;
  match e, root with
  | EComma p, _ => Err (mkPositioned (UnexpectedToken TComma) p)
  | EClose p, _ => Err (mkPositioned MismatchedCloseParen p)
  | EInput, None => Err (new_raw NoInput 0 0)
  | EInput, Some n => Ok (mkTree var n)
  end.

(** ** Evaluation *)

(** src/main.rs:44-94 [struct Args] (the fields consulted after start-up). *)
Record args := mkArgs
  { a_radix : N; a_alternate_screen : bool; a_convert_to_radix : option N;
    a_precision : N; a_extra_precision : N; a_fractional : bool; a_commas : bool;
    a_upper : bool }.

(** The two optional mutable references every [execute] receives. *)
Record env := mkEnv { e_vars : option vstore; e_db : option saved_data }.

(** src/error.rs:22-26 [From<Box<dyn Error>>] *)
Definition lift_rt {A} (r : outcome runtime_error A) : outcome failure A := map_err RuntimeError r.

(** src/syntax_tree.rs:111-118, 161-165: [args.precision + args.extra_precision] (u8), then
    [exponentiate], errors positioned at the operator. *)
Definition exec_power (pr : profile) (a : args) (p : position) (base exponent : Q)
  : outcome failure Q :=
  total <- u8_add pr (a_precision a) (a_extra_precision a) ;;
  map_err (fun e => fail_math e p) (exponentiate pr base exponent total (a_radix a)).

(** src/syntax_tree.rs:110-121 *)
Definition exec_unary (pr : profile) (a : args) (op : unop) (p : position) (x : Q)
  : outcome failure Q :=
  match op with
  | SquareRoot => exec_power pr a p x (1 # 2)
  | Negate => Ok (ratio_neg x)
  | AbsoluteValue => Ok (ratio_abs x)
  end.

(** src/syntax_tree.rs:150-166 *)
Definition exec_binary (pr : profile) (a : args) (op : binop) (p : position) (x y : Q)
  : outcome failure Q :=
  match op with
  | Add => Ok (ratio_add x y)
  | Subtract => Ok (ratio_sub x y)
  | Multiply => Ok (ratio_mul x y)
  | Divide => if Z.eqb (Qnum y) 0 then Err (fail_math DivisionByZero p) else ratio_div x y
  | Modulus => ratio_rem x y
  | Exponent => exec_power pr a p x y
  end.

(** src/syntax_tree.rs:200-229 *)
Definition exec_function (f : fname) (p : position) (xs : list Q) : outcome failure Q :=
  match xs with
  | [] => Err (fail_math (FunctionNeedsArguments f) p)
  | x :: xs' =>
      Ok (fold_left (match f with FMax => ratio_max | FMin => ratio_min end) xs' x)
  end.

(** src/syntax_tree.rs:71-85 [VariableNode::execute] *)
Definition exec_variable (name : str) (p : position) (s : env) : env * outcome failure Q :=
  match e_vars s with
  | None => (s, Err (fail_capability NoVariableStore (Some p)))
  | Some vars =>
      let '(vars', db', r) := vs_lookup vars name (e_db s) in
      (mkEnv (Some vars') db',
       match r with
       | Ok (Some v) => Ok v
       | Ok None => Err (fail_math (UnknownVariable name) p)
       | Err e => Err (RuntimeError e)
       | Panic q => Panic q
       end)
  end.

(** Sequencing of an effectful step. *)
Definition then_do {A B} (r : env * outcome failure A) (f : A -> env -> env * outcome failure B)
  : env * outcome failure B :=
  match r with
  | (s, Ok a) => f a s
  | (s, Err e) => (s, Err e)
  | (s, Panic p) => (s, Panic p)
  end.

(** the [execute] methods: src/syntax_tree.rs:50-57, 71-85, 100-122, 138-167, 186-230, 248-255.
    Operands are evaluated left to right; the first failure stops. *)
Fixpoint exec (pr : profile) (a : args) (n : node) (s : env) {struct n} : env * outcome failure Q :=
  match n with
  | NNum v _ => (s, Ok v)
  | NVar name p => exec_variable name p s
  | NUn op p operand =>
      then_do (exec pr a operand s) (fun x s1 => (s1, exec_unary pr a op p x))
  | NBin op p x y =>
      then_do (exec pr a x s) (fun vx s1 =>
      then_do (exec pr a y s1) (fun vy s2 => (s2, exec_binary pr a op p vx vy)))
  | NFun f p operands _ =>
      then_do ((fix exec_list (l : list node) (s0 : env) : env * outcome failure (list Q) :=
                  match l with
                  | [] => (s0, Ok [])
                  | m :: l' =>
                      then_do (exec pr a m s0) (fun v s1 =>
                      then_do (exec_list l' s1) (fun vs s2 => (s2, Ok (v :: vs))))
                  end) operands s)
              (fun vs s1 => (s1, exec_function f p vs))
  | NParen _ _ m => exec pr a m s
  end.

(** src/syntax_tree.rs:787-808 [SyntaxTree::execute] *)
Definition tree_execute (pr : profile) (a : args) (t : syntax_tree) (maybe_id : option Z) (s : env)
  : env * outcome failure Q :=
  then_do (exec pr a (st_root t) s) (fun result s1 =>
    match st_var t with
    | None => (s1, Ok result)
    | Some v =>
        match e_vars s1 with
        | None => (s1, Err (fail_capability NoVariableStore (Some (pd_pos v))))
        | Some vars =>
            let '(vars', db', r) := vs_update vars (pd_value v) result maybe_id (e_db s1) in
            (mkEnv (Some vars') db',
             match r with
             | Ok _ => Ok result
             | Err e => Err (RuntimeError e)
             | Panic q => Panic q
             end)
        end
    end).
