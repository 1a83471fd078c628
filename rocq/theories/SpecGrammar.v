(** SpecGrammar.v -- the expression grammar of bcalc, stated as a derivation relation between
    token sequences and trees.  Only the token, position and tree types (and the position of a
    tree) are shared with the model; no parser function is mentioned. *)
From Verif Require Import Base Position TokenTypes Errors SyntaxTree.
From Coq Require Import String.
Local Open Scope list_scope.

(** Binding strength: operands 0, prefix minus 1, [^] 2, [%] 3, [* /] 4, [+ -] 5. *)
Definition binop_level (o : binop) : nat :=
  match o with
  | Exponent => 2
  | Modulus => 3
  | Multiply | Divide => 4
  | Add | Subtract => 5
  end.

Notation tk t p := (mkPositioned t p).

(** [derives k ts n]: the tokens [ts] form an expression of level at most [k] whose tree is [n].
    [derives_args ts ns]: the tokens [ts] are a comma separated, possibly empty, list of
    expressions. *)
Inductive derives : nat -> list ptoken -> node -> Prop :=
| d_number : forall v p, derives 0 [tk (TNumber v) p] (NNum v p)
| d_variable : forall x p, derives 0 [tk (TVariable x) p] (NVar x p)
| d_unary : forall o p ts n, derives 1 ts n -> derives 0 (tk (TUn o) p :: ts) (NUn o p n)
| d_paren : forall p q ts n, derives 5 ts n ->
    derives 0 (tk TOpen p :: ts ++ [tk TClose q]) (NParen p q n)
| d_function_bare : forall f p ts n, derives 1 ts n ->
    (forall q ts', ts <> tk TOpen q :: ts') ->
    derives 0 (tk (TFun f) p :: ts) (NFun f p [n] (node_position n))
| d_function : forall f p o c ts ns, derives_args ts ns ->
    derives 0 (tk (TFun f) p :: tk TOpen o :: ts ++ [tk TClose c]) (NFun f p ns (from_span o c))
| d_negate : forall p ts n, derives 1 ts n ->
    derives 1 (tk (TBin Subtract) p :: ts) (NUn Negate p n)
| d_binary : forall k o p ts1 ts2 a b, binop_level o = S k ->
    derives (S k) ts1 a -> derives k ts2 b ->
    derives (S k) (ts1 ++ tk (TBin o) p :: ts2) (NBin o p a b)
| d_weaken : forall k ts n, derives k ts n -> derives (S k) ts n
with derives_args : list ptoken -> list node -> Prop :=
| da_none : derives_args [] []
| da_some : forall ts ns, derives_list ts ns -> derives_args ts ns
with derives_list : list ptoken -> list node -> Prop :=
| dl_one : forall ts n, derives 5 ts n -> derives_list ts [n]
| dl_more : forall ts p ts' n ns, derives 5 ts n -> derives_list ts' ns ->
    derives_list (ts ++ tk TComma p :: ts') (n :: ns).

Scheme derives_mind := Minimality for derives Sort Prop
  with derives_args_mind := Minimality for derives_args Sort Prop
  with derives_list_mind := Minimality for derives_list Sort Prop.
Combined Scheme derives_mutind from derives_mind, derives_args_mind, derives_list_mind.

(** A whole line: an expression, or a variable, [=] and an expression. *)
Inductive line_tree : list ptoken -> syntax_tree -> Prop :=
| lt_expression : forall ts n, derives 5 ts n -> line_tree ts (mkTree None n)
| lt_assignment : forall x p q ts n, derives 5 ts n ->
    line_tree (tk (TVariable x) p :: tk TAssign q :: ts) (mkTree (Some (mkPositioned x p)) n).

(** The part of the line from the first to the last of these tokens. *)
Definition token_span (ts : list ptoken) (p : position) : Prop :=
  exists first last pre post,
    ts = first :: post /\ ts = pre ++ [last] /\
    p_start p = p_start (pd_pos first) /\
    p_start p + p_width p = p_start (pd_pos last) + p_width (pd_pos last).

(** [m] occurs in [n]. *)
Inductive subnode (m : node) : node -> Prop :=
| sn_here : subnode m m
| sn_un : forall o p n, subnode m n -> subnode m (NUn o p n)
| sn_left : forall o p a b, subnode m a -> subnode m (NBin o p a b)
| sn_right : forall o p a b, subnode m b -> subnode m (NBin o p a b)
| sn_fun : forall f p ns q n, In n ns -> subnode m n -> subnode m (NFun f p ns q)
| sn_paren : forall p q n, subnode m n -> subnode m (NParen p q n).

(** [wrapped k ts n ts' n']: [ts'] is [ts] with some operands put in parentheses; [n] and [n']
    are the trees.  The tokens of [ts'] may sit at any positions, since inserting parentheses moves
    the rest of the line.  A bare function argument put in parentheses becomes an argument list. *)
Inductive wrapped : nat -> list ptoken -> node -> list ptoken -> node -> Prop :=
| w_number : forall v p p', wrapped 0 [tk (TNumber v) p] (NNum v p) [tk (TNumber v) p'] (NNum v p')
| w_variable : forall x p p', wrapped 0 [tk (TVariable x) p] (NVar x p) [tk (TVariable x) p'] (NVar x p')
| w_unary : forall o p p' ts n ts' n', wrapped 1 ts n ts' n' ->
    wrapped 0 (tk (TUn o) p :: ts) (NUn o p n) (tk (TUn o) p' :: ts') (NUn o p' n')
| w_paren : forall p q p' q' ts n ts' n', wrapped 5 ts n ts' n' ->
    wrapped 0 (tk TOpen p :: ts ++ [tk TClose q]) (NParen p q n)
              (tk TOpen p' :: ts' ++ [tk TClose q']) (NParen p' q' n')
| w_function_bare : forall f p p' ts n ts' n', wrapped 1 ts n ts' n' ->
    (forall q t, ts <> tk TOpen q :: t) -> (forall q t, ts' <> tk TOpen q :: t) ->
    wrapped 0 (tk (TFun f) p :: ts) (NFun f p [n] (node_position n))
              (tk (TFun f) p' :: ts') (NFun f p' [n'] (node_position n'))
| w_function_bare_wrap : forall f p p' o c ts n ts' n', wrapped 1 ts n ts' n' ->
    (forall q t, ts <> tk TOpen q :: t) ->
    wrapped 0 (tk (TFun f) p :: ts) (NFun f p [n] (node_position n))
              (tk (TFun f) p' :: tk TOpen o :: ts' ++ [tk TClose c]) (NFun f p' [n'] (from_span o c))
| w_function : forall f p p' o c o' c' ts ns ts' ns', wrapped_args ts ns ts' ns' ->
    wrapped 0 (tk (TFun f) p :: tk TOpen o :: ts ++ [tk TClose c]) (NFun f p ns (from_span o c))
              (tk (TFun f) p' :: tk TOpen o' :: ts' ++ [tk TClose c']) (NFun f p' ns' (from_span o' c'))
| w_negate : forall p p' ts n ts' n', wrapped 1 ts n ts' n' ->
    wrapped 1 (tk (TBin Subtract) p :: ts) (NUn Negate p n)
              (tk (TBin Subtract) p' :: ts') (NUn Negate p' n')
| w_binary : forall k o p p' ts1 ts2 a b ts1' ts2' a' b', binop_level o = S k ->
    wrapped (S k) ts1 a ts1' a' -> wrapped k ts2 b ts2' b' ->
    wrapped (S k) (ts1 ++ tk (TBin o) p :: ts2) (NBin o p a b)
                  (ts1' ++ tk (TBin o) p' :: ts2') (NBin o p' a' b')
| w_weaken : forall k ts n ts' n', wrapped k ts n ts' n' -> wrapped (S k) ts n ts' n'
| w_wrap : forall k p q ts n ts' n', wrapped k ts n ts' n' -> k <= 5 ->
    wrapped k ts n (tk TOpen p :: ts' ++ [tk TClose q]) (NParen p q n')
with wrapped_args : list ptoken -> list node -> list ptoken -> list node -> Prop :=
| wa_none : wrapped_args [] [] [] []
| wa_some : forall ts ns ts' ns', wrapped_list ts ns ts' ns' -> wrapped_args ts ns ts' ns'
with wrapped_list : list ptoken -> list node -> list ptoken -> list node -> Prop :=
| wl_one : forall ts n ts' n', wrapped 5 ts n ts' n' -> wrapped_list ts [n] ts' [n']
| wl_more : forall p p' ts n ts' n' us ns us' ns', wrapped 5 ts n ts' n' -> wrapped_list us ns us' ns' ->
    wrapped_list (ts ++ tk TComma p :: us) (n :: ns) (ts' ++ tk TComma p' :: us') (n' :: ns').
Scheme wrapped_mind := Minimality for wrapped Sort Prop
  with wrapped_args_mind := Minimality for wrapped_args Sort Prop
  with wrapped_list_mind := Minimality for wrapped_list Sort Prop.
Combined Scheme wrapped_mutind from wrapped_mind, wrapped_args_mind, wrapped_list_mind.

(** A whole line with some operands put in parentheses. *)
Inductive wrapped_line : list ptoken -> syntax_tree -> list ptoken -> syntax_tree -> Prop :=
| wln_expression : forall ts n ts' n', wrapped 5 ts n ts' n' ->
    wrapped_line ts (mkTree None n) ts' (mkTree None n')
| wln_assignment : forall x p q p' q' ts n ts' n', wrapped 5 ts n ts' n' ->
    wrapped_line (tk (TVariable x) p :: tk TAssign q :: ts) (mkTree (Some (mkPositioned x p)) n)
                 (tk (TVariable x) p' :: tk TAssign q' :: ts') (mkTree (Some (mkPositioned x p')) n').

(** Two failures that differ at most in the position they report. *)
Definition same_failure (e e' : failure) : Prop :=
  match e, e' with
  | InputError m, InputError m' => mp_value m = mp_value m' /\ (mp_pos m = None <-> mp_pos m' = None)
  | RuntimeError r, RuntimeError r' => r = r'
  | _, _ => False
  end.
(** Two outcomes of evaluating a line that differ at most in the position of an error. *)
Definition same_outcome (x y : env * outcome failure Q) : Prop :=
  fst x = fst y /\
  match snd x, snd y with
  | Ok v, Ok v' => v = v'
  | Err e, Err e' => same_failure e e'
  | Panic p, Panic p' => p = p'
  | _, _ => False
  end.
