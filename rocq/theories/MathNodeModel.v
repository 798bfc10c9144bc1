(** Model of [src/lightcurvelynx/math_nodes/basic_math_node.py], class [BasicMathNode].

    The input of the model is the syntax tree [ast.parse(expression)]; parsing and [ast.unparse]
    are not modelled (except that a dotted identifier written by [_prepare] becomes an attribute access
    when the text is parsed again by [eval]). *)
From Coq Require Import String List Bool Arith Lia.
From Verif Require Import Base.
Import ListNotations.
Open Scope string_scope.
Open Scope list_scope.

(** Operators of Python's grammar; the code lists the supported ones (lines 64-80). *)
Inductive binop := Add | Sub | Mult | Div | FloorDiv | Mod | Pow
                 | MatMult | LShift | RShift | BitOr | BitXor | BitAnd.
Inductive unop := UAdd | USub | Invert | Not.

(** Python's expression trees.  [Other kind children] stands for every expression class the
    code does not name (Attribute, Subscript, Lambda, Compare, IfExp, BoolOp, NamedExpr, ListComp,
    Starred, keyword arguments, ...), with its expression children. *)
Inductive expr :=
| Const (c : string)                          (* the literal's text *)
| Name (id : string)
| BinOp (op : binop) (l r : expr)
| UnaryOp (op : unop) (e : expr)
| Call (f : expr) (args : list expr)          (* keyword arguments are [Other "keyword" ..] children *)
| Other (kind : string) (children : list expr).

(** A parsed module: a list of statements; [SOther] is any statement but an expression. *)
Inductive stmt := SExpr (e : expr) | SOther (kind : string) (children : list expr).
Definition module := list stmt.

(** The nodes that [ast.walk] visits: the tree nodes, the operators and the
    [Load] contexts of names. *)
Inductive anode :=
| NModule (m : module) | NStmt (s : stmt) | NExpr (e : expr)
| NBin (op : binop) | NUn (op : unop) | NLoad.

(** [ast.iter_child_nodes]. *)
Definition children (n : anode) : list anode :=
  match n with
  | NModule m => map NStmt m
  | NStmt (SExpr e) => [NExpr e]
  | NStmt (SOther _ cs) => map NExpr cs
  | NExpr (Const _) => []
  | NExpr (Name _) => [NLoad]
  | NExpr (BinOp op l r) => [NExpr l; NBin op; NExpr r]
  | NExpr (UnaryOp op e) => [NUn op; NExpr e]
  | NExpr (Call f args) => NExpr f :: map NExpr args
  | NExpr (Other _ cs) => map NExpr cs
  | NBin _ | NUn _ | NLoad => []
  end.

(** Number of nodes, used as fuel of the walk. *)
Fixpoint esize (e : expr) : nat :=
  match e with
  | Const _ => 1
  | Name _ => 2
  | BinOp _ l r => 2 + esize l + esize r
  | UnaryOp _ e => 2 + esize e
  | Call f args => 1 + esize f + fold_right (fun x n => esize x + n) 0 args
  | Other _ cs => 1 + fold_right (fun x n => esize x + n) 0 cs
  end.
Definition ssize (s : stmt) : nat :=
  match s with SExpr e => 1 + esize e | SOther _ cs => 1 + fold_right (fun x n => esize x + n) 0 cs end.
Definition nsize (n : anode) : nat :=
  match n with
  | NModule m => 1 + fold_right (fun s k => ssize s + k) 0 m
  | NStmt s => ssize s | NExpr e => esize e | NBin _ | NUn _ | NLoad => 1
  end.
Definition qsize (q : list anode) : nat := fold_right (fun n k => nsize n + k) 0 q.

(** [ast.walk]: breadth first, a queue. *)
Fixpoint walk (fuel : nat) (q : list anode) : list anode :=
  match fuel, q with
  | S f, n :: q' => n :: walk f (q' ++ children n)
  | _, _ => []
  end.

(** Lines 58-80 [_supported_ast_nodes]. *)
Definition supported (n : anode) : bool :=
  match n with
  | NModule _ | NStmt (SExpr _) | NExpr (Const _) | NLoad => true
  | NExpr (BinOp _ _ _) | NExpr (UnaryOp _ _) => true
  | NBin (Add | Sub | Mult | Div | FloorDiv | Mod | Pow) => true
  | NUn (UAdd | USub | Invert) => true
  | _ => false
  end.

Inductive backend := BMath | BNumpy | BJax.

(** Lines 85-118 [_math_map]: name -> (math, numpy, jax). *)
Definition math_map : dict (string * string * string) :=
  [("abs", ("abs", "np.abs", "jnp.abs"));
   ("acos", ("math.acos", "np.acos", "jnp.acos"));
   ("acosh", ("math.acosh", "np.acosh", "jnp.acosh"));
   ("asin", ("math.asin", "np.asin", "jnp.asin"));
   ("asinh", ("math.asinh", "np.asinh", "jnp.asinh"));
   ("atan", ("math.atan", "np.atan", "jnp.atan"));
   ("atan2", ("math.atan2", "np.atan2", "jnp.atan2"));
   ("cos", ("math.cos", "np.cos", "jnp.cos"));
   ("cosh", ("math.cosh", "np.cosh", "jnp.cosh"));
   ("ceil", ("math.ceil", "np.ceil", "jnp.ceil"));
   ("degrees", ("math.degrees", "np.degrees", "jnp.degrees"));
   ("deg2rad", ("math.radians", "np.deg2rad", "jnp.deg2rad"));
   ("e", ("math.e", "np.e", "jnp.e"));
   ("exp", ("math.exp", "np.exp", "jnp.exp"));
   ("fabs", ("math.fabs", "np.fabs", "jnp.fabs"));
   ("floor", ("math.floor", "np.floor", "jnp.floor"));
   ("log", ("math.log", "np.log", "jnp.log"));
   ("log10", ("math.log10", "np.log10", "jnp.log10"));
   ("log2", ("math.log2", "np.log2", "jnp.log2"));
   ("max", ("max", "np.max", "jnp.max"));
   ("min", ("min", "np.min", "jnp.min"));
   ("pi", ("math.pi", "np.pi", "jnp.pi"));
   ("pow", ("math.pow", "np.power", "jnp.power"));
   ("power", ("math.pow", "np.power", "jnp.power"));
   ("radians", ("math.radians", "np.radians", "jnp.radians"));
   ("rad2deg", ("math.degrees", "np.rad2deg", "jnp.rad2deg"));
   ("sin", ("math.sin", "np.sin", "jnp.sin"));
   ("sinh", ("math.sinh", "np.sinh", "jnp.sinh"));
   ("sqrt", ("math.sqrt", "np.sqrt", "jnp.sqrt"));
   ("tan", ("math.tan", "np.tan", "jnp.tan"));
   ("tanh", ("math.tanh", "np.tanh", "jnp.tanh"));
   ("trunc", ("math.trunc", "np.trunc", "jnp.trunc"))].

Definition target (b : backend) (t : string * string * string) : string :=
  match b with BMath => fst (fst t) | BNumpy => snd (fst t) | BJax => snd t end.

(** Lines 197-225: what the loop body does at one node: nothing, or raise.  [params] are
    the names in [kwargs].  [node.func.id] raises AttributeError if the callee is not a Name.
    The walk visits a call before its callee, so the callee still has its original name then. *)
Definition check (params : list string) (n : anode) : option err :=
  if supported n then None
  else match n with
       | NExpr (Call f _) =>
           match f with
           | Name id => if dmem id math_map then None else Some ValueError
           | _ => Some AttributeError
           end
       | NExpr (Name id) =>
           if smem id params then None
           else if dmem id math_map then None else Some ValueError
       | _ => Some ValueError
       end.

(** Lines 209-217: the new identifier of a name. *)
Definition rename_id (b : backend) (params : list string) (id : string) : string :=
  if smem id params then id
  else match dget id math_map with Some t => target b t | None => id end.
Fixpoint rename (b : backend) (params : list string) (e : expr) : expr :=
  match e with
  | Const c => Const c
  | Name id => Name (rename_id b params id)
  | BinOp op l r => BinOp op (rename b params l) (rename b params r)
  | UnaryOp op e => UnaryOp op (rename b params e)
  | Call f args => Call (rename b params f) (map (rename b params) args)
  | Other k cs => Other k (map (rename b params) cs)
  end.
Definition rename_stmt (b : backend) (params : list string) (s : stmt) : stmt :=
  match s with SExpr e => SExpr (rename b params e) | SOther k cs => SOther k (map (rename b params) cs) end.

(** The loop of lines 197-225: the first node in walk order that fails decides. *)
Fixpoint first_error (params : list string) (l : list anode) : option err :=
  match l with
  | [] => None
  | n :: l' => match check params n with Some e => Some e | None => first_error params l' end
  end.

(** Lines 179-228 [_prepare].  The in-place renaming of the visited names is applied at the end: every
    name is visited exactly once. *)
Definition prepare (b : backend) (params : list string) (m : module) : result module :=
  match first_error params (walk (nsize (NModule m)) [NModule m]) with
  | Some e => Err e
  | None => Ok (map (rename_stmt b params) m)
  end.

(** Lines 120-127 [__init__]: the backend name is checked first. *)
Definition backend_of (s : string) : result backend :=
  if String.eqb s "jax" then Ok BJax else if String.eqb s "math" then Ok BMath
  else if String.eqb s "numpy" then Ok BNumpy else Err ValueError.
Definition math_node (bname : string) (params : list string) (m : module) : result module :=
  bind (backend_of bname) (fun b => prepare b params m).

(** ** Evaluation: [eval(self.expression, globals(), params)] (lines 129-146).
    Python objects are an abstract type with attribute access, calls and operators. *)
Section Eval.
Context {V : Type}.
Variable lit : string -> V.
Variable attr : V -> string -> result V.
Variable call : V -> list V -> result V.
Variable bin : binop -> V -> V -> result V.
Variable un : unop -> V -> result V.
Variable other : string -> list V -> result V.
Variable globals : string -> option V.       (* module globals, then builtins *)

(** Name lookup: locals, then globals/builtins ([NameError] is reported as KeyError here). *)
Definition lookup (params : dict V) (id : string) : result V :=
  match dget id params with
  | Some v => Ok v
  | None => match globals id with Some v => Ok v | None => Err KeyError end
  end.
(** A dotted identifier is an attribute access in the unparsed text. *)
Definition ev_name (params : dict V) (id : string) : result V :=
  match split_dot id with
  | [m; f] => bind (lookup params m) (fun o => attr o f)
  | _ => lookup params id
  end.
Fixpoint ev (name : string -> result V) (e : expr) : result V :=
  match e with
  | Const c => Ok (lit c)
  | Name id => name id
  | BinOp op l r => bind (ev name l) (fun a => bind (ev name r) (fun b => bin op a b))
  | UnaryOp op e => bind (ev name e) (un op)
  | Call f args =>
      bind (ev name f) (fun g =>
      bind ((fix evs l := match l with
                         | [] => Ok []
                         | x :: l' => bind (ev name x) (fun v => bind (evs l') (fun vs => Ok (v :: vs)))
                         end) args) (call g))
  | Other k cs =>
      bind ((fix evs l := match l with
                         | [] => Ok []
                         | x :: l' => bind (ev name x) (fun v => bind (evs l') (fun vs => Ok (v :: vs)))
                         end) cs) (other k)
  end.
(** [eval] of the prepared text; a module that is not one expression is a SyntaxError,
    reported as ValueError. *)
Definition node_eval (params : dict V) (m : module) : result V :=
  match m with
  | [SExpr e] => ev (ev_name params) e
  | _ => Err ValueError
  end.
End Eval.
