(** Model of the Python operators on expression objects: the methods of [Value]
    (expression.py 100-151), [wrap_literal] (414-425), and the way Python 3 chooses
    between the methods of the two operands (language reference 3.3.1, 3.3.8, 6.10;
    not part of /repo). *)
From Coq Require Import String List ZArith NArith Bool.
From Verif Require Import PyStr Types Inference Functions Ast.
Import ListNotations.
Open Scope string_scope.
Open Scope list_scope.

(** Python values: an object of treeno, a value of a class that [Literal] can hold
    ([LNone] is None), a list (tuple, set, dict: [wrap_literal] treats them alike), or a
    value of another built-in class, such as a date. *)
Inductive pyval :=
| PObj (e : node)
| PLit (l : lit)
| PList (l : list pyval)
| POther.
(** The operators with a method in [Value]. *)
Inductive pyop :=
| PyAdd | PySub | PyMul | PyDiv | PyPow | PyMod
| PyEq | PyNe | PyGt | PyGe | PyLt | PyLe
| PyAnd | PyOr.
Inductive pyunop := PyInvert | PyPos | PyNeg.

(** expression.py 414-425, with the constructor of [Literal] (208-213). *)
Definition wrap_literal (v : pyval) : result node :=
  match v with
  | PObj e =>
      if is_value e then Ok e
      else if is_none e then Err ValueError
      else Err NotImplementedError (* inference.py 37: a relation *)
  | PLit LNone => Err ValueError
  | PLit l => let* t := infer_type l in Ok (NLit l t)
  | PList _ => Err AssertionError
  | POther => Err NotImplementedError
  end.

(** The constructors called by the methods (470-482): the converters run first, then
    [__attrs_post_init__]. *)
Definition made (e : node) : result pyval := let* _ := check e in Ok (PObj e).
Definition method (op : pyop) (a b : pyval) : result pyval :=
  let* l := wrap_literal a in
  let* r := wrap_literal b in
  made
    match op with
    | PyAdd => NBin BAdd l r (* 109-110 *)
    | PySub => NBin BMinus l r (* 112-113 *)
    | PyMul => NBin BMul l r (* 115-116 *)
    | PyDiv => NBin BDiv l r (* 118-119 *)
    | PyPow => NFunc FPower [l; r] no_fopts (* 121-124, math.py 12-19 *)
    | PyMod => NBin BMod l r (* 126-127 *)
    | PyEq => NBin BEq l r (* 129-130 *)
    | PyNe => NBin BNe l r (* 132-133 *)
    | PyGt => NBin BGt l r (* 135-136 *)
    | PyGe => NBin BGe l r (* 138-139 *)
    | PyLt => NBin BLt l r (* 141-142 *)
    | PyLe => NBin BLe l r (* 144-145 *)
    | PyAnd => NBin BAnd l r (* 147-148 *)
    | PyOr => NBin BOr l r (* 150-151 *)
    end.
Definition unary_method (op : pyunop) (a : pyval) : result pyval :=
  let* v := wrap_literal a in
  made
    match op with
    | PyInvert => NUn UNot v (* 100-101 *)
    | PyPos => NUn UPos v (* 103-104 *)
    | PyNeg => NUn UNeg v (* 106-107 *)
    end.

Definition has_methods (v : pyval) : bool := match v with PObj e => is_value e | _ => false end.
Definition is_object (v : pyval) : bool := match v with PObj _ => true | _ => false end.

(** The method tried on the right operand when the left one has none that applies;
    [Value] has no [__radd__] and the like. *)
Definition swapped (op : pyop) : option pyop :=
  match op with
  | PyEq => Some PyEq | PyNe => Some PyNe
  | PyGt => Some PyLt | PyLt => Some PyGt
  | PyGe => Some PyLe | PyLe => Some PyGe
  | _ => None
  end.
(** [a op b].  No concrete class of values is a subclass of another one, so that the
    left operand always comes first.  Outside the model: relations on the left (attrs
    gives them methods of their own), two operands of built-in classes, and [%] of a
    text, which formats. *)
Definition apply_op (op : pyop) (a b : pyval) : result pyval :=
  if has_methods a then method op a b
  else if is_object a then Err NotModelled
  else if has_methods b then
    match op, a with
    | PyMod, PLit (LStr _) => Err NotModelled
    | _, _ => match swapped op with Some op' => method op' b a | None => Err TypeError end
    end
  else Err NotModelled.
Definition apply_unop (op : pyunop) (a : pyval) : result pyval :=
  if has_methods a then unary_method op a else Err NotModelled.

(** [bool(v)]: the classes of treeno define neither [__bool__] nor [__len__]. *)
Definition truth (v : pyval) : result bool :=
  match v with
  | PObj NNone | PLit LNone => Ok false
  | PObj _ | POther => Ok true
  | PLit (LBool b) => Ok b
  | PLit (LInt z) => Ok (negb (Z.eqb z 0))
  | PLit (LDec d) => Ok (negb (N.eqb (dcoef d) 0))
  | PLit (LStr s) => Ok (negb (String.eqb s ""))
  | PLit (LFloat _) => Err NotModelled
  | PList l => Ok (match l with [] => false | _ => true end)
  end.

(** Python expressions over such values (6.10 comparisons: [a op b op' c] is [a op b and
    b op' c] with [b] evaluated once; 6.11: [and], [or], [not]; [in] on a list is
    [any(x is e or x == e for e in l)] with the member as the left operand in CPython). *)
Inductive pyexp :=
| Leaf (v : pyval)
| Op (op : pyop) (a b : pyexp)
| UnOp (op : pyunop) (a : pyexp)
| Chain (a : pyexp) (op : pyop) (b : pyexp) (op' : pyop) (c : pyexp)
| Not (a : pyexp)
| AndThen (a b : pyexp)
| OrElse (a b : pyexp)
| IsIn (a : pyexp) (l : list pyval).
Fixpoint member (x : pyval) (l : list pyval) : result bool :=
  match l with
  | [] => Ok false
  | y :: r =>
      let* v := apply_op PyEq y x in
      let* t := truth v in
      if t then Ok true else member x r
  end.
Fixpoint eval (p : pyexp) : result pyval :=
  match p with
  | Leaf v => Ok v
  | Op op a b => let* x := eval a in let* y := eval b in apply_op op x y
  | UnOp op a => let* x := eval a in apply_unop op x
  | Chain a op b op' c =>
      let* x := eval a in
      let* y := eval b in
      let* first := apply_op op x y in
      let* t := truth first in
      if t then let* z := eval c in apply_op op' y z else Ok first
  | Not a => let* x := eval a in let* t := truth x in Ok (PLit (LBool (negb t)))
  | AndThen a b => let* x := eval a in let* t := truth x in if t then eval b else Ok x
  | OrElse a b => let* x := eval a in let* t := truth x in if t then Ok x else eval b
  | IsIn a l => let* x := eval a in let* t := member x l in Ok (PLit (LBool t))
  end.
