(** Python source expressions over floats and numbers, and what they mean. *)
From Coq Require Import ZArith List Bool String Reals.
From Verif Require Import Outcome Scalar Model RealOps ExprSpec ProgSpec ModelDisp.
Import ListNotations.
Open Scope string_scope.

(** Names, float literals, [-e], [abs(e)], [e + e] ..., [e ** e], method calls with up to two arguments. *)
Inductive pysrc (S : Type) :=
| SName (i : nat) | SLit (s : S)
| SNeg (e : pysrc S) | SAbs (e : pysrc S)
| SBin (o : aop) (e1 e2 : pysrc S) | SPow (e1 e2 : pysrc S)
| SCall0 (m : string) (e : pysrc S) | SCall1 (m : string) (e e1 : pysrc S)
| SCall2 (m : string) (e e1 e2 : pysrc S).
Arguments SName {S}. Arguments SLit {S}. Arguments SNeg {S}. Arguments SAbs {S}. Arguments SBin {S}.
Arguments SPow {S}. Arguments SCall0 {S}. Arguments SCall1 {S}. Arguments SCall2 {S}.

(** Evaluation, left to right; the names are bound to [env]. *)
Fixpoint py_eval {S} (O : Ops S) (env : list (pval S)) (e : pysrc S) : pyres (pval S) :=
  match e with
  | SName i => match nth_error env i with Some v => POk v | None => PRaise EAttribute end
  | SLit s => POk (VFloat s)
  | SNeg e => pbind (py_eval O env e) (py_neg O)
  | SAbs e => pbind (py_eval O env e) (py_abs O)
  | SBin o e1 e2 => pbind (py_eval O env e1) (fun a => pbind (py_eval O env e2) (py_op O o a))
  | SPow e1 e2 => pbind (py_eval O env e1) (fun a => pbind (py_eval O env e2) (py_pow O a))
  | SCall0 m e => pbind (py_eval O env e) (py_call0 O m)
  | SCall1 m e e1 => pbind (py_eval O env e) (fun a => pbind (py_eval O env e1) (py_call1 O m a))
  | SCall2 m e e1 e2 => pbind (py_eval O env e) (fun a => pbind (py_eval O env e1) (fun b =>
                          pbind (py_eval O env e2) (py_call2 O m a b)))
  end.

Fixpoint names_below {S} (n : nat) (e : pysrc S) : Prop :=
  match e with
  | SName i => (i < n)%nat
  | SLit _ => True
  | SNeg e | SAbs e | SCall0 _ e => names_below n e
  | SBin _ e1 e2 | SPow e1 e2 | SCall1 _ e1 e2 => names_below n e1 /\ names_below n e2
  | SCall2 _ e1 e2 e3 => names_below n e1 /\ names_below n e2 /\ names_below n e3
  end.
(** Some name occurs: the value is a number, otherwise a float. *)
Fixpoint mentions {S} (e : pysrc S) : bool :=
  match e with
  | SName _ => true
  | SLit _ => false
  | SNeg e | SAbs e | SCall0 _ e => mentions e
  | SBin _ e1 e2 | SPow e1 e2 | SCall1 _ e1 e2 => mentions e1 || mentions e2
  | SCall2 _ e1 e2 e3 => mentions e1 || mentions e2 || mentions e3
  end.

(** Operands an arithmetic operator or comparison accepts: numbers of one class, or a float on either side. *)
Definition alike {S} (a b : pval S) : Prop :=
  match a, b with
  | VNum c _, VNum c' _ => c_ord c = c_ord c' /\ c_tsize c = c_tsize c'
  | VSparse _, VSparse _ => True
  | VFloat _, (VFloat _ | VNum _ _ | VSparse _) | (VNum _ _ | VSparse _), VFloat _ => True
  | _, _ => False
  end.
Definition is_float {S} (v : pval S) : Prop := match v with VFloat _ => True | _ => False end.

Open Scope R_scope.
(** What the method names stand for, and where it is smooth. *)
Definition named0 : list (string * ((R -> R) * (R -> Prop))) :=
  [("abs", (Rabs, fun x => x <> 0)); ("reciprocal", (Rinv, fun x => x <> 0)); ("sqrt", (sqrt, fun x => 0 < x));
   ("cbrt", (Rcbrt, fun x => x <> 0));
   ("cos", (cos, fun _ => True)); ("sin", (sin, fun _ => True)); ("tan", (tan, fun x => cos x <> 0));
   ("acos", (acos, fun x => -1 < x < 1)); ("asin", (asin, fun x => -1 < x < 1)); ("atan", (atan, fun _ => True));
   ("arccos", (acos, fun x => -1 < x < 1)); ("arcsin", (asin, fun x => -1 < x < 1)); ("arctan", (atan, fun _ => True));
   ("cosh", (cosh, fun _ => True)); ("sinh", (sinh, fun _ => True)); ("tanh", (tanh, fun _ => True));
   ("acosh", (Racosh, fun x => 1 < x)); ("arccosh", (Racosh, fun x => 1 < x));
   ("asinh", (arcsinh, fun _ => True)); ("arcsinh", (arcsinh, fun _ => True));
   ("atanh", (Ratanh, fun x => -1 < x < 1)); ("arctanh", (Ratanh, fun x => -1 < x < 1));
   ("exp", (exp, fun _ => True)); ("log", (ln, fun x => 0 < x));
   ("log2", ((fun x => ln x / ln 2), fun x => 0 < x)); ("log10", ((fun x => ln x / ln 10), fun x => 0 < x))].
Definition named1 : list (string * ((R -> R -> R) * (R -> R -> Prop))) :=
  [("atan2", (Ratan2, fun y x => ~ (y = 0 /\ x <= 0))); ("arctan2", (Ratan2, fun y x => ~ (y = 0 /\ x <= 0)));
   ("hypot", ((fun x y => sqrt (x * x + y * y)), fun x y => ~ (x = 0 /\ y = 0)))].
Definition meaning (o : aop) (x y : R) : R :=
  match o with Aadd => x + y | Asub => x - y | Amul => x * y | Adiv => x / y end.

(** The real function written down; method names without meaning give 0 and are outside the domain. *)
Fixpoint py_real (e : pysrc R) (p : nat -> R) : R :=
  match e with
  | SName i => p i
  | SLit s => s
  | SNeg e => - py_real e p
  | SAbs e => Rabs (py_real e p)
  | SBin o e1 e2 => meaning o (py_real e1 p) (py_real e2 p)
  | SPow e1 e2 => Rpow_std (py_real e1 p) (py_real e2 p)
  | SCall0 m e => match assoc m named0 with Some (f, _) => f (py_real e p) | None => 0 end
  | SCall1 m e e1 =>
      if mentions e1 then match assoc m named1 with Some (f, _) => f (py_real e p) (py_real e1 p) | None => 0 end
      else ln (py_real e p) / ln (py_real e1 p)
  | SCall2 m e e1 e2 => sqrt (py_real e p * py_real e p + py_real e1 p * py_real e1 p + py_real e2 p * py_real e2 p)
  end.
(** Well-typed and inside the domain: methods are called on numbers, with numbers as arguments (a float for
    the base of [log]); exponents are floats; no division by zero; every function is applied where it is
    smooth. *)
Fixpoint py_dom (e : pysrc R) (p : nat -> R) : Prop :=
  match e with
  | SName _ | SLit _ => True
  | SNeg e => py_dom e p
  | SAbs e => py_dom e p /\ (mentions e = true -> py_real e p <> 0)
  | SBin o e1 e2 => py_dom e1 p /\ py_dom e2 p /\ match o with Adiv => py_real e2 p <> 0 | _ => True end
  | SPow e1 e2 => py_dom e1 p /\ py_dom e2 p /\ mentions e2 = false /\
      (let x := py_real e1 p in let b := py_real e2 p in
       0 < x \/ (x <> 0 /\ exists z : Z, b = IZR z) \/ exists k : nat, (2 <= k)%nat /\ b = INR k)
  | SCall0 m e => py_dom e p /\ mentions e = true /\
      match assoc m named0 with Some (_, D) => D (py_real e p) | None => False end
  | SCall1 m e e1 => py_dom e p /\ py_dom e1 p /\ mentions e = true /\
      if mentions e1 then match assoc m named1 with Some (_, D) => D (py_real e p) (py_real e1 p) | None => False end
      else m = "log" /\ 0 < py_real e p /\ 0 < py_real e1 p /\ py_real e1 p <> 1
  | SCall2 m e e1 e2 => py_dom e p /\ py_dom e1 p /\ py_dom e2 p /\ m = "hypot" /\
      mentions e = true /\ mentions e1 = true /\ mentions e2 = true /\
      ~ (py_real e p = 0 /\ py_real e1 p = 0 /\ py_real e2 p = 0)
  end.

(** The library expression a Python source expression amounts to: float subexpressions are computed
    by Python. *)
Inductive lowered (S : Type) := LFloat (s : S) | LExpr (e : expr S).
Arguments LFloat {S}. Arguments LExpr {S}.
Fixpoint lower {S} (O : Ops S) (e : pysrc S) : option (lowered S) :=
  match e with
  | SName i => Some (LExpr (EVar i))
  | SLit s => Some (LFloat s)
  | SNeg e => match lower O e with
      | Some (LFloat s) => Some (LFloat (o_neg O s)) | Some (LExpr e) => Some (LExpr (EU Uneg e)) | None => None end
  | SAbs e => match lower O e with
      | Some (LFloat s) => Some (LFloat (if o_lt O s (o_Z O 0) then o_neg O s else s))
      | Some (LExpr e) => Some (LExpr (EU Uabs e)) | None => None end
  | SBin o e1 e2 =>
      match lower O e1, lower O e2 with
      | Some (LFloat a), Some (LFloat b) =>
          match o with
          | Aadd => Some (LFloat (o_add O a b)) | Asub => Some (LFloat (o_sub O a b))
          | Amul => Some (LFloat (o_mul O a b))
          | Adiv => if o_eq O b (o_Z O 0) then None else Some (LFloat (o_div O a b))
          end
      | Some (LFloat a), Some (LExpr e) =>
          Some (LExpr (EU (match o with Aadd => Usadd a | Asub => Ussub a | Amul => Usmul a | Adiv => Usdiv a end) e))
      | Some (LExpr e), Some (LFloat b) =>
          Some (LExpr (EU (match o with Aadd => Uadds b | Asub => Usubs b | Amul => Umuls b | Adiv => Udivs b end) e))
      | Some (LExpr e1), Some (LExpr e2) =>
          Some (LExpr (EB (match o with Aadd => Badd | Asub => Bsub | Amul => Bmul | Adiv => Bdiv end) e1 e2))
      | _, _ => None
      end
  | SPow e1 e2 =>
      match lower O e1, lower O e2 with
      | Some (LFloat a), Some (LFloat b) => Some (LFloat (o_pow O a b))
      | Some (LExpr e), Some (LFloat b) => Some (LExpr (EU (Upow b) e))
      | _, _ => None
      end
  | SCall0 m e =>
      match lower O e, assoc m (methods0 (S := S)) with Some (LExpr e), Some u => Some (LExpr (EU u e)) | _, _ => None end
  | SCall1 m e e1 =>
      match lower O e, lower O e1 with
      | Some (LExpr e), Some (LFloat b) => if String.eqb m "log" then Some (LExpr (EU (Ulogb b) e)) else None
      | Some (LExpr e), Some (LExpr e1) =>
          match assoc m methods1 with Some f => Some (LExpr (EB f e e1)) | None => None end
      | _, _ => None
      end
  | SCall2 m e e1 e2 =>
      match lower O e, lower O e1, lower O e2 with
      | Some (LExpr e), Some (LExpr e1), Some (LExpr e2) => if String.eqb m "hypot" then Some (LExpr (EH e e1 e2)) else None
      | _, _, _ => None
      end
  end.
