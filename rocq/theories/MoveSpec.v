(** Specification for C97: what copies, moves and swaps mean for values, which programs use only variables that
    hold a value, which algorithms only rearrange, what sorted means. *)
From Coq Require Import ZArith List Bool Permutation.
From Verif Require Import Outcome Scalar Model ProgSpec ModelMove.
Import ListNotations.
Open Scope nat_scope.

Section Values.
  Context {X Op Iop : Type} (exec : Op -> list X -> res X) (iexec : Iop -> X -> option X -> res X).

  (** Variables hold values: a move is a copy, a swap exchanges. *)
  Definition plain_step (s : mstmt Op Iop) (st : nat -> option X) : res (nat -> option X) :=
    match s with
    | MLet r o args => xs <- getvs st args ;; x <- exec o xs ;; Ok (setv st r x)
    | MCopy r a | MMove r a | MMoveTo r a => x <- getv st a ;; Ok (setv st r x)
    | MSwap r a => x <- getv st r ;; y <- getv st a ;; Ok (setv (setv st r y) a x)
    | MUpd o r a =>
        x <- getv st r ;;
        y <- match a with
             | None => Ok None
             | Some a => y <- getv st a ;; Ok (if Nat.eqb a r then None else Some y)
             end ;;
        x <- iexec o x y ;; Ok (setv st r x)
    end.
  Fixpoint plain (w : list (mstmt Op Iop)) (st : nat -> option X) : res (nat -> option X) :=
    match w with
    | [] => Ok st
    | s :: w => st <- plain_step s st ;; plain w st
    end.

  (** [lv r]: variable [r] holds a value.  A moved-from variable does not, until it is assigned to. *)
  Definition mark (lv : nat -> bool) (r : nat) (b : bool) : nat -> bool := fun q => if Nat.eqb q r then b else lv q.
  Definition tidy_step (lv : nat -> bool) (s : mstmt Op Iop) : option (nat -> bool) :=
    match s with
    | MLet r o args => if forallb lv args then Some (mark lv r true) else None
    | MCopy r a => if lv a then Some (mark lv r true) else None
    | MMove r a => if lv a && negb (Nat.eqb r a) then Some (mark (mark lv r true) a false) else None
    | MMoveTo r a => if lv a then Some (mark (mark lv r true) a false) else None
    | MSwap r a => if lv r && lv a then Some lv else None
    | MUpd o r a => if lv r && (match a with None => true | Some a => lv a end) then Some lv else None
    end.
  Fixpoint tidy (lv : nat -> bool) (w : list (mstmt Op Iop)) : option (nat -> bool) :=
    match w with
    | [] => Some lv
    | s :: w => match tidy_step lv s with Some lv => tidy lv w | None => None end
    end.
End Values.

(** The same end: the same exception, failed assertion or undefined behaviour, or variables related by [R]. *)
Definition ends_alike {A B} (R : A -> B -> Prop) (m : res A) (m' : res B) : Prop :=
  match m, m' with
  | Ok a, Ok b => R a b
  | Throw e, Throw e' => e = e'
  | Abort, Abort => True
  | UB, UB => True
  | _, _ => False
  end.
(** The two states agree on the variables that hold a value. *)
Definition same_live {X} (lv : nat -> bool) (st st' : nat -> option X) : Prop :=
  forall r, lv r = true -> st r = st' r.

(** The algorithm moves only out of variables that hold a value into variables that do not, and compares and swaps
    only variables that hold a value; it ends with values in [lv']. *)
Fixpoint rearranges (lv : list nat) (p : alg) (lv' : list nat) : Prop :=
  match p with
  | AEnd => Permutation lv lv'
  | AMove r a p | AMoveTo r a p => ~ In r lv /\ exists l, Permutation lv (a :: l) /\ rearranges (r :: l) p lv'
  | ASwap r a p => In r lv /\ In a lv /\ rearranges lv p lv'
  | ALess a b p => In a lv /\ In b lv /\ forall l, rearranges lv (p l) lv'
  end.

(** [std::sort]'s requirement on [<] for the elements [P], and the order established. *)
Record strict_weak {X} (P : X -> Prop) (lt : X -> X -> bool) : Prop := {
  sw_irrefl : forall x, P x -> lt x x = false;
  sw_trans : forall x y z, P x -> P y -> P z -> lt x y = true -> lt y z = true -> lt x z = true;
  sw_neg : forall x y z, P x -> P y -> P z -> lt x y = false -> lt y z = false -> lt x z = false }.
Definition in_order {X} (lt : X -> X -> bool) (n : nat) (xs : nat -> X) : Prop :=
  forall i j, i < j -> j < n -> lt (xs j) (xs i) = false.

(** The operations that treat all entries of the storage alike, without reading the value first. *)
Definition scales {S} (u : ufun S) : bool := match u with Uneg | Umuls _ | Usmul _ | Udivs _ => true | _ => false end.

(** Statements of the program language without branches and loops (registers [0 .. m-1]) as calls and copies. *)
Fixpoint straight {S} (m : nat) (s : stmt S) : Prop :=
  match s with
  | PSkip => True
  | PSeq s1 s2 => straight m s1 /\ straight m s2
  | PConst r _ | PMov r _ | PU r _ _ | PB r _ _ _ | PH r _ _ _ | PAsg _ r _ | PAsgS _ r _ => r < m
  | PIf _ _ _ | PWhile _ _ => False
  end.
Fixpoint as_calls {S} (n : nat) (s : stmt S) : list (mstmt (call S) (icall S)) :=
  match s with
  | PSeq s1 s2 => as_calls n s1 ++ as_calls n s2
  | PConst r v => [MLet r (KConst v (Z.of_nat n)) []]
  | PMov r a => [MCopy r a]
  | PU r u a => [MLet r (KUn u) [a]]
  | PB r b a1 a2 => [MLet r (KBin b) [a1; a2]]
  | PH r a1 a2 a3 => [MLet r KHyp [a1; a2; a3]]
  | PAsg o r a => [MUpd (KAsg o) r (Some a)]
  | PAsgS o r v => [MUpd (KAsgS o v) r None]
  | _ => []
  end.
Fixpoint as_scalls {S} (s : stmt S) : list (mstmt (scall S) (icall S)) :=
  match s with
  | PSeq s1 s2 => as_scalls s1 ++ as_scalls s2
  | PConst r v => [MLet r (LConst v) []]
  | PMov r a => [MCopy r a]
  | PU r u a => [MLet r (LUn u) [a]]
  | PB r b a1 a2 => [MLet r (LBin b) [a1; a2]]
  | PH r a1 a2 a3 => [MLet r LHyp [a1; a2; a3]]
  | PAsg o r a => [MUpd (KAsg o) r (Some a)]
  | PAsgS o r v => [MUpd (KAsgS o v) r None]
  | _ => []
  end.
