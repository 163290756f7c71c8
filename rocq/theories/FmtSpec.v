(** Reading decimal numbers and the texts of sparse numbers; correct rounding to six decimal digits. *)
From Coq Require Import ZArith List Bool String Ascii Reals.
From Flocq Require Import Core.
Import ListNotations.
Open Scope string_scope.
Open Scope Z_scope.

(** ** decimal numbers: ["-"] digits ["." digits] ["e" sign digits] *)
Definition digit_value (a : ascii) : option Z :=
  let n := Z.of_nat (nat_of_ascii a) - 48 in if (0 <=? n) && (n <? 10) then Some n else None.
(** Continues [acc] with the leading digits of [s]; number of digits read; rest. *)
Fixpoint read_digits (acc cnt : Z) (s : string) : Z * Z * string :=
  match s with
  | String a r => match digit_value a with Some d => read_digits (10 * acc + d) (cnt + 1) r | None => (acc, cnt, s) end
  | "" => (acc, cnt, s)
  end.
(** [m * 10^k] followed by [s], which must be empty or an exponent. *)
Definition read_exp (m k : Z) (s : string) : option (Z * Z) :=
  match s with
  | "" => Some (m, k)
  | String "e" (String sg r) =>
      let '(x, c, r') := read_digits 0 0 r in
      if (c =? 0) || negb (String.eqb r' "") then None
      else if Ascii.eqb sg "+" then Some (m, k + x) else if Ascii.eqb sg "-" then Some (m, k - x) else None
  | _ => None
  end.
Definition read_unsigned (s : string) : option (Z * Z) :=
  let '(m, c, r) := read_digits 0 0 s in
  if c =? 0 then None else
  match r with
  | String "." r' => let '(m', c', r'') := read_digits m 0 r' in if c' =? 0 then None else read_exp m' (- c') r''
  | _ => read_exp m 0 r
  end.
(** [Some (m, k)]: [s] denotes [m * 10^k]. *)
Definition decimal (s : string) : option (Z * Z) :=
  match s with
  | String "-" r => match read_unsigned r with Some (m, k) => Some (- m, k) | None => None end
  | _ => read_unsigned s
  end.
Definition radix10 : radix := Build_radix 10 eq_refl.
Definition dec_value (d : Z * Z) : R := (IZR (fst d) * bpow radix10 (snd d))%R.
Definition denotes (s : string) (v : R) : Prop := exists d, decimal s = Some d /\ dec_value d = v.
(** [v] to six significant decimal digits, ties to even. *)
Definition six_digits (v : R) : R := round radix10 (FLX_exp 6) ZnearestE v.

(** ** texts "value +derivative*dname -derivative*dname ..." *)
Fixpoint cut (c : ascii) (s : string) : string * option string :=
  match s with
  | "" => ("", None)
  | String a r => if Ascii.eqb a c then ("", Some r) else let (l, t) := cut c r in (String a l, t)
  end.
Fixpoint words (fuel : nat) (s : string) : list string :=
  match fuel with
  | O => []
  | S k => match cut " " s with (w, None) => [w] | (w, Some r) => w :: words k r end
  end.
Definition read_entry (w : string) : option (string * string) :=
  let w := match w with String "+" r => r | _ => w end in
  match cut "*" w with
  | (t, Some (String "d" name)) => Some (name, t)
  | _ => None
  end.
Fixpoint read_entries (ws : list string) : option (list (string * string)) :=
  match ws with
  | [] => Some []
  | w :: ws => match read_entry w, read_entries ws with Some e, Some es => Some (e :: es) | _, _ => None end
  end.
(** Text of the value; names with the texts of their derivatives. *)
Definition read_sparse (s : string) : option (string * list (string * string)) :=
  match words (S (String.length s)) s with
  | [] => None
  | v :: ws => match read_entries ws with Some es => Some (v, es) | None => None end
  end.
(** [c] does not occur in [s]. *)
Fixpoint free_of (c : ascii) (s : string) : Prop :=
  match s with "" => True | String a r => a <> c /\ free_of c r end.
