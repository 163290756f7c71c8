(** C86: the chain-rule kernels [unary], [binary], [ternary], writing ([inc = false]) and adding to the result ([inc = true]). *)
From Coq Require Import ZArith List Bool Reals.
From Verif Require Import Outcome Scalar RealOps Model Spec Samples IncSpec FactsInc.
Import ListNotations.
Open Scope R_scope.

(** Full statement: for all coefficients.  Missing: kernels whose first-order coefficients are all the tag [Zero],
    see [C86_zero_tags_refuted]. *)
Theorem C86_unary_partial : forall (c : cfg), cfg_ok c -> forall (n : nat) (this r : dd R) fr gr hr, wf c n this -> shows c n r fr gr hr ->
  forall (inc : bool) (x : dd R) (f a : R) g h (da daa : coef R), shows c n x a g h -> da <> CZero ->
  exists d, unary Rops c inc this (Some (m_data x)) f da daa (m_data r) = Ok d /\
    shows c n (mk (m_size r) d) f (fun i => kept inc (gr i) + number da * g i)
      (fun i j => kept inc (hr i j) + number da * h i j + number daa * g i * g j).
Proof. exact unary_real. Qed.
Print Assumptions C86_unary_partial.
Theorem C86_binary_partial : forall (c : cfg), cfg_ok c -> forall (n : nat) (this r : dd R) fr gr hr, wf c n this -> shows c n r fr gr hr ->
  forall (inc : bool) (x y : dd R) (f a b : R) g g' h h' (da db daa dab dbb : coef R),
  shows c n x a g h -> shows c n y b g' h' -> ~ (da = CZero /\ db = CZero) ->
  exists d, binary Rops c inc this (Some (m_data x)) (Some (m_data y)) f da db daa dab dbb (m_data r) = Ok d /\
    shows c n (mk (m_size r) d) f (fun i => kept inc (gr i) + number da * g i + number db * g' i)
      (fun i j => kept inc (hr i j) + number da * h i j + number db * h' i j + number daa * g i * g j
                  + number dab * (g i * g' j + g' i * g j) + number dbb * g' i * g' j).
Proof. exact binary_real. Qed.
Print Assumptions C86_binary_partial.
Theorem C86_ternary_partial : forall (c : cfg), cfg_ok c -> forall (n : nat) (this r : dd R) fr gr hr, wf c n this -> shows c n r fr gr hr ->
  forall (inc : bool) (x y z : dd R) (f a b e : R) g g' g'' h h' h'' (da db dc daa dab dac dbb dbc dcc : coef R),
  shows c n x a g h -> shows c n y b g' h' -> shows c n z e g'' h'' -> ~ (da = CZero /\ db = CZero /\ dc = CZero) ->
  exists d, ternary Rops c inc this (Some (m_data x)) (Some (m_data y)) (Some (m_data z)) f da db dc daa dab dac dbb dbc dcc (m_data r) = Ok d /\
    shows c n (mk (m_size r) d) f (fun i => kept inc (gr i) + number da * g i + number db * g' i + number dc * g'' i)
      (fun i j => kept inc (hr i j) + number da * h i j + number db * h' i j + number dc * h'' i j
                  + number daa * g i * g j + number dbb * g' i * g' j + number dcc * g'' i * g'' j
                  + number dab * (g i * g' j + g' i * g j) + number dac * (g i * g'' j + g'' i * g j)
                  + number dbc * (g' i * g'' j + g'' i * g' j)).
Proof. exact ternary_real. Qed.
Print Assumptions C86_ternary_partial.
(** Integers, second order, two variables: adding [2 * exb] to the derivatives of [exa], and writing them. *)
Example C86_case :
  unary Zops dyn2 true exa (Some (m_data exb)) 50%Z (CVal 2%Z) COne (m_data exa) = Ok (full [50; 13; 12; 41; 34; 26])%Z /\
  unary Zops dyn2 false exa (Some (m_data exb)) 50%Z (CVal 2%Z) COne (m_data exa) = Ok (full [50; 12; 10; 38; 30; 21])%Z.
Proof. split; reflexivity. Qed.

(** With the tag [Zero] for all first-order coefficients nothing but the value is written: second-order terms are dropped, and in
    the writing form the result keeps whatever was in it. *)
Theorem C86_zero_tags_refuted : forall (S : Type) (O : Ops S) (c : cfg) (n : nat) (inc : bool) (this : dd S) (a b e : ref S) (f : S)
  (daa dab dac dbb dbc dcc : coef S) (r : dd S) fr gr hr, cfg_ok c -> shows c n r fr gr hr ->
  exists d, shows c n (mk (m_size r) d) f gr hr /\
    unary O c inc this a f CZero daa (m_data r) = Ok d /\ binary O c inc this a b f CZero CZero daa dab dbb (m_data r) = Ok d /\
    ternary O c inc this a b e f CZero CZero CZero daa dab dac dbb dbc dcc (m_data r) = Ok d.
Proof. exact (@zero_tags). Qed.
Print Assumptions C86_zero_tags_refuted.
(** The second-order term [1 * 6 * 6 = 36] is missing, the written gradient is that of [exa]; on the fresh result of a static type
    the derivatives stay uninitialised. *)
Example C86_zero_tags_case :
  unary Zops dyn2 true exa (Some (m_data exb)) 50%Z CZero COne (m_data exa) = Ok (full [50; 1; 2; 3; 4; 5])%Z /\
  unary Zops dyn2 false exa (Some (m_data exb)) 50%Z CZero COne (m_data exa) = Ok (full [50; 1; 2; 3; 4; 5])%Z /\
  (d <- unary Zops (sta1 2) false (mk 2 (full [3; 6; 5]%Z)) (Some (full [3; 6; 5]%Z)) 50%Z CZero CZero (array_uninit (sta1 2)) ;;
   get_g (sta1 2) (mk 2 d) 0)%res = UB.
Proof. repeat split; reflexivity. Qed.
