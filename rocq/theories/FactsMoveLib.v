(** Proofs for C97: the library's numbers. *)
From Coq Require Import ZArith Reals List Bool Permutation Lia Lra Arith.
From Flocq Require Import Core BinarySingleNaN.
From Verif Require Import Outcome Scalar Model Spec ProgSpec Samples ModelS SpecS OpsRep RealOps Float64 Ops64 B64 Facts64 FactsReal Prog ModelMove MoveSpec FactsMove.
Import ListNotations.
Open Scope nat_scope.
Open Scope list_scope.

Section Lib.
  Context {S : Type} (O : Ops S) (c : cfg).

  Lemma dense_values : forall js k (w : list (mstmt (call S) (icall S))) lv lv' st st', tidy lv w = Some lv' -> same_live lv st st' ->
    ends_alike (same_live lv') (mrun (dd_call O c) (dd_icall O c) (dd_husk c) js k w st) (plain (dd_call O c) (dd_icall O c) w st').
  Proof. intros. now apply tidy_ok with (lv := lv). Qed.
  Lemma sparse_values : forall d js k (w : list (mstmt (scall S) (icall S))) lv lv' st st', tidy lv w = Some lv' -> same_live lv st st' ->
    ends_alike (same_live lv') (mrun (ss_call O) (ss_icall O) (ss_husk d) js k w st) (plain (ss_call O) (ss_icall O) w st').
  Proof. intros. now apply tidy_ok with (lv := lv). Qed.
  Lemma static_moves : is_dynamic c = false -> forall js k (w : list (mstmt (call S) (icall S))) st, (forall r, ~ In (MMove r r) w) ->
    ends_alike (fun a b => forall r, a r = b r) (mrun (dd_call O c) (dd_icall O c) (dd_husk c) js k w st) (plain (dd_call O c) (dd_icall O c) w st).
  Proof. intros D js k w st Hw. apply move_is_copy; [|exact Hw]. intros j x. unfold dd_husk. now rewrite D. Qed.

  (** *** moved-from numbers *)
  Lemma rd_nil : forall i, rd ([] : data S) i = UB.
  Proof. intros i. unfold rd. destruct (i <? 0)%Z; [reflexivity|]. now destruct (Z.to_nat i). Qed.

  Lemma moved_from : is_dynamic c = true -> forall n (x : dd S), wf c n x ->
    let h := dd_husk c None x in
    size c h = Z.of_nat n /\ get_f h = UB /\
    (forall u, apply_u O c u h =
       if scales u then Ok (mk (Z.of_nat n) (repeat (Some (o_Z O 0)) (storage_len (c_ord c) n))) else UB) /\
    (forall b y, wf c n y -> apply_b O c b h y = UB /\ apply_b O c b y h = UB) /\
    (forall o y, wf c n y -> assign O c o y (Some h) = UB) /\
    (forall o s, assign_s O o h s = match o with Aadd | Asub => UB | Amul | Adiv => Ok h end).
  Proof.
    intros D n x W h. assert (SO := wf_size_ok _ _ _ W).
    assert (Hs : size c h = Z.of_nat n). { destruct W as [W _]. unfold h, dd_husk, size in *. rewrite D in *. exact W. }
    assert (Hd : m_data h = []). { unfold h, dd_husk. rewrite D. reflexivity. }
    assert (Hf : get_f h = UB). { unfold get_f. rewrite Hd. apply rd_nil. }
    assert (He : empty_n O c (Z.of_nat n) = Ok (mk (Z.of_nat n) (repeat (Some (o_Z O 0)) (storage_len (c_ord c) n)))).
    { unfold empty_n. rewrite D, data_length_from_size_ok by exact SO. cbn [bind]. rewrite vec_new_ok by apply SO. reflexivity. }
    assert (Hl : data_length c h = 0%Z). { unfold data_length. rewrite D, Hd. reflexivity. }
    assert (Hu : forall F, unary_op O c F h = UB). { intros F. unfold unary_op. rewrite Hs, He. cbn [bind]. rewrite Hf. reflexivity. }
    assert (Hm : forall s, muls O c h s = Ok (mk (Z.of_nat n) (repeat (Some (o_Z O 0)) (storage_len (c_ord c) n)))).
    { intros s. unfold muls. rewrite Hs, He, Hl. reflexivity. }
    assert (Hz : 1 <= storage_len (c_ord c) n). { destruct (wf_f _ _ _ W) as (v & F). destruct W as (_ & WL & _). destruct (storage_len (c_ord c) n); [|lia].
      unfold get_f in F. destruct (m_data x); [|discriminate WL]. now rewrite rd_nil in F. }
    split; [exact Hs|]. split; [exact Hf|]. split; [|split; [|split]].
    - intros u. destruct u; cbn [apply_u scales]; try apply Hu; try apply Hm.
      + unfold neg. rewrite Hs, He, Hl. reflexivity.
      + unfold abs. now rewrite Hf.
      + unfold adds. now rewrite Hf.
      + unfold sadd, adds. now rewrite Hf.
      + unfold subs, sadd, adds. now rewrite Hf.
      + unfold ssub. rewrite Hs, He. cbn [bind]. unfold data_length. rewrite D. cbn [m_data]. unfold len.
        rewrite repeat_length. unfold for_. destruct (storage_len (c_ord c) n) as [|L]; [lia|].
        replace (Z.to_nat (Z.of_nat (Datatypes.S L) - 0)) with (Datatypes.S L) by lia. cbn [loop]. rewrite Hd, rd_nil. reflexivity.
    - intros b y Wy. assert (Hy : size c y = Z.of_nat n) by apply Wy. destruct (wf_f _ _ _ Wy) as (v & Fv).
      assert (Hc : check_equal_size c (Z.of_nat n) (Z.of_nat n) = Ok tt).
      { unfold check_equal_size. rewrite D. unfold assert_. rewrite !Z.eqb_refl. cbn. now destruct (c_exc c), (c_dbg c). }
      assert (B : forall chk F, binary_op O c chk F h y = UB /\ binary_op O c chk F y h = UB).
      { intros chk F. unfold binary_op. rewrite Hs, Hy, Hc, He.
        destruct chk; cbn [bind]; rewrite Hf, Fv; auto. }
      destruct b; cbn [apply_b]; try apply B.
      unfold div. rewrite Hs, Hy, Hc. cbn [bind]. rewrite Hf, Fv. auto.
    - intros o y Wy. assert (Hy : size c y = Z.of_nat n) by apply Wy. destruct (wf_f _ _ _ Wy) as (v & Fv).
      assert (Hc : check_equal_size c (Z.of_nat n) (Z.of_nat n) = Ok tt).
      { unfold check_equal_size. rewrite D. unfold assert_. rewrite !Z.eqb_refl. cbn. now destruct (c_exc c), (c_dbg c). }
      assert (Ly : List.length (m_data y) = storage_len (c_ord c) n) by apply Wy.
      assert (L1 : forall body : Z -> data S -> res (data S), body 0%Z (m_data y) = UB -> for_ 0 (len (m_data y)) body (m_data y) = UB).
      { intros body B. unfold for_, len. rewrite Ly. destruct (storage_len (c_ord c) n) as [|L]; [lia|].
        replace (Z.to_nat (Z.of_nat (Datatypes.S L) - 0)) with (Datatypes.S L) by lia. cbn [loop]. now rewrite B. }
      unfold get_f in Fv.
      destruct o; cbn [assign]; unfold add_assign, sub_assign, mul_assign, div_assign; cbn [ref_size]; rewrite Hs, Hy, Hc; cbn [bind].
      + rewrite L1; [reflexivity|]. cbv beta. rewrite Fv. cbn [bind ref_of deref]. now rewrite Hd, rd_nil.
      + rewrite L1; [reflexivity|]. cbv beta. rewrite Fv. cbn [bind ref_of deref]. now rewrite Hd, rd_nil.
      + unfold ref_f. cbn [ref_of deref]. now rewrite Hd, rd_nil.
      + rewrite Fv. cbn [bind]. unfold ref_f. cbn [ref_of deref]. now rewrite Hd, rd_nil.
    - assert (Hh : mk (m_size h) (m_data h) = h) by (destruct h; reflexivity).
      intros o s. destruct o; cbn [assign_s]; unfold adds_assign, subs_assign, muls_assign, divs_assign.
      + now rewrite Hf.
      + now rewrite Hf.
      + rewrite Hd. cbn. rewrite <- Hd, Hh. reflexivity.
      + cbn [sderef bind]. unfold muls_assign. rewrite Hd. cbn. rewrite <- Hd, Hh. reflexivity.
  Qed.

  (** *** sorting *)
  Lemma dense_rearranged : forall js k p lv lv' (st : vars (X := dd S)), rearranges lv p lv' -> NoDup lv ->
    (forall r, In r lv -> exists x v, st r = Some x /\ get_f x = Ok v) ->
    exists st', arun (dd_call O c) (dd_icall O c) (dd_husk c) (dd_less O) js k p st = Ok st' /\
      Permutation (map st' lv') (map st lv).
  Proof.
    intros js k p lv lv' st R ND HP.
    destruct (arun_ok (dd_call O c) (dd_icall O c) (dd_husk c) (dd_less O) p js k lv lv' st (fun x => exists v, get_f x = Ok v)) as (st' & E & _ & P'); eauto.
    - intros x y (u & U) (v & V). unfold dd_less, compare. rewrite U, V. cbn. eauto.
    - intros r Ir. destruct (HP r Ir) as (x & v & A & B). eauto.
  Qed.
  Lemma sparse_rearranged : forall d js k p lv lv' (st : vars (X := ss S)), rearranges lv p lv' -> NoDup lv ->
    (forall r, In r lv -> exists x, st r = Some x) ->
    exists st', arun (ss_call O) (ss_icall O) (ss_husk d) (ss_less O) js k p st = Ok st' /\
      Permutation (map st' lv') (map st lv).
  Proof.
    intros d js k p lv lv' st R ND HP.
    destruct (arun_ok (ss_call O) (ss_icall O) (ss_husk d) (ss_less O) p js k lv lv' st (fun x => True)) as (st' & E & _ & P'); eauto.
    - intros x y _ _. unfold ss_less. eauto.
    - intros r Ir. destruct (HP r Ir) as (x & A). eauto.
  Qed.

  Lemma dense_sorted : forall (Q : S -> Prop) js n (st : vars (X := dd S)) (xs : nat -> dd S) (v : nat -> S), strict_weak Q (o_lt O) ->
    (forall i, i < n -> st i = Some (xs i) /\ get_f (xs i) = Ok (v i) /\ Q (v i)) ->
    exists st' xs' v', arun (dd_call O c) (dd_icall O c) (dd_husk c) (dd_less O) js 0 (isort n) st = Ok st' /\
      (forall i, i < n -> st' i = Some (xs' i) /\ get_f (xs' i) = Ok (v' i)) /\
      Permutation (map xs' (seq 0 n)) (map xs (seq 0 n)) /\ in_order (o_lt O) n v'.
  Proof.
    intros Q js n st xs v SW HS.
    set (val := fun x : dd S => match get_f x with Ok a => a | _ => o_Z O 0 end).
    set (P := fun x : dd S => get_f x = Ok (val x) /\ Q (val x)).
    assert (SW' : strict_weak P (fun x y => o_lt O (val x) (val y))).
    { destruct SW as [A B C]. constructor.
      - intros x [_ Px]. now apply A.
      - intros x y z [_ Px] [_ Py] [_ Pz]. now apply B.
      - intros x y z [_ Px] [_ Py] [_ Pz]. now apply C. }
    assert (HP : forall i, i < n -> st i = Some (xs i) /\ P (xs i)).
    { intros i Hi. destruct (HS i Hi) as (A & B & C). split; [exact A|]. unfold P, val. rewrite B. auto. }
    destruct (isort_sorts (dd_call O c) (dd_icall O c) (dd_husk c) (dd_less O) P _ SW') with (n := n) (js := js) (st := st) (xs := xs)
      as (st' & xs' & E & H1 & H2 & H3); auto.
    { intros x y [Px _] [Py _]. unfold dd_less, compare. rewrite Px, Py. reflexivity. }
    exists st', xs', (fun i => val (xs' i)). split; [exact E|]. split; [|split; [exact H2|exact H3]].
    intros i Hi. split; [now apply H1|].
    assert (I : In (xs' i) (map xs' (seq 0 n))) by (apply in_map, in_seq; lia).
    apply (Permutation_in _ H2) in I. apply in_map_iff in I. destruct I as (q & <- & Iq). apply in_seq in Iq. apply HP. lia.
  Qed.
  Lemma sparse_sorted : forall (Q : S -> Prop) d js n (st : vars (X := ss S)) (xs : nat -> ss S), strict_weak Q (o_lt O) ->
    (forall i, i < n -> st i = Some (xs i) /\ Q (s_f (xs i))) ->
    exists st' xs', arun (ss_call O) (ss_icall O) (ss_husk d) (ss_less O) js 0 (isort n) st = Ok st' /\
      (forall i, i < n -> st' i = Some (xs' i)) /\
      Permutation (map xs' (seq 0 n)) (map xs (seq 0 n)) /\ in_order (o_lt O) n (fun i => s_f (xs' i)).
  Proof.
    intros Q d js n st xs SW HS.
    assert (SW' : strict_weak (fun x : ss S => Q (s_f x)) (fun x y => o_lt O (s_f x) (s_f y))).
    { destruct SW as [A B C]. constructor; eauto. }
    destruct (isort_sorts (ss_call O) (ss_icall O) (ss_husk d) (ss_less O) (fun x : ss S => Q (s_f x)) _ SW') with (n := n) (js := js) (st := st) (xs := xs)
      as (st' & xs' & E & H1 & H2 & H3); auto.
    exists st', xs'. auto.
  Qed.
End Lib.

(** *** the order of the scalars *)
Lemma real_order : strict_weak (fun _ : R => True) (o_lt Rops).
Proof.
  constructor; cbn; unfold Rltb; intros; repeat match goal with H : context [Rlt_dec ?a ?b] |- _ => destruct (Rlt_dec a b) | |- context [Rlt_dec ?a ?b] => destruct (Rlt_dec a b) end; try reflexivity; try discriminate; lra.
Qed.

Definition key (x : b64) : R :=
  match x with
  | B754_infinity false => bpow radix2 2000
  | B754_infinity true => - bpow radix2 2000
  | _ => val64 x
  end%R.
Lemma key_lt (a b : b64) : ~ nan64 a -> ~ nan64 b -> (Bltb a b = true <-> (key a < key b)%R).
Proof.
  intros Na Nb.
  assert (F : forall x : b64, is_finite x = true -> (key x = B2R x /\ - bpow radix2 2000 < key x < bpow radix2 2000)%R).
  { intros x Fx. assert (key x = B2R x) as -> by (destruct x as [|[]| |]; try discriminate; reflexivity).
    split; [reflexivity|]. assert (A : (Rabs (B2R x) < bpow radix2 1024)%R) by exact (abs_B2R_lt_emax _ _ x).
    assert (B : (bpow radix2 1024 <= bpow radix2 2000)%R) by (apply bpow_le; lia).
    apply Rabs_def2 in A. lra. }
  assert (Bp : (0 < bpow radix2 2000)%R) by apply bpow_gt_0.
  destruct (is_finite a) eqn:Fa, (is_finite b) eqn:Fb.
  - destruct (F _ Fa) as [-> _], (F _ Fb) as [-> _]. rewrite (Bltb_correct _ _ a b Fa Fb). split; intros H.
    + destruct (Rlt_bool_spec (B2R a) (B2R b)); [assumption|discriminate].
    + now apply Rlt_bool_true.
  - destruct (F _ Fa) as [_ K]. destruct b as [|[]| |]; try discriminate; try (exfalso; now apply Nb).
    + cbn [key]. split; intros H; [|lra]. destruct a as [|[]| |]; discriminate.
    + cbn [key]. split; intros H; [lra|]. destruct a as [|[]| |]; try discriminate; reflexivity.
  - destruct (F _ Fb) as [_ K]. destruct a as [|[]| |]; try discriminate; try (exfalso; now apply Na).
    + cbn [key]. split; intros H; [lra|]. destruct b as [|[]| |]; try discriminate; reflexivity.
    + cbn [key]. split; intros H; [|lra]. destruct b as [|[]| |]; discriminate.
  - destruct a as [|sa| |]; try discriminate; try (exfalso; now apply Na).
    destruct b as [|sb| |]; try discriminate; try (exfalso; now apply Nb).
    destruct sa, sb; cbn [key]; (split; intros H; [first [discriminate|lra]|first [reflexivity|lra]]).
Qed.
Lemma double_order M : strict_weak (fun a : b64 => ~ nan64 a) (o_lt (b64ops M)).
Proof.
  assert (K : forall a b : b64, ~ nan64 a -> ~ nan64 b -> (Bltb a b = false <-> ~ (key a < key b)%R)).
  { intros a b Na Nb. pose proof (key_lt a b Na Nb) as [H1 H2]. destruct (Bltb a b).
    - split; intros H; [discriminate|]. exfalso. now apply H, H1.
    - split; intros H; [|reflexivity]. intros L. now specialize (H2 L). }
  constructor; cbn [o_lt b64ops].
  - intros x Nx. apply K; auto. lra.
  - intros x y z Nx Ny Nz H1 H2. apply key_lt in H1; auto. apply key_lt in H2; auto. apply key_lt; auto. lra.
  - intros x y z Nx Ny Nz H1 H2. apply K in H1; auto. apply K in H2; auto. apply K; auto. lra.
Qed.

(** With NaN among the values insertion sort stops early. *)
Definition nan_list (i : nat) : dd b64 := mk 1 (full [nth i [z64 2; B754_nan; z64 1] (z64 0); z64 (Z.of_nat i)]).
Lemma isort_3 {X Op Iop J : Type} (exec : Op -> list X -> res X) (iexec : Iop -> X -> option X -> res X) (husk : option J -> X -> X) less js
    (st : vars (X := X)) a b d : st 0 = Some a -> st 1 = Some b -> st 2 = Some d -> less b a = Ok false -> less d b = Ok false ->
  exists st', arun exec iexec husk less js 0 (isort 3) st = Ok st' /\ st' 0 = Some a /\ st' 1 = Some b /\ st' 2 = Some d.
Proof.
  intros A B D L1 L2. unfold isort. cbn. unfold getv, setv. cbn. rewrite B. cbn. rewrite A. cbn. rewrite L1. cbn. unfold move_to, getv. cbn.
  unfold move_new, getv. cbn. unfold setv. cbn. rewrite D. cbn. rewrite L2. cbn. unfold move_to, getv. cbn.
  eexists. split; [reflexivity|]. cbn. auto.
Qed.
Lemma nan_unsorted M : exists st', arun (dd_call (b64ops M) dyn1) (dd_icall (b64ops M) dyn1) (dd_husk dyn1) (dd_less (b64ops M))
    (fun _ => []) 0 (isort 3) (fun i => if i <? 3 then Some (nan_list i) else None) = Ok st' /\
  st' 0 = Some (nan_list 0) /\ st' 1 = Some (nan_list 1) /\ st' 2 = Some (nan_list 2).
Proof. apply isort_3; reflexivity. Qed.
Lemma sort_nan M : ~ (forall js n (st : vars (X := dd b64)) (xs : nat -> dd b64) (v : nat -> b64),
  (forall i, i < n -> st i = Some (xs i) /\ get_f (xs i) = Ok (v i)) ->
  exists st' xs' v', arun (dd_call (b64ops M) dyn1) (dd_icall (b64ops M) dyn1) (dd_husk dyn1) (dd_less (b64ops M)) js 0 (isort n) st = Ok st' /\
    (forall i, i < n -> st' i = Some (xs' i) /\ get_f (xs' i) = Ok (v' i)) /\ in_order (o_lt (b64ops M)) n v').
Proof.
  intros H. destruct (nan_unsorted M) as (st1 & E1 & A0 & _ & A2).
  destruct (H (fun _ => []) 3 (fun i => if i <? 3 then Some (nan_list i) else None) nan_list (fun i => nth i [z64 2; B754_nan; z64 1] (z64 0)))
    as (st' & xs' & v' & E & HS & HO).
  - intros i Hi. split; [|reflexivity]. destruct (Nat.ltb_spec i 3); [reflexivity|lia].
  - rewrite E1 in E. injection E as <-. destruct (HS 0 ltac:(lia)) as [B0 C0], (HS 2 ltac:(lia)) as [B2 C2].
    rewrite A0 in B0. rewrite A2 in B2. injection B0 as B0. injection B2 as B2. rewrite <- B0 in C0. rewrite <- B2 in C2.
    specialize (HO 0 2 ltac:(lia) ltac:(lia)). cbn [get_f nan_list] in C0, C2.
    change (Ok (z64 2) = Ok (v' 0)) in C0. change (Ok (z64 1) = Ok (v' 2)) in C2. injection C0 as C0. injection C2 as C2.
    rewrite <- C0, <- C2 in HO. change (Bltb (z64 1) (z64 2) = false) in HO. vm_compute in HO. discriminate HO.
Qed.

(** ** The statements of the program language as calls *)
Section Calls.
  Context {X Op Iop J : Type} (exec : Op -> list X -> res X) (iexec : Iop -> X -> option X -> res X) (husk : option J -> X -> X).
  Lemma mrun_app (js : nat -> J) w1 w2 : forall k st,
    mrun exec iexec husk js k (w1 ++ w2) st = (st <- mrun exec iexec husk js k w1 st ;; mrun exec iexec husk js (k + List.length w1) w2 st).
  Proof.
    induction w1 as [|s w1 IH]; intros k st; cbn; [now rewrite Nat.add_0_r|]. destruct (mstep exec iexec husk (js k) s st); cbn; auto.
    rewrite IH. destruct mrun; cbn; auto. f_equal. lia.
  Qed.
  Definition holds (st : list X) (st' : vars (X := X)) : Prop := forall q, nth_error st q = st' q.
  Lemma holds_get st st' a : holds st st' -> getv st' a = get st a.
  Proof. intros H. unfold getv, get. now rewrite H. Qed.
  Lemma holds_put st st' r x : holds st st' -> (r < List.length st)%nat -> holds (put st r x) (setv st' r x).
  Proof.
    intros H Hr q. unfold setv. destruct (Nat.eqb_spec q r) as [->|N]; [apply put_same, Hr|]. rewrite put_other by exact N. apply H.
  Qed.
End Calls.
Lemma get_below {X} (st : list X) r : (r < List.length st)%nat -> exists x, get st r = Ok x.
Proof. intros H. unfold get. destruct (nth_error st r) eqn:E; [eauto|]. apply nth_error_None in E. lia. Qed.
Lemma put_length' {X} (st : list X) r x : List.length (put st r x) = List.length st.
Proof. revert r. induction st as [|y st IH]; intros [|r]; cbn; auto. Qed.

Lemma dense_calls_aux {S} (O : Ops S) (c : cfg) (n : nat) (js : nat -> data S) fuel s : forall k st st' m,
  straight (List.length st) s -> (forall q, nth_error st q = st' q) -> ProgSpec.exec O c n fuel s st = Some m ->
  ends_alike (fun a b => List.length a = List.length st /\ forall q, nth_error a q = b q) m (mrun (dd_call O c) (dd_icall O c) (dd_husk c) js k (as_calls n s) st').
Proof.
  revert s. induction fuel as [|fuel IH]; intros s k st st' m HS HH E; [discriminate|].
  assert (G : forall a, getv st' a = get st a) by (intros a; exact (holds_get st st' a HH)).
  assert (P : forall r x, r < List.length st -> List.length (put st r x) = List.length st /\ forall q, nth_error (put st r x) q = setv st' r x q)
    by (intros; split; [apply put_length'|apply (holds_put st st' r x HH); assumption]).
  destruct s as [|s1 s2|r v|r a|r u a|r b a1 a2|r a1 a2 a3|o r a|o r v|b s1 s2|b s1]; cbn [ProgSpec.exec] in E; cbn [as_calls straight] in *; try contradiction.
  2:{ rewrite mrun_app. destruct HS as [S1 S2]. destruct (ProgSpec.exec O c n fuel s1 st) as [m1|] eqn:E1; [|discriminate].
    pose proof (IH s1 k st st' m1 S1 HH E1) as I1.
    destruct m1 as [st1|e| |]; destruct (mrun (dd_call O c) (dd_icall O c) (dd_husk c) js k (as_calls n s1) st') as [w1|e'| |]; cbn in I1; try contradiction;
      try (injection E as <-; cbn; exact I1).
    cbn [bind]. destruct I1 as [L1 H1]. rewrite <- L1 in S2. pose proof (IH s2 (k + List.length (as_calls n s1)) st1 w1 m S2 H1 E) as I2.
    rewrite L1 in I2. exact I2. }
  1: injection E as <-; cbn; auto.
  all: injection E as <-; unfold step, write; destruct (get_below st r HS) as [x Ex]; cbn; rewrite ?G, ?Ex; cbn; auto.
  all: repeat match goal with |- context [get ?l ?a] => destruct (get l a); cbn; auto end.
  1: destruct (constant_n O c v (Z.of_nat n)); cbn; auto.
  1: destruct (apply_u O c u _); cbn; auto.
  1: destruct (apply_b O c b _ _); cbn; auto.
  1: destruct (hypot3 O c _ _ _); cbn; auto.
  1: destruct (assign O c o x _); cbn; auto.
  1: destruct (assign_s O o x v); cbn; auto.
Qed.
Lemma dense_calls {S} (O : Ops S) (c : cfg) (n : nat) (js : nat -> data S) fuel s k st st' m :
  straight (List.length st) s -> (forall q, nth_error st q = st' q) -> ProgSpec.exec O c n fuel s st = Some m ->
  ends_alike (fun a b => forall q, nth_error a q = b q) m (mrun (dd_call O c) (dd_icall O c) (dd_husk c) js k (as_calls n s) st').
Proof.
  intros HS HH E. pose proof (dense_calls_aux O c n js fuel s k st st' m HS HH E) as H.
  destruct m, (mrun (dd_call O c) (dd_icall O c) (dd_husk c) js k (as_calls n s) st'); cbn in *; tauto.
Qed.
Lemma sparse_calls_aux {S} (O : Ops S) (d : table S) (js : nat -> table S) fuel s : forall k st st' m,
  straight (List.length st) s -> (forall q, nth_error st q = st' q) -> s_exec O fuel s st = Some m ->
  ends_alike (fun a b => List.length a = List.length st /\ forall q, nth_error a q = b q) m (mrun (ss_call O) (ss_icall O) (ss_husk d) js k (as_scalls s) st').
Proof.
  revert s. induction fuel as [|fuel IH]; intros s k st st' m HS HH E; [discriminate|].
  assert (G : forall a, getv st' a = get st a) by (intros a; exact (holds_get st st' a HH)).
  assert (P : forall r x, r < List.length st -> List.length (put st r x) = List.length st /\ forall q, nth_error (put st r x) q = setv st' r x q)
    by (intros; split; [apply put_length'|apply (holds_put st st' r x HH); assumption]).
  destruct s as [|s1 s2|r v|r a|r u a|r b a1 a2|r a1 a2 a3|o r a|o r v|b s1 s2|b s1]; cbn [s_exec] in E; cbn [as_scalls straight] in *; try contradiction.
  2:{ rewrite mrun_app. destruct HS as [S1 S2]. destruct (s_exec O fuel s1 st) as [m1|] eqn:E1; [|discriminate].
    pose proof (IH s1 k st st' m1 S1 HH E1) as I1.
    destruct m1 as [st1|e| |]; destruct (mrun (ss_call O) (ss_icall O) (ss_husk d) js k (as_scalls s1) st') as [w1|e'| |]; cbn in I1; try contradiction;
      try (injection E as <-; cbn; exact I1).
    cbn [bind]. destruct I1 as [L1 H1]. rewrite <- L1 in S2. pose proof (IH s2 (k + List.length (as_scalls s1)) st1 w1 m S2 H1 E) as I2.
    rewrite L1 in I2. exact I2. }
  1: injection E as <-; cbn; auto.
  all: injection E as <-; unfold s_step, s_write; destruct (get_below st r HS) as [x Ex]; cbn; rewrite ?G, ?Ex; cbn; auto.
  all: repeat match goal with |- context [get ?l ?a] => destruct (get l a); cbn; auto end.
Qed.
Lemma sparse_calls {S} (O : Ops S) (d : table S) (js : nat -> table S) fuel s k st st' m :
  straight (List.length st) s -> (forall q, nth_error st q = st' q) -> s_exec O fuel s st = Some m ->
  ends_alike (fun a b => forall q, nth_error a q = b q) m (mrun (ss_call O) (ss_icall O) (ss_husk d) js k (as_scalls s) st').
Proof.
  intros HS HH E. pose proof (sparse_calls_aux O d js fuel s k st st' m HS HH E) as H.
  destruct m, (mrun (ss_call O) (ss_icall O) (ss_husk d) js k (as_scalls s) st'); cbn in *; tauto.
Qed.
