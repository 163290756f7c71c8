(** Which C++ function a Python constructor call reaches (C80). *)
From Coq Require Import ZArith String List Bool Lia Permutation.
From Verif Require Import Outcome Scalar Model Spec Core AccRep FactsLayout ModelS ModelNew NewSpec Samples.
Import ListNotations.
Open Scope string_scope.
Open Scope Z_scope.
Open Scope list_scope.

Lemma Forall2_impl {A B} (P Q : A -> B -> Prop) l m : (forall a b, P a b -> Q a b) -> Forall2 P l m -> Forall2 Q l m.
Proof. intros H. induction 1; constructor; auto. Qed.
Lemma Forall2_length {A B} (P : A -> B -> Prop) l m : Forall2 P l m -> length l = length m.
Proof. induction 1; cbn; congruence. Qed.

Section New.
  Context {S : Type} (O : Ops S) (V : pyconv S).

  Lemma all_some_map {A B} (f : A -> option B) l m : Forall2 (fun a b => f a = Some b) l m -> all_some (map f l) = Some m.
  Proof. induction 1 as [|a b l m E _ IH]; [reflexivity|]. cbn. rewrite E, IH. reflexivity. Qed.
  Lemma all_some_id {A} (l : list A) : all_some (map Some l) = Some l.
  Proof. induction l as [|a l IH]; [reflexivity|]. cbn. rewrite IH. reflexivity. Qed.
  Lemma number_double v s : number V v s -> as_double V true v = Some s.
  Proof. destruct 1; cbn; auto. Qed.
  Lemma number_scalar v s : number V v s -> scalar_of V v = Some s.
  Proof. destruct 1; cbn; auto. Qed.
  Lemma number_first v s t : number V v s -> as_double V false v = Some t -> t = s.
  Proof. destruct 1; cbn; congruence. Qed.
  Lemma number_shape v s : number V v s -> as_sequence v = None /\ forall n b, as_vector V n b v = None.
  Proof. destruct 1; (split; [reflexivity|]); intros n [|]; reflexivity. Qed.
  Lemma fits_range z : index_range z -> fits_index z = Some z.
  Proof.
    intros (A & B). unfold fits_index. destruct (Z.leb_spec (- 2 ^ 63) z); [|lia]. destruct (Z.ltb_spec z (2 ^ 63)); [reflexivity|lia].
  Qed.
  Lemma number_index_first v s : number V v s -> forall z, as_index V false v = Some z -> v = VInt z.
  Proof. destruct 1; cbn; try discriminate. intros z'. unfold fits_index. destruct (_ && _); congruence. Qed.

  Lemma vector_seq v l : vector V v l -> exists vs, as_sequence v = Some vs /\ Forall2 (number V) vs l.
  Proof.
    destruct 1 as [vs l H|l|zs l H]; cbn; eexists; (split; [reflexivity|]).
    - exact H.
    - induction l; constructor; auto. constructor.
    - induction H; cbn; constructor; auto. constructor. assumption.
  Qed.
  Lemma numbers_double vs l : Forall2 (number V) vs l -> all_some (map (as_double V true) vs) = Some l.
  Proof. intros H. apply all_some_map. eapply Forall2_impl; [|exact H]. apply number_double. Qed.
  Lemma numbers_first vs l m : Forall2 (number V) vs l -> all_some (map (as_double V false) vs) = Some m -> m = l.
  Proof.
    intros H. revert m. induction H as [|v s vs l N _ IH]; cbn; intros m E; [congruence|].
    destruct (as_double V false v) eqn:E1; [|discriminate]. destruct (all_some _) eqn:E2; [|discriminate].
    injection E as <-. rewrite (number_first _ _ _ N E1), (IH _ eq_refl). reflexivity.
  Qed.
  Lemma vector_doubles v l n : vector V v l -> match n with Some n => length l = n | None => True end ->
    as_doubles V n true v = Some l /\ (forall m, as_doubles V n false v = Some m -> m = l).
  Proof.
    intros H Hn. destruct (vector_seq v l H) as (vs & E & F). unfold as_doubles. rewrite E.
    pose proof (Forall2_length _ _ _ F) as L. destruct n as [n|].
    - rewrite L, Hn, Nat.eqb_refl. split; [apply numbers_double, F|]. intros m. apply numbers_first, F.
    - split; [apply numbers_double, F|]. intros m. apply numbers_first, F.
  Qed.
  Lemma vector_wrong v l n b : vector V v l -> length l <> n -> as_doubles V (Some n) b v = None.
  Proof.
    intros H Hn. destruct (vector_seq v l H) as (vs & E & F). unfold as_doubles. rewrite E.
    pose proof (Forall2_length _ _ _ F) as L. rewrite L. destruct (Nat.eqb_spec (length l) n); [contradiction|reflexivity].
  Qed.
  Lemma numbers_scalars vs l : Forall2 (number V) vs l -> all_some (map (scalar_of V) vs) = Some l.
  Proof. intros H. apply all_some_map. eapply Forall2_impl; [|exact H]. apply number_scalar. Qed.
  Lemma vector_ndarray v l : vector V v l -> as_ndarray V v = Some (N1 l).
  Proof.
    destruct 1 as [vs l H|l|zs l H]; cbn.
    - rewrite (numbers_scalars _ _ H). reflexivity.
    - reflexivity.
    - rewrite (all_some_map _ _ _ H). reflexivity.
  Qed.
  Lemma vector_vector v l n : vector V v l -> match n with Some n => length l = n | None => True end ->
    as_vector V n true v = Some l /\ (forall m, as_vector V n false v = Some m -> m = l).
  Proof.
    intros H Hn. unfold as_vector. rewrite (vector_ndarray _ _ H). cbn [orb].
    assert (match n with Some n => Nat.eqb (length l) n | None => true end = true) as E.
    { destruct n; [rewrite Hn; apply Nat.eqb_refl|reflexivity]. }
    rewrite E. split; [reflexivity|]. intros m. match goal with |- (if ?b then _ else _) = _ -> _ => destruct b end; congruence.
  Qed.
  Lemma vector_not_double v l : vector V v l -> ~ is_array v -> forall b, as_double V b v = None.
  Proof. destruct 1; cbn; intros A b; tauto. Qed.
  Lemma vector_not_index v l b : vector V v l -> ~ is_array v -> as_index V b v = None.
  Proof. destruct 1; cbn; intros A; tauto. Qed.
  Lemma vector_many v l b : vector V v l -> length l <> 1%nat -> as_double V b v = None /\ as_index V b v = None.
  Proof.
    destruct 1 as [vs l H|l|zs l H]; cbn; intros L; (split; [|]); try reflexivity; destruct b; try reflexivity;
      try (destruct l as [|? [|? ?]]; cbn in *; try reflexivity; lia).
    all: apply Forall2_length in H; destruct zs as [|? [|? ?]]; cbn in *; try reflexivity; lia.
  Qed.
  Lemma vector_first v l n : vector V v l -> as_double V false v = None /\ as_index V false v = None /\
    (as_vector V n false v = None \/ v = VArr1 (EF l)).
  Proof. destruct 1; cbn; repeat split; auto. Qed.

  Lemma table_matrix c n v l : table_of V n v l -> is_dynamic c = true \/ c_tsize c = Z.of_nat n ->
    as_matrix V (fixed c (c_tsize c)) true v = Some (mkmat (Z.of_nat n) (Z.of_nat n) (full l)).
  Proof.
    intros H D.
    assert (match fixed c (c_tsize c) with Some m => Nat.eqb n m && Nat.eqb n m | None => true end = true) as E.
    { unfold fixed. destruct (is_dynamic c) eqn:E; [reflexivity|]. destruct D as [D|D]; [discriminate|].
      rewrite D, Nat2Z.id, Nat.eqb_refl. reflexivity. }
    destruct H as [rows ls Hn F L R|l|zs l F]; unfold as_matrix; cbn [as_ndarray elems_float].
    - pose proof (Forall2_length _ _ _ F) as LL. destruct ls as [|row rest]; [cbn in *; lia|].
      destruct rows as [|v rows]; [discriminate|].
      assert (N : all_some (map (scalar_of V) (v :: rows)) = None).
      { inversion F as [|? ? ? ? Hv _]. destruct Hv; reflexivity. }
      rewrite N.
      assert (M : all_some (map (row_of V) (v :: rows)) = Some (row :: rest)).
      { apply all_some_map. eapply Forall2_impl; [|exact F]. intros a b W.
        destruct W as [vs k W|k|zs k W]; cbn; [apply numbers_scalars, W|reflexivity|apply all_some_map, W]. }
      rewrite M. cbv iota beta.
      assert (A : forallb (fun x => Nat.eqb (length x) (length row)) rest = true).
      { apply forallb_forall. intros x Hx. rewrite (R x) by (right; exact Hx). rewrite (R row) by (left; reflexivity). apply Nat.eqb_refl. }
      rewrite A. rewrite LL, L, (R row) by (left; reflexivity). rewrite E. reflexivity.
    - rewrite E. reflexivity.
    - rewrite (all_some_map _ _ _ F), E. reflexivity.
  Qed.

  (** The outcome of a dispatch from the conversions. *)
  Lemma assign_order ps (args : list (pyval S)) kw kw' : Permutation kw kw' -> NoDup (map fst kw) ->
    assign_args ps args kw = assign_args ps args kw'.
  Proof.
    intros P N.
    assert (LK : forall k, lookup kw k = lookup kw' k).
    { clear ps args. induction P as [|[k1 v1] l l' P IH|[k1 v1] [k2 v2] l|l1 l2 l3 P1 IH1 P2 IH2]; intros k; cbn in *; [reflexivity| | |].
      - inversion N; subst. rewrite IH by assumption. reflexivity.
      - inversion N as [|? ? N1 N2]; subst. destruct (String.eqb_spec k1 k), (String.eqb_spec k2 k); try reflexivity. subst. cbn in N1. tauto.
      - rewrite IH1 by exact N. apply IH2. eapply Permutation_NoDup; [|exact N]. apply Permutation_map, P1. }
    assert (R : forall ps, assign_rest ps kw = assign_rest ps kw').
    { clear ps. induction ps as [|[k d] ps IH]; cbn; [reflexivity|]. rewrite LK, IH. reflexivity. }
    assert (FB : forall p : string * pyval S -> bool, forallb p kw = forallb p kw').
    { intros p. clear - P. induction P; cbn; try congruence. destruct (p x), (p y); reflexivity. }
    revert args. induction ps as [|[k d] ps IH]; intros [|a args]; cbn [assign_args].
    - rewrite FB, R. reflexivity.
    - reflexivity.
    - rewrite FB, R. reflexivity.
    - unfold given. rewrite LK, IH. reflexivity.
  Qed.
  Lemma keyword_order {A} (os : list (overload (S:=S) (res A))) args kw kw' : Permutation kw kw' -> NoDup (map fst kw) ->
    dispatch os args kw = dispatch os args kw'.
  Proof.
    intros P N. unfold dispatch.
    assert (E : forall b, first (try_call b args kw) os = first (try_call b args kw') os).
    { intros b. induction os as [|o os IH]; [reflexivity|]. cbn. unfold try_call at 1 3. rewrite (assign_order _ _ _ _ P N), IH. reflexivity. }
    rewrite !E. reflexivity.
  Qed.

  Context (c : cfg).
  Ltac passes := unfold py_new, py_constant, py_variable, py_variables, py_empty, py_zero, py_new_s, py_constant_s, py_variable_s, dispatch;
    cbn -[s_variable variables as_double as_index as_doubles as_vector as_matrix as_table constant_n create constant from_gradient from_arrays
          variable_n variable empty_n zero_n Z.eqb is_dynamic fixed].
  Ltac first_pass v N := destruct (as_double V false v) eqn:?E; [rewrite ?(number_first _ _ _ N E)|].
  Ltac by_order := unfold py_new; destruct (c_ord c =? 1); passes.

  Lemma new_default s : cv_float V 0 = Some s -> py_new O V c [] [] = constant O c s.
  Proof.
    intros H. assert (D : as_double V true (VInt 0) = Some s) by exact H. assert (E : as_double V false (VInt 0) = None) by reflexivity.
    by_order; rewrite ?E, ?D; reflexivity.
  Qed.
  Lemma new_constant v s : number V v s ->
    py_new O V c [v] [] = constant O c s /\ py_new O V c [] [("f", v)] = constant O c s.
  Proof.
    intros N. pose proof (number_double _ _ N) as D. destruct (number_shape _ _ N) as (Q & _).
    assert (A : forall n b, as_doubles V n b v = None) by (intros; unfold as_doubles; rewrite Q; reflexivity).
    split; by_order; rewrite ?A; first_pass v N; rewrite ?D; reflexivity.
  Qed.
  Lemma new_sized v s n : number V v s -> index_range n ->
    py_new O V c [v; VInt n] [] = constant_n O c s n /\
    py_new O V c [v] [("size", VInt n)] = constant_n O c s n /\
    py_new O V c [] [("f", v); ("size", VInt n)] = constant_n O c s n.
  Proof.
    intros N R. pose proof (number_double _ _ N) as D.
    assert (I : forall b, as_index V b (VInt n) = Some n) by (intros b; apply fits_range, R).
    repeat split; by_order; rewrite ?I; first_pass v N; rewrite ?D; reflexivity.
  Qed.
  Lemma new_size s n : cv_float V 0 = Some s -> index_range n -> py_new O V c [] [("size", VInt n)] = constant_n O c s n.
  Proof.
    intros H R. assert (D : as_double V true (VInt 0) = Some s) by exact H. assert (E : as_double V false (VInt 0) = None) by reflexivity.
    assert (I : forall b, as_index V b (VInt n) = Some n) by (intros b; apply fits_range, R).
    by_order; rewrite ?E, ?D, ?I; reflexivity.
  Qed.

  Lemma fits_fixed {A} n (l : list A) : fits_class c n l ->
    match fixed c n with Some m => length l = m | None => True end.
  Proof. unfold fits_class, fixed. destruct (is_dynamic c); [trivial|]. intros [F|<-]; [discriminate|]. rewrite Nat2Z.id. reflexivity. Qed.
  Lemma new_data v l : vector V v l -> fits_class c (StaticDataSize c) l ->
    py_new O V c [v] [] = create c (full l) /\ py_new O V c [] [("data", v)] = create c (full l).
  Proof.
    intros H F. destruct (vector_doubles v l _ H (fits_fixed _ _ F)) as (T & U).
    destruct (vector_first v l None H) as (D & _).
    split; by_order; rewrite ?D; destruct (as_doubles V _ false v) eqn:E; rewrite ?(U _ eq_refl), ?T; reflexivity.
  Qed.
  Lemma new_data_rejected v l : vector V v l -> is_dynamic c = false -> 0 <= StaticDataSize c -> Z.of_nat (length l) <> StaticDataSize c ->
    py_new O V c [] [("data", v)] = Throw TypeError /\
    (~ is_array v \/ length l <> 1%nat -> py_new O V c [v] [] = Throw TypeError).
  Proof.
    intros H F P L.
    assert (A : forall b, as_doubles V (fixed c (StaticDataSize c)) b v = None).
    { intros b. unfold fixed. rewrite F. apply (vector_wrong v l); [exact H|]. intros E. apply L. rewrite E. apply Z2Nat.id, P. }
    split.
    - by_order; rewrite ?A; reflexivity.
    - intros X. assert (D : forall b, as_double V b v = None).
      { intros b. destruct X as [X|X]; [apply (vector_not_double v l H X)|apply (vector_many v l b H X)]. }
      by_order; rewrite ?A, ?D; reflexivity.
  Qed.
  Lemma new_data_single e s : is_dynamic c = false -> 1 < StaticDataSize c -> vector V (VArr1 e) [s] ->
    py_new O V c [VArr1 e] [] = constant O c s.
  Proof.
    intros F P H.
    assert (A : forall b, as_doubles V (fixed c (StaticDataSize c)) b (VArr1 e) = None).
    { intros b. unfold fixed. rewrite F. apply (vector_wrong _ [s]); [exact H|]. cbn. lia. }
    assert (D : as_double V false (VArr1 e) = None) by reflexivity.
    assert (T : as_double V true (VArr1 e) = Some s).
    { inversion H as [|l E|zs l F2]; subst; [reflexivity|]. inversion F2 as [|z ? zs' ? E Z]; subst. inversion Z. subst. exact E. }
    by_order; rewrite ?A, ?D, ?T; reflexivity.
  Qed.

  Lemma new_gradient_kw v s g l : c_ord c = 1 -> number V v s -> vector V g l -> fits_class c (c_tsize c) l ->
    py_new O V c [v] [("g", g)] = from_gradient O c s (full l) /\
    py_new O V c [] [("f", v); ("g", g)] = from_gradient O c s (full l).
  Proof.
    intros E1 N H F. pose proof (number_double _ _ N) as D. destruct (vector_vector g l _ H (fits_fixed _ _ F)) as (T & U).
    assert (C : (c_ord c =? 1) = true) by (rewrite E1; reflexivity).
    split; passes; rewrite C; passes; first_pass v N; rewrite ?D;
      destruct (as_vector V _ false g) eqn:EV; rewrite ?(U _ eq_refl), ?T; reflexivity.
  Qed.
  Lemma new_gradient v s g l : c_ord c = 1 -> number V v s -> vector V g l -> fits_class c (c_tsize c) l ->
    ~ is_array g \/ length l <> 1%nat \/ (v = VFloat s /\ g = VArr1 (EF l)) ->
    py_new O V c [v; g] [] = from_gradient O c s (full l).
  Proof.
    intros E1 N H F X. pose proof (number_double _ _ N) as D. destruct (vector_vector g l _ H (fits_fixed _ _ F)) as (T & U).
    assert (C : (c_ord c =? 1) = true) by (rewrite E1; reflexivity).
    passes; rewrite C; passes. destruct (vector_first g l None H) as (_ & I & _). rewrite I.
    destruct X as [X|[X|(-> & ->)]].
    1, 2: assert (I' : as_index V true g = None) by (first [apply (vector_not_index g l true H X)|apply (vector_many g l true H X)]);
      rewrite I'; first_pass v N; rewrite ?D;
      destruct (as_vector V _ false g) eqn:EV; rewrite ?(U _ eq_refl), ?T; reflexivity.
    assert (T' : as_vector V (fixed c (c_tsize c)) false (VArr1 (EF l)) = Some l) by exact T.
    rewrite T'. reflexivity.
  Qed.
  Lemma new_gradient_single v s e g k : c_ord c = 1 -> number V v s -> vector V (VArr1 e) [g] ->
    ~ (v = VFloat s /\ e = EF [g]) -> single_int V e = Some k -> index_range k ->
    py_new O V c [v; VArr1 e] [] = constant_n O c s k.
  Proof.
    intros E1 N H X K R. pose proof (number_double _ _ N) as D.
    assert (C : (c_ord c =? 1) = true) by (rewrite E1; reflexivity).
    assert (I : as_index V true (VArr1 e) = Some k) by (cbn; rewrite K; apply fits_range, R).
    assert (I' : as_index V false (VArr1 e) = None) by reflexivity.
    passes; rewrite C; passes. rewrite I', I, D. first_pass v N; [|reflexivity].
    assert (v = VFloat s) as -> by (destruct N; cbn in E; congruence).
    destruct (vector_first _ _ (fixed c (c_tsize c)) H) as (_ & _ & [Z|Z]); [rewrite Z; reflexivity|].
    exfalso. apply X. split; [reflexivity|congruence].
  Qed.
  Lemma new_arrays v s g l h m n : c_ord c = 2 -> number V v s -> vector V g l -> table_of V n h m ->
    fits_class c (c_tsize c) l -> is_dynamic c = true \/ c_tsize c = Z.of_nat n ->
    let r := from_arrays O c s (full l) (mkmat (Z.of_nat n) (Z.of_nat n) (full m)) in
    py_new O V c [v; g; h] [] = r /\ py_new O V c [v; g] [("hm", h)] = r /\ py_new O V c [v] [("g", g); ("hm", h)] = r /\
    py_new O V c [] [("f", v); ("g", g); ("hm", h)] = r.
  Proof.
    intros E2 N H Q F G r. pose proof (number_double _ _ N) as D. destruct (vector_vector g l _ H (fits_fixed _ _ F)) as (T & _).
    pose proof (table_matrix c n h m Q G) as M.
    assert (M' : as_matrix V (fixed c (c_tsize c)) false h = None) by reflexivity.
    assert (C : (c_ord c =? 1) = false) by (rewrite E2; reflexivity).
    repeat split; passes; rewrite C; passes; rewrite M', D, T, M; destruct (as_double V false v), (as_vector V (fixed c (c_tsize c)) false g); reflexivity.
  Qed.
  (** Static functions: the number of arguments decides. *)
  Lemma static_constant v s n : number V v s -> index_range n ->
    py_constant O V c [v] [] = constant O c s /\ py_constant O V c [v; VInt n] [] = constant_n O c s n.
  Proof.
    intros N R. pose proof (number_double _ _ N) as D.
    assert (I : forall b, as_index V b (VInt n) = Some n) by (intros b; apply fits_range, R).
    split; passes; rewrite ?I; first_pass v N; rewrite ?D; reflexivity.
  Qed.
  Lemma static_sized n : index_range n ->
    py_empty O V c [] [] = Ok (empty O c) /\ py_empty O V c [VInt n] [] = empty_n O c n /\
    py_zero O V c [] [] = Ok (zero O c) /\ py_zero O V c [VInt n] [] = zero_n O c n.
  Proof.
    intros R. assert (I : forall b, as_index V b (VInt n) = Some n) by (intros b; apply fits_range, R).
    repeat split; passes; rewrite ?I; reflexivity.
  Qed.
  Lemma static_variable i v s n : index_range i -> number V v s -> index_range n ->
    py_variable O V c [VInt i; v; VInt n] [] = variable_n O c i s n /\
    py_variable O V c [VInt i; v] [] = (if is_dynamic c then Throw TypeError else variable O c i s).
  Proof.
    intros Ri N R. pose proof (number_double _ _ N) as D.
    assert (I : forall b, as_index V b (VInt n) = Some n) by (intros b; apply fits_range, R).
    assert (J : forall b, as_index V b (VInt i) = Some i) by (intros b; apply fits_range, Ri).
    split; passes; destruct (is_dynamic c); passes; rewrite ?I, ?J; first_pass v N; rewrite ?D; reflexivity.
  Qed.
  Lemma sparse_new v s s0 d ks ls : number V v s -> cv_float V 0 = Some s0 ->
    d = VDict ks -> Forall2 (fun '(k, x) '(k', y) => k = k' /\ number V x y) ks ls ->
    py_new_s O V [] [] = Ok (mks (o_Z O 0) []) /\
    py_new_s O V [v] [] = Ok (mks s []) /\ py_new_s O V [] [("f", v)] = Ok (mks s []) /\
    py_new_s O V [v; d] [] = Ok (mks s ls) /\ py_new_s O V [] [("f", v); ("d", d)] = Ok (mks s ls) /\
    py_new_s O V [] [("d", d)] = Ok (mks s0 ls).
  Proof.
    intros N H0 -> F. pose proof (number_double _ _ N) as D. assert (D0 : as_double V true (VInt 0) = Some s0) by exact H0.
    assert (E0 : as_double V false (VInt 0) = None) by reflexivity.
    assert (KS : map fst ks = map fst ls).
    { clear - F. induction F as [|[k x] [k' y] ks ls (-> & _) _ IH]; [reflexivity|]. cbn. rewrite IH. reflexivity. }
    assert (CB : combine (map fst ls) (map snd ls) = ls).
    { clear. induction ls as [|[k x] ls IH]; [reflexivity|]. cbn. rewrite IH. reflexivity. }
    assert (T : as_table V true (VDict ks) = Some ls).
    { unfold as_table.
      assert (M : all_some (map (fun '(_, x) => as_double V true x) ks) = Some (map snd ls)).
      { clear - F. induction F as [|[k x] [k' y] ks ls (_ & X) _ IH]; [reflexivity|].
        cbn -[as_double]. rewrite (number_double _ _ X), IH. reflexivity. }
      rewrite M, KS, CB. reflexivity. }
    assert (T' : forall l, as_table V false (VDict ks) = Some l -> l = ls).
    { intros l. unfold as_table.
      destruct (all_some (map (fun '(_, x) => as_double V false x) ks)) as [xs|] eqn:M; [|discriminate].
      assert (xs = map snd ls).
      { clear - F M. revert xs M. induction F as [|[k x] [k' y] ks ls (_ & X) _ IH]; cbn -[as_double]; intros xs M; [congruence|].
        destruct (as_double V false x) eqn:E; [|discriminate]. destruct (all_some _); [|discriminate]. injection M as <-.
        rewrite (number_first _ _ _ X E), (IH _ eq_refl). reflexivity. }
      subst. intros E. injection E as <-. rewrite KS. exact CB. }
    repeat split; passes; rewrite ?E0, ?D0; try (first_pass v N); rewrite ?D, ?T; try reflexivity;
      destruct (as_table V false (VDict ks)) eqn:ET; rewrite ?(T' _ eq_refl), ?T; reflexivity.
  Qed.

  (** Names of the parameters. *)
  Lemma static_keywords i v s n : index_range i -> number V v s -> index_range n ->
    py_constant O V c [] [("f", v)] = constant O c s /\
    py_constant O V c [v] [("size", VInt n)] = constant_n O c s n /\ py_constant O V c [] [("f", v); ("size", VInt n)] = constant_n O c s n /\
    py_empty O V c [] [("size", VInt n)] = empty_n O c n /\ py_zero O V c [] [("size", VInt n)] = zero_n O c n /\
    py_variable O V c [] [("i", VInt i); ("f", v); ("size", VInt n)] = variable_n O c i s n /\
    py_variable O V c [VInt i; v] [("size", VInt n)] = variable_n O c i s n /\
    py_variable O V c [VInt i] [("f", v); ("size", VInt n)] = variable_n O c i s n /\
    py_variable O V c [] [("i", VInt i); ("f", v)] = (if is_dynamic c then Throw TypeError else variable O c i s).
  Proof.
    intros Ri N R. pose proof (number_double _ _ N) as D.
    assert (I : forall b, as_index V b (VInt n) = Some n) by (intros b; apply fits_range, R).
    assert (J : forall b, as_index V b (VInt i) = Some i) by (intros b; apply fits_range, Ri).
    repeat split; passes; try destruct (is_dynamic c); passes; rewrite ?I, ?J; try reflexivity; first_pass v N; rewrite ?D; reflexivity.
  Qed.
  Lemma variables_call v l : vector V v l -> fits_class c (c_tsize c) l ->
    py_variables O V c [v] [] = variables O c l /\ py_variables O V c [] [("values", v)] = variables O c l.
  Proof.
    intros H F. destruct (vector_doubles v l _ H (fits_fixed _ _ F)) as (T & U).
    split; passes; destruct (as_doubles V _ false v) eqn:E; rewrite ?(U _ eq_refl), ?T; reflexivity.
  Qed.
  Lemma variables_rejected v l : vector V v l -> is_dynamic c = false -> 0 <= c_tsize c -> Z.of_nat (length l) <> c_tsize c ->
    py_variables O V c [v] [] = Throw TypeError /\ py_variables O V c [] [("values", v)] = Throw TypeError.
  Proof.
    intros H F P L.
    assert (A : forall b, as_doubles V (fixed c (c_tsize c)) b v = None).
    { intros b. unfold fixed. rewrite F. apply (vector_wrong v l); [exact H|]. intros E. apply L. rewrite E. apply Z2Nat.id, P. }
    split; passes; rewrite !A; reflexivity.
  Qed.
  Lemma sparse_static v s k : number V v s ->
    py_constant_s V [v] [] = Ok (mks s []) /\ py_constant_s V [] [("value", v)] = Ok (mks s []) /\
    py_variable_s O V [VStr k; v] [] = Ok (mks s [(k, o_Z O 1)]) /\ py_variable_s O V [VStr k] [("value", v)] = Ok (mks s [(k, o_Z O 1)]) /\
    py_variable_s O V [] [("name", VStr k); ("value", v)] = Ok (mks s [(k, o_Z O 1)]).
  Proof.
    intros N. pose proof (number_double _ _ N) as D. repeat split; passes; first_pass v N; rewrite ?D; reflexivity.
  Qed.

  (** What is rejected. *)
  Ltac any_conversion := repeat match goal with
    | |- context [as_double V ?b ?v] => destruct (as_double V b v) | |- context [as_index V ?b ?v] => destruct (as_index V b v)
    | |- context [as_vector V ?n ?b ?v] => destruct (as_vector V n b v) | |- context [as_doubles V ?n ?b ?v] => destruct (as_doubles V n b v)
    | |- context [as_matrix V ?n ?b ?v] => destruct (as_matrix V n b v) | |- context [as_table V ?b ?v] => destruct (as_table V b v)
    | |- context [as_name ?v] => destruct (as_name v) end.
  Lemma no_number_double v b : no_number v -> as_double V b v = None.
  Proof. destruct v; cbn; tauto. Qed.
  Lemma no_index_index v b : no_index v -> as_index V b v = None.
  Proof. intros [H|(s & ->)]; [destruct v; cbn in *; tauto|reflexivity]. Qed.
  Lemma no_number_vector v b n : no_number v -> as_ndarray V v = None -> as_vector V n b v = None.
  Proof. intros H E. unfold as_vector. rewrite E. match goal with |- (if ?x then _ else _) = _ => destruct x; reflexivity end. Qed.
  Lemma sizes_rejected v w s : number V v s -> no_index w ->
    py_constant O V c [v; w] [] = Throw TypeError /\ py_constant O V c [v] [("size", w)] = Throw TypeError /\
    py_empty O V c [w] [] = Throw TypeError /\ py_zero O V c [w] [] = Throw TypeError /\
    py_new O V c [v] [("size", w)] = Throw TypeError /\ py_new O V c [] [("size", w)] = Throw TypeError /\
    (forall i, py_variable O V c [i; v; w] [] = Throw TypeError) /\ (forall n, py_variable O V c [w; v; n] [] = Throw TypeError) /\
    py_variable O V c [w; v] [] = Throw TypeError.
  Proof.
    intros N W. assert (I : forall b, as_index V b w = None) by (intros b; apply no_index_index, W).
    repeat split; intros; try by_order; passes; try destruct (is_dynamic c); passes; rewrite ?I;
      any_conversion; reflexivity.
  Qed.
  Lemma values_rejected w : no_number w ->
    (forall n, py_constant O V c [w; n] [] = Throw TypeError) /\ py_constant O V c [w] [] = Throw TypeError /\
    py_constant O V c [] [] = Throw TypeError /\ (forall n, py_constant O V c [] [("size", n)] = Throw TypeError) /\
    (forall i n, py_variable O V c [i; w; n] [] = Throw TypeError) /\ (forall i, py_variable O V c [i; w] [] = Throw TypeError) /\
    (forall n, py_new O V c [w; n] [] = Throw TypeError) /\ (forall n, py_new O V c [w] [("size", n)] = Throw TypeError) /\
    (forall g h, py_new O V c [w; g; h] [] = Throw TypeError) /\
    py_constant_s V [w] [] = Throw TypeError /\ (forall k, py_variable_s O V [k; w] [] = Throw TypeError) /\
    (forall d, py_new_s O V [w; d] [] = Throw TypeError) /\ py_new_s O V [w] [] = Throw TypeError.
  Proof.
    intros W. assert (D : forall b, as_double V b w = None) by (intros b; apply no_number_double, W).
    repeat split; intros; try by_order; passes; try destruct (is_dynamic c); passes; rewrite ?D;
      any_conversion; reflexivity.
  Qed.
  Lemma float_no_size v s s' : c_ord c = 2 \/ c_ord c = 1 -> number V v s -> py_new O V c [v; VFloat s'] [] = Throw TypeError.
  Proof.
    intros _ N. assert (I : forall b, as_index V b (VFloat s') = None) by reflexivity.
    assert (T : forall n b, as_vector V n b (VFloat s') = None) by (intros n []; reflexivity).
    by_order; rewrite ?I, ?T; destruct (as_double V false v), (as_double V true v); reflexivity.
  Qed.

  (** Arrays with two dimensions. *)
  Lemma elems_ef e l : elems V e l -> elems_float V e = Some l.
  Proof. inversion 1 as [|m E|zs m F]; subst; [reflexivity|]. cbn. apply all_some_map, F. Qed.
  Lemma elems_single e l b : elems V e l -> length l <> 1%nat -> as_index V b (VArr1 e) = None /\ as_double V b (VArr1 e) = None.
  Proof. intros H L. destruct (vector_many (VArr1 e) l b H L). auto. Qed.
  Lemma column_chunks {A} (l : list A) : chunks (length l) 1 l = map (fun a => [a]) l.
  Proof. induction l as [|a l IH]; [reflexivity|]. cbn. rewrite IH. reflexivity. Qed.
  Lemma column_doubles e l n : elems V e l -> match n with Some n => length l = n | None => True end ->
    as_doubles V n true (VArr2 (length l) 1 e) = Some l /\ forall m, as_doubles V n false (VArr2 (length l) 1 e) = Some m -> m = l.
  Proof.
    intros H Hn.
    assert (Q : exists ws, as_sequence (VArr2 (length l) 1 e) = Some ws /\ length ws = length l /\ all_some (map (as_double V true) ws) = Some l /\
      forall m, all_some (map (as_double V false) ws) = Some m -> m = l).
    { inversion H as [|m E|zs m F]; subst.
      - cbn [as_sequence]. rewrite column_chunks. eexists. split; [reflexivity|]. rewrite !map_length. split; [reflexivity|].
        rewrite !map_map. cbn. split; [apply all_some_id|]. destruct l; cbn; [congruence|discriminate].
      - cbn [as_sequence]. rewrite <- (Forall2_length _ _ _ F). rewrite column_chunks. eexists. split; [reflexivity|]. rewrite !map_length.
        split; [reflexivity|]. rewrite !map_map. cbn. split; [apply all_some_map, F|]. destruct F; cbn; [congruence|discriminate]. }
    destruct Q as (ws & E & L & T & U). unfold as_doubles. rewrite E, L.
    destruct n as [n|]; [rewrite Hn, Nat.eqb_refl|]; auto.
  Qed.
  Lemma new_column e l : elems V e l -> fits_class c (StaticDataSize c) l ->
    py_new O V c [VArr2 (length l) 1 e] [] = create c (full l) /\ py_new O V c [] [("data", VArr2 (length l) 1 e)] = create c (full l).
  Proof.
    intros H F. destruct (column_doubles e l _ H (fits_fixed _ _ F)) as (T & U).
    assert (D : as_double V false (VArr2 (length l) 1 e) = None) by reflexivity.
    split; by_order; rewrite ?D; destruct (as_doubles V _ false _) eqn:E; rewrite ?(U _ eq_refl), ?T; reflexivity.
  Qed.
  Lemma wide_doubles e r k n b : (1 < k)%nat -> (0 < r)%nat -> (forall l, e = EF l -> length l = (r * k)%nat) -> (forall l, e = EI l -> length l = (r * k)%nat) ->
    as_doubles V n b (VArr2 r k e) = None.
  Proof.
    intros K R L1 L2.
    assert (Q : exists w ws, as_sequence (VArr2 r k e) = Some (w :: ws) /\ as_double V b w = None).
    { destruct r as [|r]; [lia|]. destruct e as [l|l]; [specialize (L1 l eq_refl)|specialize (L2 l eq_refl)]; cbn [as_sequence chunks map];
        eexists _, _; (split; [reflexivity|]); destruct b; try reflexivity; cbn;
        destruct k as [|[|k]]; try lia; destruct l as [|? [|? ?]]; cbn in *; try lia; reflexivity. }
    destruct Q as (w & ws & E & D). unfold as_doubles. rewrite E. cbn [map all_some]. rewrite D.
    match goal with |- (if ?x then _ else _) = _ => destruct x; reflexivity end.
  Qed.
  Lemma many_double e l r k b : elems V e l -> length l <> 1%nat -> as_double V b (VArr2 r k e) = None /\ as_index V b (VArr2 r k e) = None.
  Proof. intros H L. destruct (vector_many (VArr1 e) l b H L). auto. Qed.
  Lemma new_wide e l r k : elems V e l -> length l = (r * k)%nat -> (1 < k)%nat -> (0 < r)%nat ->
    py_new O V c [VArr2 r k e] [] = Throw TypeError /\ py_new O V c [] [("data", VArr2 r k e)] = Throw TypeError /\
    py_variables O V c [VArr2 r k e] [] = Throw TypeError.
  Proof.
    intros H L K R.
    assert (N : length l <> 1%nat) by (rewrite L; destruct r as [|[|r]], k as [|[|k]]; cbn; lia).
    assert (A : forall n b, as_doubles V n b (VArr2 r k e) = None).
    { intros n b. apply wide_doubles; [exact K|exact R| |]; intros m ->; inversion H; subst; [congruence|].
      match goal with F : Forall2 _ _ _ |- _ => rewrite (Forall2_length _ _ _ F) end. exact L. }
    assert (D : forall b, as_double V b (VArr2 r k e) = None) by (intros b; apply (many_double e l r k b H N)).
    repeat split; try by_order; passes; rewrite ?A, ?D; reflexivity.
  Qed.
  Lemma row_vector e l n b : elems V e l -> match n with Some n => length l = n | None => True end ->
    as_vector V n true (VArr2 1 (length l) e) = Some l /\ (forall m, as_vector V n b (VArr2 1 (length l) e) = Some m -> m = l).
  Proof.
    intros H Hn. unfold as_vector, as_ndarray. rewrite (elems_ef _ _ H). cbn [orb].
    assert (match n with Some n => Nat.eqb (length l) n | None => true end = true) as E.
    { destruct n; [rewrite Hn; apply Nat.eqb_refl|reflexivity]. }
    rewrite E. split; [reflexivity|]. intros m. match goal with |- (if ?b then _ else _) = _ -> _ => destruct b end; congruence.
  Qed.
  Lemma new_gradient_row v s e l : c_ord c = 1 -> number V v s -> elems V e l -> length l <> 1%nat -> fits_class c (c_tsize c) l ->
    py_new O V c [v; VArr2 1 (length l) e] [] = from_gradient O c s (full l).
  Proof.
    intros E1 N H L F. pose proof (number_double _ _ N) as D. destruct (row_vector e l _ false H (fits_fixed _ _ F)) as (T & U).
    assert (C : (c_ord c =? 1) = true) by (rewrite E1; reflexivity).
    assert (I : forall b, as_index V b (VArr2 1 (length l) e) = None) by (intros b; apply (many_double e l _ _ b H L)).
    passes; rewrite C; passes. rewrite !I. first_pass v N; rewrite ?D; destruct (as_vector V _ false _) eqn:EV; rewrite ?(U _ eq_refl), ?T; reflexivity.
  Qed.
  Lemma new_gradient_table v s e l r k : c_ord c = 1 -> number V v s -> elems V e l -> length l <> 1%nat -> r <> 1%nat ->
    py_new O V c [v; VArr2 r k e] [] = Throw TypeError.
  Proof.
    intros E1 N H L R. assert (C : (c_ord c =? 1) = true) by (rewrite E1; reflexivity).
    assert (I : forall b, as_index V b (VArr2 r k e) = None) by (intros b; apply (many_double e l _ _ b H L)).
    assert (A : forall n b, as_vector V n b (VArr2 r k e) = None).
    { intros n b. unfold as_vector, as_ndarray. rewrite (elems_ef _ _ H). destruct (_ || _); [|reflexivity]. destruct r as [|[|r]]; [reflexivity|lia|reflexivity]. }
    passes; rewrite C; passes. rewrite !I, !A. destruct (as_double V false v), (as_double V true v); reflexivity.
  Qed.
  Lemma new_hessian_vector v s g l h m : c_ord c = 2 -> number V v s -> vector V g l -> vector V h m -> fits_class c (c_tsize c) l ->
    is_dynamic c = true ->
    py_new O V c [v; g; h] [] = from_arrays O c s (full l) (mkmat (Z.of_nat (length m)) 1 (full m)).
  Proof.
    intros E2 N H Q F G. pose proof (number_double _ _ N) as D. destruct (vector_vector g l _ H (fits_fixed _ _ F)) as (T & _).
    assert (M : as_matrix V (fixed c (c_tsize c)) true h = Some (mkmat (Z.of_nat (length m)) 1 (full m))).
    { unfold as_matrix, fixed. rewrite (vector_ndarray _ _ Q), G. reflexivity. }
    assert (M' : as_matrix V (fixed c (c_tsize c)) false h = None) by reflexivity.
    assert (C : (c_ord c =? 1) = false) by (rewrite E2; reflexivity).
    passes; rewrite C; passes; rewrite M', D, T, M; destruct (as_double V false v), (as_vector V (fixed c (c_tsize c)) false g); reflexivity.
  Qed.

  (** Keywords nobody knows, too many arguments. *)
  Lemma unknown_keyword {A} (os : list (overload (S:=S) (res A))) args kw k : In k (map fst kw) ->
    (forall o, In o os -> ~ In k (map fst (ov_params o))) -> dispatch os args kw = Throw TypeError.
  Proof.
    intros K H.
    assert (T : forall b o, In o os -> try_call b args kw o = None).
    { intros b o Ho. unfold try_call. specialize (H o Ho). revert H. generalize (ov_params o). intros ps Hps.
      assert (E : assign_args ps args kw = None); [|rewrite E; reflexivity].
      revert args. induction ps as [|[p d] ps IH]; intros [|a args]; cbn [assign_args]; try reflexivity.
      1, 2: match goal with |- (if ?b then _ else _) = _ => destruct b eqn:E; [|reflexivity] end;
        exfalso; rewrite forallb_forall in E; apply in_map_iff in K; destruct K as ([k' v] & K1 & K2); cbn in K1; subst k';
        specialize (E _ K2); cbn in E; try discriminate E.
      { apply orb_true_iff in E; destruct E as [E|E].
        - apply String.eqb_eq in E; subst. apply Hps. left. reflexivity.
        - apply existsb_exists in E. destruct E as ([q ?] & Q1 & Q2). apply String.eqb_eq in Q2. subst.
          apply Hps. right. apply in_map_iff. eexists. split; [|exact Q1]. reflexivity. }
      destruct (given kw p); [reflexivity|]. rewrite IH; [reflexivity|]. intros I. apply Hps. right. exact I. }
    unfold dispatch.
    assert (F : forall b, first (try_call b args kw) os = None).
    { intros b. clear H. induction os as [|o os IH]; [reflexivity|]. cbn. rewrite T by (left; reflexivity). apply IH. intros b' o' Ho. apply T. right. exact Ho. }
    rewrite !F. reflexivity.
  Qed.
  Lemma new_unknown args kw k : In k (map fst kw) -> ~ In k ["f"; "size"; "data"; "g"; "hm"] ->
    py_new O V c args kw = Throw TypeError.
  Proof.
    intros K H. unfold py_new. apply (unknown_keyword _ _ _ k K). intros o Ho I. apply H. clear - Ho I.
    destruct (c_ord c =? 1); cbn in Ho; repeat destruct Ho as [<-|Ho]; try contradiction; cbn in *; tauto.
  Qed.

  (** What the results show. *)
  Lemma gradient_shown v s g l : c_ord c = 1 -> number V v s -> vector V g l -> size_ok c (length l) ->
    exists r, py_new O V c [v] [("g", g)] = Ok r /\ py_new O V c [] [("f", v); ("g", g)] = Ok r /\
      shows c (length l) r s (fun i => nth i l s) (fun _ _ => s).
  Proof.
    intros E1 N H SO.
    assert (F : fits_class c (c_tsize c) l).
    { unfold fits_class. destruct (is_dynamic c) eqn:D; [left; reflexivity|right]. destruct SO as (A & _). symmetry. apply A, D. }
    destruct (new_gradient_kw v s g l E1 N H F) as (A & B). rewrite A, B.
    destruct (from_gradient_rep O c s l s E1 SO) as (r & E & R). exists r. rewrite E. repeat split; try reflexivity; apply (rep_shows _ _ _ _ R).
  Qed.
  Lemma arrays_shown v s g l h m : c_ord c = 2 -> number V v s -> vector V g l -> table_of V (length l) h m ->
    length m = (length l * length l)%nat -> size_ok c (length l) ->
    exists r, py_new O V c [v; g; h] [] = Ok r /\ py_new O V c [] [("f", v); ("g", g); ("hm", h)] = Ok r /\
      shows c (length l) r s (fun i => nth i l s) (fun i j => nth (Nat.min i j * length l + Nat.max i j) m s).
  Proof.
    intros E2 N H Q L SO.
    assert (F : fits_class c (c_tsize c) l).
    { unfold fits_class. destruct (is_dynamic c) eqn:D; [left; reflexivity|right]. destruct SO as (A & _). symmetry. apply A, D. }
    assert (G : is_dynamic c = true \/ c_tsize c = Z.of_nat (length l)) by (destruct F as [F|F]; [left|right; symmetry]; exact F).
    destruct (new_arrays v s g l h m (length l) E2 N H Q F G) as (A & _ & _ & B). cbv zeta in *. rewrite A, B.
    set (n := length l) in *.
    assert (SQ : square n (mkmat (Z.of_nat n) (Z.of_nat n) (full m))).
    { repeat split; cbn [rows cols cells]; [rewrite full_length; exact L|].
      intros k Hk. destruct (nth_error m k) as [x|] eqn:E; [exists x; apply nth_error_full, E|]. apply nth_error_None in E. lia. }
    destruct (from_arrays_rep O c s l (mkmat (Z.of_nat n) (Z.of_nat n) (full m)) (fun i j => nth (i * n + j) m s) s ltac:(lia) SO) as (r & E & R).
    { fold n. destruct SQ as (S1 & S2 & S3 & _). split; [exact S1|]. split; [exact S2|]. split; [exact S3|].
      intros i j Hi Hj. cbn [cells]. apply nth_error_full, nth_error_nth'. rewrite L. apply flat_lt; assumption. }
    exists r. rewrite E. repeat split; try reflexivity; try apply (rep_shows _ _ _ _ R).
  Qed.
End New.

(** Integers as scalars. *)
Definition Zconv : pyconv Z := {| cv_float := @Some Z; cv_int := @Some Z |}.
Lemma data_rejected_false : ~ (forall (S : Type) (O : Ops S) (V : pyconv S) (c : cfg) (v : pyval S) (l : list S),
  vector V v l -> is_dynamic c = false -> 0 <= StaticDataSize c -> Z.of_nat (length l) <> StaticDataSize c ->
  py_new O V c [v] [] = Throw TypeError).
Proof.
  intros H. specialize (H Z Zops Zconv (sta1 2) (VArr1 (EF [5])) [5] (vec_floats _ _) eq_refl).
  assert (X : py_new Zops Zconv (sta1 2) [VArr1 (EF [5])] [] = Throw TypeError) by (apply H; cbn; lia).
  vm_compute in X. discriminate.
Qed.
Lemma gradient_false : ~ (forall (S : Type) (O : Ops S) (V : pyconv S) (c : cfg) (v : pyval S) (s : S) (g : pyval S) (l : list S),
  c_ord c = 1 -> number V v s -> vector V g l -> fits_class c (c_tsize c) l ->
  py_new O V c [v; g] [] = from_gradient O c s (full l)).
Proof.
  intros H. specialize (H Z Zops Zconv dyn1 (VInt 2) 2 (VArr1 (EF [3])) [3] eq_refl (num_int Zconv 2 2 eq_refl) (vec_floats _ _)).
  assert (X : py_new Zops Zconv dyn1 [VInt 2; VArr1 (EF [3])] [] = from_gradient Zops dyn1 2 (full [3])) by (apply H; left; reflexivity).
  vm_compute in X. discriminate.
Qed.
