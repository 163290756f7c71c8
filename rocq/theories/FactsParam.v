(** The model uses the scalar type only through [Ops]: related operations give related results. *)
From Coq Require Import ZArith List Bool String Lia.
From Verif Require Import Outcome Scalar Model ModelBuf ModelObj Spec ExprSpec ProgSpec ParamSpec.
Import ListNotations.
Open Scope Z_scope.

Lemma Forall2_length {X Y} (Q : X -> Y -> Prop) l l' : Forall2 Q l l' -> List.length l = List.length l'.
Proof. induction 1; cbn; congruence. Qed.

Section Par.
  Context {S T : Type} (P : S -> T -> Prop) (O : Ops S) (O' : Ops T) (c : cfg).
  Hypothesis A : arith_rel P O O'.

  Definition pair_rel {X Y X' Y'} (Q : X -> X' -> Prop) (Q' : Y -> Y' -> Prop) (p : X * Y) (q : X' * Y') : Prop :=
    Q (fst p) (fst q) /\ Q' (snd p) (snd q).
  Definition coef_rel (k : coef S) (k' : coef T) : Prop :=
    match k, k' with CZero, CZero | COne, COne | CMinusOne, CMinusOne => True | CVal a, CVal b => P a b | _, _ => False end.
  Definition val_rel (v : val S) (v' : val T) : Prop :=
    match v, v' with VZero, VZero => True | V a, V b => P a b | _, _ => False end.
  Definition ref_rel (a : ref S) (b : ref T) : Prop :=
    match a, b with None, None => True | Some d, Some d' => data_rel P d d' | _, _ => False end.

  Lemma bind_par {X Y X' Y'} (Q : X -> X' -> Prop) (Q' : Y -> Y' -> Prop) m m' (k : X -> res Y) (k' : X' -> res Y') :
    res_rel Q m m' -> (forall a b, Q a b -> res_rel Q' (k a) (k' b)) -> res_rel Q' (bind m k) (bind m' k').
  Proof. destruct m, m'; cbn; auto; contradiction. Qed.
  Lemma refl_par {X} (m : res X) : res_rel eq m m. Proof. destruct m; cbn; auto. Qed.
  Lemma loop_par {X Y} (Q : X -> Y -> Prop) n : forall i (f : Z -> X -> res X) (g : Z -> Y -> res Y) s s',
    (forall i a b, Q a b -> res_rel Q (f i a) (g i b)) -> Q s s' -> res_rel Q (loop n i f s) (loop n i g s').
  Proof.
    induction n; intros; cbn [loop]; [assumption|]. eapply bind_par; [apply H, H0|]. intros. apply IHn; assumption.
  Qed.
  Lemma for_par {X Y} (Q : X -> Y -> Prop) lo hi (f : Z -> X -> res X) (g : Z -> Y -> res Y) s s' :
    (forall i a b, Q a b -> res_rel Q (f i a) (g i b)) -> Q s s' -> res_rel Q (for_ lo hi f s) (for_ lo hi g s').
  Proof. apply loop_par. Qed.
  Lemma if_par {X Y} (Q : X -> Y -> Prop) (b : bool) m1 m2 m1' m2' :
    res_rel Q m1 m1' -> res_rel Q m2 m2' -> res_rel Q (if b then m1 else m2) (if b then m1' else m2').
  Proof. destruct b; auto. Qed.

  Lemma rel_len (d : data S) (d' : data T) : data_rel P d d' -> len d' = len d.
  Proof. intros H. unfold len. rewrite (Forall2_length _ _ _ H). reflexivity. Qed.
  Lemma nth_par (d : data S) (d' : data T) i : data_rel P d d' ->
    match nth_error d i, nth_error d' i with Some a, Some b => cell_rel P a b | None, None => True | _, _ => False end.
  Proof. intros H. revert i. induction H; intros [|i]; cbn; auto. apply IHForall2. Qed.
  Lemma rd_par (d : data S) (d' : data T) i : data_rel P d d' -> res_rel P (rd d i) (rd d' i).
  Proof.
    intros H. unfold rd. destruct (i <? 0); [exact I|]. generalize (nth_par d d' (Z.to_nat i) H).
    destruct (nth_error d _) as [[x|]|], (nth_error d' _) as [[y|]|]; cbn; auto; contradiction.
  Qed.
  Lemma upd_par (d : data S) (d' : data T) i v v' : data_rel P d d' -> P v v' -> data_rel P (upd d i v) (upd d' i v').
  Proof.
    intros H Hv. revert i. induction H; intros [|i]; cbn; constructor; auto. apply IHForall2.
  Qed.
  Lemma wr_par (d : data S) (d' : data T) i v v' : data_rel P d d' -> P v v' -> res_rel (data_rel P) (wr d i v) (wr d' i v').
  Proof.
    intros H Hv. unfold wr. generalize (rel_len d d' H). unfold len. intros ->. destruct (_ || _); [exact I|]. apply upd_par; assumption.
  Qed.
  Lemma repeat_par a b n : cell_rel P a b -> data_rel P (repeat a n) (repeat b n).
  Proof. intros H. induction n; cbn; constructor; auto. Qed.
  Lemma full_par vs vs' : Forall2 P vs vs' -> data_rel P (full vs) (full vs').
  Proof. induction 1; cbn; constructor; auto. Qed.
  Lemma deref_par a b r r' : ref_rel a b -> data_rel P r r' -> data_rel P (deref a r) (deref b r').
  Proof. destruct a, b; cbn; intros; try contradiction; assumption. Qed.
  Lemma cmul_par k k' x x' : coef_rel k k' -> P x x' -> val_rel (cmul O k x) (cmul O' k' x').
  Proof. destruct k, k'; cbn; intros; try contradiction; auto; apply A; auto. Qed.
  Lemma vadd_par a a' b b' : val_rel a a' -> val_rel b b' -> val_rel (vadd O a b) (vadd O' a' b').
  Proof. destruct a, a', b, b'; cbn; intros; try contradiction; auto; apply A; auto. Qed.
  Lemma vmul_par a a' x x' : val_rel a a' -> P x x' -> val_rel (vmul O a x) (vmul O' a' x').
  Proof. destruct a, a'; cbn; intros; try contradiction; auto; apply A; auto. Qed.
  Lemma vacc_par x x' v v' : P x x' -> val_rel v v' -> P (vacc O x v) (vacc O' x' v').
  Proof. destruct v, v'; cbn; intros; try contradiction; auto; apply A; auto. Qed.
  Lemma vset_par v v' : val_rel v v' -> P (vset O v) (vset O' v').
  Proof. destruct v, v'; cbn; intros; try contradiction; auto; apply A; auto. Qed.
  Lemma is_zero_par k k' : coef_rel k k' -> is_zero k' = is_zero k.
  Proof. destruct k, k'; cbn; intros; try contradiction; auto. Qed.

  Ltac relof X :=
    lazymatch X with
    | S => P
    | data S => constr:(data_rel P)
    | dd S => constr:(num_rel P)
    | mat S => constr:(mat_rel P)
    | prod ?X ?Y => let q := relof X in let q' := relof Y in constr:(pair_rel q q')
    | list ?X => let q := relof X in constr:(Forall2 q)
    | ?X => constr:(@eq X)
    end.
  Ltac flat := repeat match goal with
    | H : pair_rel _ _ ?p ?q |- _ => destruct p, q, H as [? ?]; cbn [fst snd] in *
    | H : @eq Z ?x ?y |- _ => first [subst x | subst y]
    | H : @eq unit ?x ?y |- _ => clear H
    | H : num_rel P ?x ?y |- _ =>
        is_var x; is_var y; let z := fresh "z" in let d := fresh "q" in let z' := fresh "z" in let d' := fresh "q" in
        destruct x as [z d], y as [z' d'], H as [? ?]; cbn [m_size m_data] in *
    | H : mat_rel P ?x ?y |- _ =>
        is_var x; is_var y; let r := fresh "r" in let k := fresh "k" in let d := fresh "q" in let r' := fresh "r" in let k' := fresh "k" in let d' := fresh "q" in
        destruct x as [r k d], y as [r' k' d'], H as [? [? ?]]; cbn [rows cols cells] in *
    end.
  Ltac eqs := repeat match goal with
    | H : data_rel P ?d ?d' |- context [len ?d'] => rewrite (rel_len d d' H)
    | H : Forall2 P ?d ?d' |- context [List.length ?d'] => rewrite <- (Forall2_length _ _ _ H)
    | H : coef_rel ?k ?k' |- context [is_zero ?k'] => rewrite (is_zero_par k k' H)
    end.
  Lemma cell_some a b : P a b -> cell_rel P (Some a) (Some b). Proof. exact id. Qed.
  Lemma cell_none : cell_rel P None None. Proof. exact I. Qed.
  Hint Resolve cell_some cell_none : par.
  Hint Resolve deref_par cmul_par vadd_par vmul_par vacc_par vset_par full_par repeat_par : par.
  Hint Extern 2 (P _ _) => apply A : par.
  Ltac side := solve [auto 15 with par | repeat split; auto 15 with par | constructor; auto 15 with par].
  Ltac par := cbv zeta; flat; eqs;
    first
    [ lazymatch goal with
      | |- res_rel _ (bind ?m _) (bind ?m' _) =>
          let X := lazymatch type of m with res ?X => X end in
          let q := relof X in
          apply (bind_par q); [par | intros; par]
      | |- res_rel ?q (for_ _ _ _ _) (for_ _ _ _ _) => apply for_par; [intros; par | side]
      | |- res_rel ?q (Ok _) (Ok _) => cbn [res_rel]; side
      | |- res_rel ?q (rd _ _) (rd _ _) => apply rd_par; side
      | |- res_rel ?q (wr _ _ _) (wr _ _ _) => apply wr_par; side
      | |- res_rel _ (if _ then _ else _) (if _ then _ else _) => apply if_par; par
      | |- res_rel _ ?m ?m => apply refl_par
      | |- res_rel _ UB UB => exact I
      | |- res_rel _ (Throw _) (Throw _) => exact eq_refl
      end
    | solve [auto 15 with par] ].

  Lemma unary_par inc x x' a a' f f' da da' daa daa' r r' :
    num_rel P x x' -> ref_rel a a' -> P f f' -> coef_rel da da' -> coef_rel daa daa' -> data_rel P r r' ->
    res_rel (data_rel P) (unary O c inc x a f da daa r) (unary O' c inc x' a' f' da' daa' r').
  Proof. intros. unfold unary, data_length, size. flat. par. Qed.
  Lemma binary_par inc x x' a a' b b' f f' da da' db db' daa daa' dab dab' dbb dbb' r r' :
    num_rel P x x' -> ref_rel a a' -> ref_rel b b' -> P f f' -> coef_rel da da' -> coef_rel db db' -> coef_rel daa daa' ->
    coef_rel dab dab' -> coef_rel dbb dbb' -> data_rel P r r' ->
    res_rel (data_rel P) (binary O c inc x a b f da db daa dab dbb r) (binary O' c inc x' a' b' f' da' db' daa' dab' dbb' r').
  Proof. intros. unfold binary, data_length, size. flat. par. Qed.
  Lemma ternary_par inc x x' a a' b b' d d' f f' da da' db db' dc dc' daa daa' dab dab' dac dac' dbb dbb' dbc dbc' dcc dcc' r r' :
    num_rel P x x' -> ref_rel a a' -> ref_rel b b' -> ref_rel d d' -> P f f' -> coef_rel da da' -> coef_rel db db' -> coef_rel dc dc' ->
    coef_rel daa daa' -> coef_rel dab dab' -> coef_rel dac dac' -> coef_rel dbb dbb' -> coef_rel dbc dbc' -> coef_rel dcc dcc' ->
    data_rel P r r' ->
    res_rel (data_rel P) (ternary O c inc x a b d f da db dc daa dab dac dbb dbc dcc r)
      (ternary O' c inc x' a' b' d' f' da' db' dc' daa' dab' dac' dbb' dbc' dcc' r').
  Proof. intros. unfold ternary, data_length, size. flat. par. Qed.

  Lemma vec_new_par n v v' : P v v' -> res_rel (data_rel P) (vec_new n v) (vec_new n v').
  Proof. intros. unfold vec_new. par. Qed.
  Lemma firstn_par n (d : data S) (d' : data T) : data_rel P d d' -> data_rel P (firstn n d) (firstn n d').
  Proof. intros H. revert n. induction H; intros [|n]; cbn; constructor; auto. apply IHForall2. Qed.
  Lemma app_par (d1 d2 : data S) (d1' d2' : data T) : data_rel P d1 d1' -> data_rel P d2 d2' -> data_rel P (d1 ++ d2) (d1' ++ d2').
  Proof. apply Forall2_app. Qed.
  Hint Resolve vec_new_par firstn_par app_par : par.
  Lemma vec_resize_par d d' n : data_rel P d d' -> res_rel (data_rel P) (vec_resize O d n) (vec_resize O' d' n).
  Proof.
    intros H. unfold vec_resize. rewrite (Forall2_length _ _ _ H). apply if_par; [reflexivity|]. cbn.
    apply app_par; [apply firstn_par, H|]. apply repeat_par. cbn. apply A.
  Qed.
  Hint Resolve vec_resize_par : par.
  Lemma uninit_par : data_rel P (array_uninit c) (array_uninit c).
  Proof. apply repeat_par. exact I. Qed.
  Hint Resolve uninit_par : par.
  Lemma one_cell v v' : P v v' -> data_rel P [Some v] [Some v'].
  Proof. intros. repeat constructor. assumption. Qed.
  Hint Resolve one_cell : par.
  Lemma mk_par z d d' : data_rel P d d' -> num_rel P (mk z d) (mk z d').
  Proof. split; [reflexivity|assumption]. Qed.
  Hint Resolve mk_par : par.
  Lemma empty_par : num_rel P (empty O c) (empty O' c).
  Proof. unfold empty. destruct (is_dynamic c); side. Qed.
  Lemma zero_par : num_rel P (zero O c) (zero O' c).
  Proof. unfold zero. destruct (is_dynamic c); [side|]. split; [reflexivity|]. apply repeat_par. cbn. apply A. Qed.
  Hint Resolve empty_par zero_par : par.
  Lemma empty_n_par n : res_rel (num_rel P) (empty_n O c n) (empty_n O' c n).
  Proof. unfold empty_n. par. Qed.
  Lemma zero_n_par n : res_rel (num_rel P) (zero_n O c n) (zero_n O' c n).
  Proof. unfold zero_n. par. Qed.
  Hint Resolve empty_n_par zero_n_par : par.
  Lemma get_f_par x x' : num_rel P x x' -> res_rel P (get_f x) (get_f x').
  Proof. intros. unfold get_f. par. Qed.
  Lemma set_f_par x x' v v' : num_rel P x x' -> P v v' -> res_rel (num_rel P) (set_f x v) (set_f x' v').
  Proof. intros. unfold set_f. par. Qed.
  Lemma size_par (x : dd S) (x' : dd T) : num_rel P x x' -> size c x' = size c x.
  Proof. intros [H _]. unfold size. rewrite H. reflexivity. Qed.
  Lemma data_length_par (x : dd S) (x' : dd T) : num_rel P x x' -> data_length c x' = data_length c x.
  Proof. intros [_ H]. unfold data_length. rewrite (rel_len _ _ H). reflexivity. Qed.
  Lemma get_g_par x x' i : num_rel P x x' -> res_rel P (get_g c x i) (get_g c x' i).
  Proof. intros. unfold get_g, size. par. Qed.
  Lemma get_g_mut_par x x' i : num_rel P x x' -> res_rel P (get_g_mut c x i) (get_g_mut c x' i).
  Proof. intros. unfold get_g_mut, size. par. Qed.
  Lemma set_g_par x x' i v v' : num_rel P x x' -> P v v' -> res_rel (num_rel P) (set_g c x i v) (set_g c x' i v').
  Proof. intros. unfold set_g, size. par. Qed.
  Lemma idx_h1_par (x : dd S) (x' : dd T) i : num_rel P x x' -> idx_h1 c x' i = idx_h1 c x i.
  Proof. intros. unfold idx_h1. rewrite (size_par _ _ H). reflexivity. Qed.
  Lemma idx_h_par (x : dd S) (x' : dd T) i j : num_rel P x x' -> idx_h c x' i j = idx_h c x i j.
  Proof. intros. unfold idx_h. rewrite (size_par _ _ H). reflexivity. Qed.
  Lemma get_h1_par x x' i : num_rel P x x' -> res_rel P (get_h1 c x i) (get_h1 c x' i).
  Proof. intros. unfold get_h1. rewrite (idx_h1_par _ _ _ H). par. Qed.
  Lemma set_h1_par x x' i v v' : num_rel P x x' -> P v v' -> res_rel (num_rel P) (set_h1 c x i v) (set_h1 c x' i v').
  Proof. intros. unfold set_h1. rewrite (idx_h1_par _ _ _ H). par. Qed.
  Lemma get_h_par x x' i j : num_rel P x x' -> res_rel P (get_h c x i j) (get_h c x' i j).
  Proof. intros. unfold get_h. rewrite (idx_h_par _ _ _ _ H). par. Qed.
  Lemma set_h_par x x' i j v v' : num_rel P x x' -> P v v' -> res_rel (num_rel P) (set_h c x i j v) (set_h c x' i j v').
  Proof. intros. unfold set_h. rewrite (idx_h_par _ _ _ _ H). par. Qed.
  Hint Resolve get_f_par set_f_par get_g_par get_g_mut_par set_g_par get_h1_par set_h1_par get_h_par set_h_par mk_par : par.
  Lemma constant_par f f' : P f f' -> res_rel (num_rel P) (constant O c f) (constant O' c f').
  Proof. intros. unfold constant. par. Qed.
  Hint Resolve constant_par : par.
  Lemma constant_n_par f f' n : P f f' -> res_rel (num_rel P) (constant_n O c f n) (constant_n O' c f' n).
  Proof. intros. unfold constant_n. par. Qed.
  Lemma variable_par i f f' : P f f' -> res_rel (num_rel P) (variable O c i f) (variable O' c i f').
  Proof. intros. unfold variable. par. Qed.
  Hint Resolve constant_n_par variable_par : par.
  Lemma variable_n_par i f f' n : P f f' -> res_rel (num_rel P) (variable_n O c i f n) (variable_n O' c i f' n).
  Proof. intros. unfold variable_n. par. Qed.
  Hint Resolve variable_n_par : par.
  Lemma ctor_default_par : num_rel P (ctor_default O c) (ctor_default O' c).
  Proof. unfold ctor_default. destruct (is_dynamic c); side. Qed.
  Lemma ctor_scalar_par f f' : P f f' -> res_rel (num_rel P) (ctor_scalar O c f) (ctor_scalar O' c f').
  Proof. intros. unfold ctor_scalar. destruct (is_dynamic c); par. Qed.
  Lemma ctor_list_par vs vs' : Forall2 P vs vs' -> res_rel (num_rel P) (ctor_list c vs) (ctor_list c vs').
  Proof. intros. unfold ctor_list. destruct (is_dynamic c); par. Qed.
  Lemma create_par d d' : data_rel P d d' -> res_rel (num_rel P) (create c d) (create c d').
  Proof. intros. unfold create. par. Qed.
  Lemma variables_par vs vs' : Forall2 P vs vs' -> res_rel (Forall2 (num_rel P)) (variables O c vs) (variables O' c vs').
  Proof.
    intros H. unfold variables. rewrite (Forall2_length _ _ _ H). apply (bind_par eq); [apply refl_par|]. intros _ _ _.
    generalize (Z.of_nat (List.length vs')) as n. generalize 0 as i. induction H; intros i n; [constructor|]. par.
  Qed.
  Lemma resize_par x x' n : num_rel P x x' -> res_rel (num_rel P) (resize O c x n) (resize O' c x' n).
  Proof. intros. unfold resize. par. Qed.
  Definition walk_rel : Z * Z * data S -> Z * Z * data T -> Prop := pair_rel (pair_rel eq eq) (data_rel P).
  Lemma copy1_par d d' st st' : data_rel P d d' -> walk_rel st st' -> res_rel walk_rel (copy1 d st) (copy1 d' st').
  Proof. intros. unfold copy1, walk_rel in *. flat. par. Qed.
  Lemma zero1_par st st' : walk_rel st st' -> res_rel walk_rel (zero1 O st) (zero1 O' st').
  Proof. intros. unfold zero1, walk_rel in *. flat. par. Qed.
  Hint Resolve copy1_par zero1_par : par.
  Lemma pad_left_par x x' n : num_rel P x x' -> res_rel (num_rel P) (pad_left O c x n) (pad_left O' c x' n).
  Proof.
    intros. unfold pad_left, size. flat. apply (bind_par (num_rel P)); [par|]. intros r r' Hr. flat.
    apply (bind_par eq); [apply refl_par|]. intros ? head ->. cbv zeta. cbn [m_data m_size].
    apply (bind_par walk_rel); [apply copy1_par; [assumption|side]|]. intros.
    apply (bind_par walk_rel); [par|]. intros.
    apply (bind_par walk_rel); [par|]. intros.
    apply if_par; [unfold walk_rel in *; par|].
    apply (bind_par walk_rel); [par|]. intros.
    apply (bind_par walk_rel); [par|]. intros.
    unfold walk_rel in *; par.
  Qed.
  Lemma pad_right_par x x' n : num_rel P x x' -> res_rel (num_rel P) (pad_right O c x n) (pad_right O' c x' n).
  Proof.
    intros. unfold pad_right, size. flat. apply (bind_par (num_rel P)); [par|]. intros r r' Hr. flat.
    apply (bind_par eq); [apply refl_par|]. intros ? tail ->. cbv zeta. cbn [m_data m_size].
    apply (bind_par walk_rel); [apply for_par; [intros; side|side]|]. intros.
    apply (bind_par walk_rel); [par|]. intros.
    apply if_par; [unfold walk_rel in *; par|].
    apply (bind_par walk_rel).
    { apply for_par; [intros|assumption]. apply (bind_par walk_rel); [par|]. intros. par. }
    intros. apply (bind_par walk_rel); [par|]. intros.
    unfold walk_rel in *; par.
  Qed.
  Lemma mget_par m m' i j : mat_rel P m m' -> res_rel P (mget m i j) (mget m' i j).
  Proof. intros. unfold mget. par. Qed.
  Lemma mset_par m m' i j v v' : mat_rel P m m' -> P v v' -> res_rel (mat_rel P) (mset m i j v) (mset m' i j v').
  Proof. intros. unfold mset. par. Qed.
  Hint Resolve mget_par mset_par : par.
  Lemma hm_par x x' mode : num_rel P x x' -> res_rel (mat_rel P) (hm O c x mode) (hm O' c x' mode).
  Proof.
    intros. unfold hm. rewrite (size_par _ _ H). generalize (size c x) as n. intros n. cbv zeta.
    apply (bind_par (pair_rel eq (mat_rel P))).
    { apply for_par; [intros; apply for_par; [|assumption]|].
      - intros ? [it o] [it' o'] [E Ho]. cbn [fst snd] in *. subst it'.
        apply (bind_par P); [side|]. intros. apply (bind_par (mat_rel P)); [side|]. intros. split; [reflexivity|assumption].
      - split; [reflexivity|]. split; [reflexivity|]. split; [reflexivity|]. cbn. side. }
    intros [it o] [it' o'] [_ Ho]. cbn [fst snd] in *.
    apply if_par; [|apply if_par; [|reflexivity]]; apply for_par; try assumption; intros; apply for_par; try assumption; intros; [side|].
    apply (bind_par P); [side|]. intros. side.
  Qed.
  Lemma set_hm_par x x' m m' : num_rel P x x' -> mat_rel P m m' -> res_rel (num_rel P) (set_hm c x m) (set_hm c x' m').
  Proof.
    intros. unfold set_hm. rewrite (size_par _ _ H). generalize (size c x) as n. intros n. cbv zeta.
    apply (bind_par (pair_rel eq (num_rel P))).
    { apply for_par; [intros; apply for_par; [|assumption]|split; [reflexivity|assumption]].
      intros ? [it o] [it' o'] [E Ho]. cbn [fst snd] in *. subst it'.
      apply (bind_par P); [side|]. intros. apply (bind_par (num_rel P)); [side|]. intros. split; [reflexivity|assumption]. }
    intros [it o] [it' o'] [_ Ho]. exact Ho.
  Qed.
  Lemma set_ag_par x x' g g' : num_rel P x x' -> data_rel P g g' -> res_rel (num_rel P) (set_ag c x g) (set_ag c x' g').
  Proof. intros. unfold set_ag, size. par. Qed.
  Hint Resolve set_hm_par set_ag_par : par.
  Lemma get_ag_par x x' : num_rel P x x' -> res_rel (Forall2 P) (get_ag c x) (get_ag c x').
  Proof.
    intros. unfold get_ag. rewrite (size_par _ _ H). generalize 0 as i. induction (Z.to_nat (size c x)) as [|n IH]; intros i; [constructor|].
    destruct H as [Hs Hd]. apply (bind_par P); [par|]. intros. apply (bind_par (Forall2 P)); [apply IH|]. intros. constructor; assumption.
  Qed.
  Lemma from_gradient_par f f' g g' : P f f' -> data_rel P g g' -> res_rel (num_rel P) (from_gradient O c f g) (from_gradient O' c f' g').
  Proof. intros. unfold from_gradient. par. Qed.
  Lemma from_arrays_par f f' g g' h h' : P f f' -> data_rel P g g' -> mat_rel P h h' ->
    res_rel (num_rel P) (from_arrays O c f g h) (from_arrays O' c f' g' h').
  Proof.
    intros Hf Hg Hh. unfold from_arrays. rewrite (rel_len _ _ Hg). destruct Hh as [Hr [Hc Hd]]. rewrite Hr, Hc.
    assert (mat_rel P h h') by (split; [|split]; assumption). clear Hr Hc.
    apply (bind_par eq); [apply refl_par|]. intros _ _ _. apply (bind_par (num_rel P)); [side|]. intros.
    apply (bind_par (num_rel P)); [side|]. intros. apply (bind_par (num_rel P)); side.
  Qed.
  Lemma eval_par x x' d d' : num_rel P x x' -> Forall2 P d d' -> res_rel P (eval O c x d) (eval O' c x' d').
  Proof.
    intros H Hd. unfold eval. rewrite (size_par _ _ H). generalize (size c x) as n. intros n. cbv zeta. apply full_par in Hd.
    apply (bind_par P); [side|]. intros. apply (bind_par P).
    { apply for_par; [intros|assumption]. apply (bind_par P); [apply rd_par; assumption|]. intros. apply (bind_par P); [side|]. intros. cbn. side. }
    intros. apply if_par; [assumption|]. pose proof (proj2 H) as Hx.
    apply (bind_par P); [|intros; cbn; side].
    apply for_par; [intros|side].
    apply (bind_par (pair_rel eq P)); [par|]. intros. flat. apply (bind_par (pair_rel eq P)); [par|]. intros. par.
  Qed.
  Lemma set_zero_par x x' : num_rel P x x' -> res_rel (num_rel P) (set_zero O x) (set_zero O' x').
  Proof. intros. unfold set_zero. par. Qed.
  Lemma neg_par x x' : num_rel P x x' -> res_rel (num_rel P) (neg O c x) (neg O' c x').
  Proof. intros. unfold neg. rewrite (size_par _ _ H), (data_length_par _ _ H). par. Qed.

  Definition k1_rel : S * coef S * coef S -> T * coef T * coef T -> Prop := pair_rel (pair_rel P coef_rel) coef_rel.
  Definition k2_rel : S * coef S * coef S * coef S * coef S * coef S -> T * coef T * coef T * coef T * coef T * coef T -> Prop :=
    pair_rel (pair_rel (pair_rel (pair_rel (pair_rel P coef_rel) coef_rel) coef_rel) coef_rel) coef_rel.
  Lemma unary_op_par F F' x x' : (forall v v', P v v' -> k1_rel (F v) (F' v')) -> num_rel P x x' ->
    res_rel (num_rel P) (unary_op O c F x) (unary_op O' c F' x').
  Proof.
    intros HF H. unfold unary_op. rewrite (size_par _ _ H). apply (bind_par (num_rel P)); [side|]. intros r r' [Hs Hr].
    apply (bind_par P); [side|]. intros v v' Hv. generalize (HF v v' Hv).
    destruct (F v) as [[f da] daa], (F' v') as [[f' da'] daa']. intros [[? ?] ?]. cbn [fst snd] in *.
    apply (bind_par (data_rel P)); [apply unary_par; auto; apply H|]. intros. rewrite Hs. side.
  Qed.
  Lemma binary_op_par chk F F' x x' y y' : (forall u u' v v', P u u' -> P v v' -> k2_rel (F u v) (F' u' v')) -> num_rel P x x' -> num_rel P y y' ->
    res_rel (num_rel P) (binary_op O c chk F x y) (binary_op O' c chk F' x' y').
  Proof.
    intros HF H K. unfold binary_op. rewrite (size_par _ _ H), (size_par _ _ K). apply (bind_par eq); [destruct chk; apply refl_par|]. intros _ _ _.
    apply (bind_par (num_rel P)); [side|]. intros r r' [Hs Hr].
    apply (bind_par P); [side|]. intros u u' Hu. apply (bind_par P); [side|]. intros v v' Hv. generalize (HF u u' v v' Hu Hv).
    destruct (F u v) as [[[[[f da] db] daa] dab] dbb], (F' u' v') as [[[[[f' da'] db'] daa'] dab'] dbb']. intros [[[[[? ?] ?] ?] ?] ?]. cbn [fst snd] in *.
    apply (bind_par (data_rel P)); [apply binary_par; auto; first [apply H | apply K]|]. intros. rewrite Hs. side.
  Qed.
  Lemma div_par x x' y y' : (forall u u' v v', P u u' -> P v v' -> k2_rel (k_div O u v) (k_div O' u' v')) -> num_rel P x x' -> num_rel P y y' ->
    res_rel (num_rel P) (div O c x y) (div O' c x' y').
  Proof.
    intros HF H K. unfold div. rewrite (size_par _ _ H), (size_par _ _ K). apply (bind_par eq); [apply refl_par|]. intros _ _ _.
    apply (bind_par P); [side|]. intros v v' Hv. apply (bind_par P); [side|]. intros u u' Hu. generalize (HF u u' v v' Hu Hv).
    destruct (k_div O u v) as [[[[[f da] db] daa] dab] dbb], (k_div O' u' v') as [[[[[f' da'] db'] daa'] dab'] dbb']. intros [[[[[? ?] ?] ?] ?] ?]. cbn [fst snd] in *.
    apply (bind_par (num_rel P)); [side|]. intros r r' [Hs Hr].
    apply (bind_par (data_rel P)); [apply binary_par; auto; first [apply H | apply K]|]. intros. rewrite Hs. side.
  Qed.
  Ltac kern := intros; repeat split; cbn; auto 20 with par.
  Hint Extern 2 (k1_rel _ _) => solve [kern] : par.
  Hint Extern 2 (k2_rel _ _) => solve [kern] : par.
  Lemma hypot3_par x x' y y' z z' : num_rel P x x' -> num_rel P y y' -> num_rel P z z' -> res_rel (num_rel P) (hypot3 O c x y z) (hypot3 O' c x' y' z').
  Proof.
    intros H K L. unfold hypot3. rewrite (size_par _ _ H), (size_par _ _ K). apply (bind_par eq); [apply refl_par|]. intros _ _ _.
    apply (bind_par (num_rel P)); [side|]. intros r r' [Hs Hr].
    apply (bind_par P); [side|]. intros. apply (bind_par P); [side|]. intros. apply (bind_par P); [side|]. intros. cbv zeta.
    apply (bind_par (data_rel P)); [apply ternary_par; first [apply H | apply K | apply L | exact Hr | assumption | cbn; auto 20 with par]|].
    intros. rewrite Hs. side.
  Qed.
  Lemma adds_par x x' b b' : num_rel P x x' -> P b b' -> res_rel (num_rel P) (adds O x b) (adds O' x' b').
  Proof. intros. unfold adds. apply (bind_par P); [side|]. intros. side. Qed.
  Hint Resolve adds_par : par.
  Lemma ssub_par x x' b b' : num_rel P x x' -> P b b' -> res_rel (num_rel P) (ssub O c b x) (ssub O' c b' x').
  Proof.
    intros H Hb. unfold ssub. rewrite (size_par _ _ H). apply (bind_par (num_rel P)); [side|]. intros r r' Hr.
    rewrite (data_length_par _ _ Hr). par.
  Qed.
  Lemma muls_par x x' b b' : num_rel P x x' -> P b b' -> res_rel (num_rel P) (muls O c x b) (muls O' c x' b').
  Proof. intros H Hb. unfold muls. rewrite (size_par _ _ H), (data_length_par _ _ H). par. Qed.
  Hint Resolve neg_par unary_op_par binary_op_par ssub_par muls_par : par.
  Definition uses_order (u : ufun S) : Prop := match u with Uabs => True | _ => False end.
  Lemma apply_u_par u u' x x' : (uses_order u -> order_rel P O O') -> ufun_rel P u u' -> num_rel P x x' ->
    res_rel (num_rel P) (apply_u O c u x) (apply_u O' c u' x').
  Proof.
    intros B Hu Hx. destruct u, u'; cbn [ufun_rel] in Hu; try contradiction; cbn [apply_u].
    2:{ unfold abs. apply (bind_par P); [side|]. intros. rewrite (or_lt _ _ _ (B I) a b (o_Z O 0) (o_Z O' 0)) by side. apply if_par; side. }
    all: unfold sadd, subs, smul, divs, sdiv, sadd, smul; try (apply unary_op_par; [|assumption]; kern); side.
  Qed.
  Lemma apply_b_par b x x' y y' : num_rel P x x' -> num_rel P y y' -> res_rel (num_rel P) (apply_b O c b x y) (apply_b O' c b x' y').
  Proof. intros. destruct b; first [apply binary_op_par | apply div_par]; try assumption; kern. Qed.

  Definition oref_rel (b : option (dd S)) (b' : option (dd T)) : Prop :=
    match b, b' with None, None => True | Some y, Some y' => num_rel P y y' | _, _ => False end.
  Lemma ref_of_par b b' : oref_rel b b' -> ref_rel (ref_of b) (ref_of b').
  Proof. destruct b, b'; cbn; try contradiction; auto. intros [_ H]. exact H. Qed.
  Lemma ref_size_par x x' b b' : num_rel P x x' -> oref_rel b b' -> ref_size c x' b' = ref_size c x b.
  Proof. destruct b, b'; cbn; try contradiction; intros; apply size_par; assumption. Qed.
  Lemma ref_f_par d d' b b' : data_rel P d d' -> oref_rel b b' -> res_rel P (ref_f d b) (ref_f d' b').
  Proof. intros. unfold ref_f. apply rd_par, deref_par; [apply ref_of_par|]; assumption. Qed.
  Hint Resolve ref_of_par ref_f_par : par.
  Lemma add_assign_par x x' b b' : num_rel P x x' -> oref_rel b b' -> res_rel (num_rel P) (add_assign O c x b) (add_assign O' c x' b').
  Proof. intros H Hb. unfold add_assign. rewrite (ref_size_par _ _ _ _ H Hb), (size_par _ _ H). apply ref_of_par in Hb. par. Qed.
  Lemma sub_assign_par x x' b b' : num_rel P x x' -> oref_rel b b' -> res_rel (num_rel P) (sub_assign O c x b) (sub_assign O' c x' b').
  Proof. intros H Hb. unfold sub_assign. rewrite (ref_size_par _ _ _ _ H Hb), (size_par _ _ H). apply ref_of_par in Hb. par. Qed.
  Lemma mul_assign_par x x' b b' : num_rel P x x' -> oref_rel b b' -> res_rel (num_rel P) (mul_assign O c x b) (mul_assign O' c x' b').
  Proof.
    intros H Hb. unfold mul_assign. rewrite (ref_size_par _ _ _ _ H Hb), (size_par _ _ H). generalize (size c x) as n. intros n. cbv zeta.
    apply (bind_par eq); [apply refl_par|]. intros _ _ _. pose proof (ref_of_par _ _ Hb). flat. cbn [m_data m_size].
    apply (bind_par P); [side|]. intros. apply (bind_par P); [par|]. intros.
    apply (bind_par P); [par|]. intros. apply (bind_par P); [side|]. intros.
    par.
  Qed.
  Lemma div_assign_par x x' b b' : num_rel P x x' -> oref_rel b b' -> res_rel (num_rel P) (div_assign O c x b) (div_assign O' c x' b').
  Proof.
    intros H Hb. unfold div_assign. rewrite (ref_size_par _ _ _ _ H Hb), (size_par _ _ H).
    apply (bind_par eq); [apply refl_par|]. intros _ _ _. pose proof (ref_of_par _ _ Hb). destruct H as [Hs Hd]. cbv zeta.
    apply (bind_par P); [par|]. intros. apply (bind_par P); [side|]. intros. cbn [k_div_assign]. unfold k_div_assign. rewrite Hs.
    apply (bind_par (data_rel P)); [|intros; side].
    apply binary_par; try assumption; cbn; auto 20 with par. split; assumption.
  Qed.
  Definition sref_rel (a : sref S) (b : sref T) : Prop := match a, b with SVal x, SVal y => P x y | SElem i, SElem j => i = j | _, _ => False end.
  Lemma sderef_par a b d d' : sref_rel a b -> data_rel P d d' -> res_rel P (sderef a d) (sderef b d').
  Proof. destruct a, b; cbn; intros; try contradiction; [assumption|]. subst. apply rd_par; assumption. Qed.
  Hint Resolve sderef_par : par.
  Lemma adds_assign_par x x' b b' : num_rel P x x' -> sref_rel b b' -> res_rel (num_rel P) (adds_assign O x b) (adds_assign O' x' b').
  Proof. intros H Hb. unfold adds_assign. apply (bind_par P); [side|]. intros. apply (bind_par P); [apply sderef_par; [|apply H]; assumption|]. intros. side. Qed.
  Lemma subs_assign_par x x' b b' : num_rel P x x' -> sref_rel b b' -> res_rel (num_rel P) (subs_assign O x b) (subs_assign O' x' b').
  Proof. intros H Hb. unfold subs_assign. apply (bind_par P); [side|]. intros. apply (bind_par P); [apply sderef_par; [|apply H]; assumption|]. intros. side. Qed.
  Lemma muls_assign_par x x' b b' : num_rel P x x' -> sref_rel b b' -> res_rel (num_rel P) (muls_assign O x b) (muls_assign O' x' b').
  Proof. intros H Hb. unfold muls_assign. par. Qed.
  Lemma divs_assign_par x x' b b' : num_rel P x x' -> sref_rel b b' -> res_rel (num_rel P) (divs_assign O x b) (divs_assign O' x' b').
  Proof.
    intros H Hb. unfold divs_assign. apply (bind_par P); [apply sderef_par; [|apply H]; assumption|]. intros.
    apply muls_assign_par; [assumption|]. cbn. side.
  Qed.

  Lemma expr_par n e : forall e' env env', (order_rel P O O' \/ no_abs e) -> expr_rel P e e' -> Forall2 (num_rel P) env env' ->
    res_rel (num_rel P) (run O c n env e) (run O' c n env' e').
  Proof.
    induction e; intros e' env env' B He Henv; destruct e'; cbn [expr_rel] in He; try contradiction; cbn [run].
    - subst i0. clear B. revert i. induction Henv as [|a b l l' Hab Hl IH]; intros [|i]; cbn; auto; try exact I. 
    - apply constant_n_par, He.
    - destruct He as [Hu He]. apply (bind_par (num_rel P)).
      + apply IHe; try assumption. destruct B as [B|B]; [left; exact B|right]. cbn in B. destruct u; try exact B. contradiction.
      + intros. apply apply_u_par; try assumption. intros U. destruct B as [B|B]; [exact B|]. cbn in B. destruct u; cbn in U; contradiction.
    - destruct He as [<- [He1 He2]]. apply (bind_par (num_rel P)); [apply IHe1; auto; destruct B as [|[]]; auto|]. intros.
      apply (bind_par (num_rel P)); [apply IHe2; auto; destruct B as [|[]]; auto|]. intros. apply apply_b_par; assumption.
    - destruct He as [He1 [He2 He3]]. cbn in B.
      apply (bind_par (num_rel P)); [apply IHe1; auto; tauto|]. intros.
      apply (bind_par (num_rel P)); [apply IHe2; auto; tauto|]. intros.
      apply (bind_par (num_rel P)); [apply IHe3; auto; tauto|]. intros. apply hypot3_par; assumption.
  Qed.

  Lemma read_all_par d d' : data_rel P d d' -> res_rel (Forall2 P) (read_all d) (read_all d').
  Proof.
    induction 1 as [|[a|] [b|] d d' H Hd IH]; cbn [read_all]; try contradiction; [constructor| |exact I].
    apply (bind_par (Forall2 P)); [exact IH|]. intros. constructor; assumption.
  Qed.
  Lemma set_adata_par x x' v v' : num_rel P x x' -> data_rel P v v' -> res_rel (num_rel P) (set_adata x v) (set_adata x' v').
  Proof. intros. unfold set_adata. par. Qed.

  Section Order.
    Hypothesis B : order_rel P O O'.
    Lemma scmp_par o a a' b b' : P a a' -> P b b' -> scmp O o a b = scmp O' o a' b'.
    Proof. intros. destruct o; cbn; first [apply B; assumption | f_equal; apply B; assumption]. Qed.
    Lemma compare_par o x x' y y' : num_rel P x x' -> num_rel P y y' -> res_rel eq (compare O o x y) (compare O' o x' y').
    Proof. intros. unfold compare. apply (bind_par P); [side|]. intros. apply (bind_par P); [side|]. intros. apply scmp_par; assumption. Qed.
    Lemma compare_s_par o x x' b b' : num_rel P x x' -> P b b' -> res_rel eq (compare_s O o x b) (compare_s O' o x' b').
    Proof. intros. unfold compare_s. apply (bind_par P); [side|]. intros. apply scmp_par; assumption. Qed.
    Lemma s_compare_par o x x' b b' : num_rel P x x' -> P b b' -> res_rel eq (s_compare O o b x) (s_compare O' o b' x').
    Proof. intros. destruct o; apply compare_s_par; assumption. Qed.
    Lemma get_par {X Y} (Q : X -> Y -> Prop) st st' r : Forall2 Q st st' -> res_rel Q (get st r) (get st' r).
    Proof. unfold get. intros H. revert r. induction H; intros [|r]; cbn; auto. Qed.
    Lemma put_par {X Y} (Q : X -> Y -> Prop) st st' r x x' : Forall2 Q st st' -> Q x x' -> Forall2 Q (put st r x) (put st' r x').
    Proof. intros H Hx. revert r. induction H; intros [|r]; cbn; constructor; auto. Qed.
    Lemma assign_par o x x' b b' : num_rel P x x' -> oref_rel b b' -> res_rel (num_rel P) (assign O c o x b) (assign O' c o x' b').
    Proof. intros. destruct o; [apply add_assign_par|apply sub_assign_par|apply mul_assign_par|apply div_assign_par]; assumption. Qed.
    Lemma assign_s_par o x x' v v' : num_rel P x x' -> P v v' -> res_rel (num_rel P) (assign_s O o x v) (assign_s O' o x' v').
    Proof. intros. destruct o; [apply adds_assign_par|apply subs_assign_par|apply muls_assign_par|apply divs_assign_par]; assumption. Qed.
    Lemma test_par k k' st st' : cond_rel P k k' -> Forall2 (num_rel P) st st' -> res_rel eq (test O k st) (test O' k' st').
    Proof.
      intros Hk H. destruct k, k'; cbn [cond_rel] in Hk; try contradiction; destruct Hk as [<- [<- Hk]]; cbn [test].
      - subst b0. apply (bind_par (num_rel P)); [apply get_par, H|]. intros. apply (bind_par (num_rel P)); [apply get_par, H|]. intros.
        apply compare_par; assumption.
      - apply (bind_par (num_rel P)); [apply get_par, H|]. intros. apply compare_s_par; assumption.
      - apply (bind_par (num_rel P)); [apply get_par, H|]. intros. apply s_compare_par; assumption.
    Qed.
    Lemma write_par st st' r m m' : Forall2 (num_rel P) st st' -> res_rel (num_rel P) m m' ->
      res_rel (Forall2 (num_rel P)) (write st r m) (write st' r m').
    Proof.
      intros. unfold write. apply (bind_par (num_rel P)); [apply get_par; assumption|]. intros.
      apply (bind_par (num_rel P)); [assumption|]. intros. apply put_par; assumption.
    Qed.
    Ltac conj := repeat match goal with H : _ /\ _ |- _ => destruct H end; subst.
    Ltac getp := apply (bind_par (num_rel P)); [apply get_par; assumption|intros].
    Lemma step_par n s s' st st' : stmt_rel P s s' -> Forall2 (num_rel P) st st' ->
      res_rel (Forall2 (num_rel P)) (step O c n s st) (step O' c n s' st').
    Proof.
      intros Hs H. destruct s, s'; cbn [stmt_rel] in Hs; try contradiction; conj; cbn [step]; try exact H; apply write_par; try assumption.
      - apply constant_n_par; assumption.
      - apply get_par; assumption.
      - getp. apply apply_u_par; auto.
      - getp. getp. apply apply_b_par; assumption.
      - getp. getp. getp. apply hypot3_par; assumption.
      - getp. getp. apply assign_par; [assumption|]. destruct (Nat.eqb _ _); [exact I|assumption].
      - getp. apply assign_s_par; assumption.
    Qed.
    Lemma exec_par n : forall fuel s s' st st', stmt_rel P s s' -> Forall2 (num_rel P) st st' ->
      run_rel (Forall2 (num_rel P)) (exec O c n fuel s st) (exec O' c n fuel s' st').
    Proof.
      induction fuel as [|k IH]; intros s s' st st' Hs H; [exact I|].
      pose proof (step_par n s s' st st' Hs H) as Hstep.
      destruct s, s'; cbn [stmt_rel] in Hs; try contradiction; conj; cbn [exec]; try exact Hstep.
      - generalize (IH s1 s'1 st st' ltac:(assumption) H). destruct (exec O c n k s1 st) as [[]|], (exec O' c n k s'1 st') as [[]|]; cbn; try contradiction; auto.
      - generalize (test_par k0 k1 st st' ltac:(assumption) H).
        destruct (test O k0 st) as [[]| | |], (test O' k1 st') as [[]| | |]; cbn; intros E; try contradiction; try discriminate; auto; congruence.
      - generalize (test_par k0 k1 st st' ltac:(assumption) H).
        destruct (test O k0 st) as [[]| | |], (test O' k1 st') as [[]| | |]; cbn; intros E; try contradiction; try discriminate; auto; try congruence.
        generalize (IH s s' st st' ltac:(assumption) H). destruct (exec O c n k s st) as [[]|], (exec O' c n k s' st') as [[]|]; cbn; try contradiction; auto.
        intros. apply IH; [cbn; split; assumption|assumption].
    Qed.

    (** *** sessions *)
    Definition out_rel (a : out S) (b : out T) : Prop :=
      match a, b with
      | Done st, Done st' => heap_rel P st st'
      | Raised e st, Raised e' st' => e = e' /\ heap_rel P st st'
      | Aborted, Aborted | Wild, Wild => True
      | _, _ => False
      end.
    Lemma lift_par {X Y} (Q : X -> Y -> Prop) st st' m m' k k' : heap_rel P st st' -> res_rel Q m m' ->
      (forall a b, Q a b -> out_rel (k a) (k' b)) -> out_rel (lift st m k) (lift st' m' k').
    Proof. destruct m, m'; cbn; intros; try contradiction; auto. split; [congruence|assumption]. Qed.
    Lemma obj_of_par st st' r k k' : heap_rel P st st' -> (forall o, names st r = Some o -> out_rel (k o) (k' o)) -> out_rel (obj_of st r k) (obj_of st' r k').
    Proof.
      intros H Hk. unfold obj_of. destruct H as (? & ? & E & ?). rewrite <- E. destruct (names st r) eqn:N; [apply Hk; reflexivity|].
      cbn. repeat split; assumption.
    Qed.
    Lemma load_par st st' o : heap_rel P st st' -> res_rel (num_rel P) (load st o) (load st' o).
    Proof.
      intros (E & Hb & _). unfold load. rewrite <- E. destruct (nth_error (objs st) o) as [[sz b]|]; [|exact I].
      generalize (get_par _ _ _ b Hb). unfold get. destruct (nth_error (bufs st) b) as [[[]|]|], (nth_error (bufs st') b) as [[[]|]|]; cbn; try contradiction; auto.
      intros [? ?]. split; [reflexivity|assumption].
    Qed.
    Lemma arg_par st st' r k k' : heap_rel P st st' -> (forall x x', num_rel P x x' -> out_rel (k x) (k' x')) -> out_rel (arg st r k) (arg st' r k').
    Proof. intros. unfold arg. apply obj_of_par; [assumption|]. intros. apply (lift_par (num_rel P)); auto. apply load_par; assumption. Qed.
    Lemma fresh_par slack st st' r x x' : heap_rel P st st' -> num_rel P x x' -> heap_rel P (fresh slack st r x) (fresh slack st' r x').
    Proof.
      intros (E1 & E2 & E3 & E4) [Hs Hd]. unfold fresh. rewrite <- (Forall2_length _ _ _ E2), <- (Forall2_length _ _ _ Hd), E1, E3, E4, Hs.
      repeat split. apply Forall2_app; [assumption|]. repeat constructor. assumption.
    Qed.
    Lemma make_par slack st st' r m m' : heap_rel P st st' -> res_rel (num_rel P) m m' -> out_rel (make slack st r m) (make slack st' r m').
    Proof. intros. apply (lift_par (num_rel P)); auto. intros. apply fresh_par; assumption. Qed.
    Lemma store_par st st' o b k x x' : heap_rel P st st' -> num_rel P x x' -> heap_rel P (store st o b k x) (store st' o b k x').
    Proof.
      intros (E1 & E2 & E3 & E4) [Hs Hd]. unfold store. rewrite E1, E3, E4, Hs. repeat split. apply put_par; [assumption|]. split; auto.
    Qed.
    Lemma inplace_par st st' r f f' : heap_rel P st st' -> (forall o x x', num_rel P x x' -> res_rel (num_rel P) (f o x) (f' o x')) ->
      out_rel (inplace st r f) (inplace st' r f').
    Proof.
      intros H Hf. unfold inplace. apply obj_of_par; [assumption|]. intros o _. pose proof H as (E1 & E2 & E3 & E4). rewrite <- E1.
      destruct (nth_error (objs st) o) as [[sz b]|]; [|exact I].
      generalize (get_par _ _ _ b E2). unfold get. destruct (nth_error (bufs st) b) as [[[]|]|], (nth_error (bufs st') b) as [[[]|]|]; cbn; try contradiction; auto.
      intros [? ->]. apply (lift_par (num_rel P)); [assumption|apply Hf, mk_par; assumption|]. intros. apply store_par; assumption.
    Qed.
    Lemma pstep_par slack s s' st st' : pstmt_rel P s s' -> heap_rel P st st' -> out_rel (pstep O c slack s st) (pstep O' c slack s' st').
    Proof.
      intros Hs H. pose proof H as (E1 & E2 & E3 & E4).
      destruct s, s'; cbn [pstmt_rel] in Hs; try contradiction; conj; cbn [pstep].
      - apply make_par; [assumption|]. apply constant_n_par; assumption.
      - apply make_par; [assumption|]. apply variable_n_par; assumption.
      - apply make_par; [assumption|]. apply empty_n_par.
      - match goal with V : Forall2 P _ _ |- _ => rewrite <- (Forall2_length _ _ _ V) end.
        destruct (_ && _); [split; auto|]. apply make_par; [assumption|]. apply create_par, full_par; assumption.
      - apply obj_of_par; [assumption|]. intros. unfold bound. cbn. repeat split; cbn; congruence || assumption.
      - apply arg_par; [assumption|]. intros. apply fresh_par; assumption.
      - apply arg_par; [assumption|]. intros. apply make_par; [assumption|]. apply apply_u_par; auto.
      - apply arg_par; [assumption|]. intros. apply arg_par; [assumption|]. intros. apply make_par; [assumption|]. apply apply_b_par; auto.
      - do 3 (apply arg_par; [assumption|]; intros). apply make_par; [assumption|]. apply hypot3_par; auto.
      - destruct (is_dynamic c); [|split; auto]. apply arg_par; [assumption|]. intros. apply make_par; [assumption|]. apply pad_left_par; auto.
      - destruct (is_dynamic c); [|split; auto]. apply arg_par; [assumption|]. intros. apply make_par; [assumption|]. apply pad_right_par; auto.
      - apply obj_of_par; [assumption|]. intros. apply inplace_par; [assumption|]. intros. destruct (Nat.eqb _ _).
        + apply assign_par; [assumption|exact I].
        + apply (bind_par (num_rel P)); [apply load_par; assumption|]. intros. apply assign_par; assumption.
      - destruct o0; first [apply inplace_par; [assumption|]; intros; apply assign_s_par; assumption
                           |apply arg_par; [assumption|]; intros; apply make_par; [assumption|]; apply apply_u_par; auto].
      - apply inplace_par; [assumption|]. intros. apply set_f_par; assumption.
      - apply inplace_par; [assumption|]. intros. apply set_h_par; assumption.
      - apply obj_of_par; [assumption|]. intros. match goal with M : mat_rel P ?m ?m' |- _ => pose proof M as (Er & Ec & _); rewrite <- Er, <- Ec end.
        destruct (_ && _); [split; auto|]. apply inplace_par; [assumption|]. intros. apply set_hm_par; assumption.
      - destruct (is_dynamic c); [|split; auto]. apply obj_of_par; [assumption|]. intros o _. rewrite <- E1.
        destruct (nth_error (objs st) o) as [[z b]|]; [|exact I].
        generalize (get_par _ _ _ b E2). unfold get. destruct (nth_error (bufs st) b) as [[[d k]|]|], (nth_error (bufs st') b) as [[[d' k']|]|]; cbn [res_rel buf_rel]; try contradiction; try (intros; exact I).
        intros [Hd <-]. apply (lift_par (data_rel P)).
        + repeat split; cbn; congruence || assumption.
        + apply (bind_par eq); [apply refl_par|]. intros ? ? ->. apply vec_resize_par; assumption.
        + intros d1 d1' Hd1. rewrite <- (Forall2_length _ _ _ Hd1), <- (Forall2_length _ _ _ E2). destruct (Nat.leb _ _).
          * apply store_par; [assumption|]. apply mk_par; assumption.
          * repeat split; cbn; try congruence. apply Forall2_app; [apply put_par; [assumption|exact I]|]. repeat constructor. assumption.
      - apply obj_of_par; [assumption|]. intros o _. rewrite <- E1. destruct (nth_error (objs st) o) as [[z b]|]; [|exact I].
        apply (lift_par (num_rel P)); [assumption|apply load_par; assumption|]. intros. rewrite (size_par _ _ H0).
        destruct (_ <? 0); [exact I|]. repeat split; cbn; congruence || assumption.
      - apply obj_of_par; [assumption|]. intros o _. rewrite <- E1. destruct (nth_error (objs st) o) as [[z b]|]; [|exact I].
        apply (lift_par (num_rel P)); [assumption|apply load_par; assumption|]. intros x x' [_ Hd]. rewrite (Forall2_length _ _ _ Hd).
        repeat split; cbn; congruence || assumption.
      - rewrite <- E4. destruct (views st w0) as [v|]; [|split; auto]. destruct (np_index v i0); [|split; auto].
        apply (lift_par P); [assumption| |intros; assumption]. unfold view_read.
        generalize (get_par _ _ _ (v_buf v) E2). unfold get. destruct (nth_error (bufs st) _) as [[[d k]|]|], (nth_error (bufs st') _) as [[[d' k']|]|]; cbn [res_rel buf_rel]; try contradiction; try (intros; exact I).
        intros [Hd _]. apply rd_par; assumption.
      - rewrite <- E4. destruct (views st w0) as [v'|]; [|split; auto]. destruct (np_index v' i0); [|split; auto].
        apply (lift_par (heap_rel P)); [assumption| |intros; assumption]. unfold view_write.
        generalize (get_par _ _ _ (v_buf v') E2). unfold get. destruct (nth_error (bufs st) _) as [[[d k]|]|], (nth_error (bufs st') _) as [[[d' k']|]|]; cbn [res_rel buf_rel]; try contradiction; try (intros; exact I).
        intros [Hd <-]. apply (bind_par (data_rel P)); [apply wr_par; assumption|]. intros. repeat split; cbn; try congruence. apply put_par; [assumption|]. split; auto.
    Qed.
    Lemma session_par slack p p' : Forall2 (pstmt_rel P) p p' -> forall st st', heap_rel P st st' ->
      res_rel (heap_rel P) (session O c slack p st) (session O' c slack p' st').
    Proof.
      induction 1 as [|s s' p p' Hs Hp IH]; intros st st' H; cbn [session]; [exact H|].
      generalize (pstep_par slack s s' st st' Hs H). destruct (pstep O c slack s st), (pstep O' c slack s' st'); cbn; try contradiction; auto.
      intros [_ K]. apply IH, K.
    Qed.
  End Order.
End Par.

(** All methods at once. *)
Lemma methods_par {S T} (P : S -> T -> Prop) (O : Ops S) (O' : Ops T) c : arith_rel P O O' ->
  (forall vs vs', Forall2 P vs vs' -> res_rel (Forall2 (num_rel P)) (variables O c vs) (variables O' c vs')) /\
  (forall i v v' n, P v v' -> res_rel (num_rel P) (variable_n O c i v n) (variable_n O' c i v' n)) /\
  (forall v v' n, P v v' -> res_rel (num_rel P) (constant_n O c v n) (constant_n O' c v' n)) /\
  (forall d d', data_rel P d d' -> res_rel (num_rel P) (create c d) (create c d')) /\
  (forall v v' g g', P v v' -> data_rel P g g' -> res_rel (num_rel P) (from_gradient O c v g) (from_gradient O' c v' g')) /\
  (forall v v' g g' h h', P v v' -> data_rel P g g' -> mat_rel P h h' ->
     res_rel (num_rel P) (from_arrays O c v g h) (from_arrays O' c v' g' h')) /\
  forall x x', num_rel P x x' ->
    res_rel P (get_f x) (get_f x') /\
    (forall i, res_rel P (get_g c x i) (get_g c x' i)) /\ (forall i j, res_rel P (get_h c x i j) (get_h c x' i j)) /\
    (forall v v', P v v' -> res_rel (num_rel P) (set_f x v) (set_f x' v')) /\
    (forall i v v', P v v' -> res_rel (num_rel P) (set_g c x i v) (set_g c x' i v')) /\
    (forall i j v v', P v v' -> res_rel (num_rel P) (set_h c x i j v) (set_h c x' i j v')) /\
    res_rel (Forall2 P) (get_ag c x) (get_ag c x') /\ res_rel (Forall2 P) (adata x) (adata x') /\
    (forall g g', data_rel P g g' -> res_rel (num_rel P) (set_ag c x g) (set_ag c x' g')) /\
    (forall mode, res_rel (mat_rel P) (hm O c x mode) (hm O' c x' mode)) /\
    (forall m m', mat_rel P m m' -> res_rel (num_rel P) (set_hm c x m) (set_hm c x' m')) /\
    (forall n, res_rel (num_rel P) (resize O c x n) (resize O' c x' n)) /\
    (forall n, res_rel (num_rel P) (pad_left O c x n) (pad_left O' c x' n)) /\
    (forall n, res_rel (num_rel P) (pad_right O c x n) (pad_right O' c x' n)) /\
    res_rel (num_rel P) (set_zero O x) (set_zero O' x') /\
    (forall d d', Forall2 P d d' -> res_rel P (eval O c x d) (eval O' c x' d')).
Proof.
  intros A.
  repeat match goal with |- _ /\ _ => split end.
  - intros. eapply variables_par; eassumption.
  - intros. eapply variable_n_par; eassumption.
  - intros. eapply constant_n_par; eassumption.
  - intros. eapply create_par; eassumption.
  - intros. eapply from_gradient_par; eassumption.
  - intros. eapply from_arrays_par; eassumption.
  - intros x x' H. repeat match goal with |- _ /\ _ => split end; intros.
    + eapply get_f_par; eassumption.
    + eapply get_g_par; eassumption.
    + eapply get_h_par; eassumption.
    + eapply set_f_par; eassumption.
    + eapply set_g_par; eassumption.
    + eapply set_h_par; eassumption.
    + eapply get_ag_par; eassumption.
    + apply read_all_par, H.
    + eapply set_ag_par; eassumption.
    + eapply hm_par; eassumption.
    + eapply set_hm_par; eassumption.
    + eapply resize_par; eassumption.
    + eapply pad_left_par; eassumption.
    + eapply pad_right_par; eassumption.
    + eapply set_zero_par; eassumption.
    + eapply eval_par; eassumption.
Qed.
