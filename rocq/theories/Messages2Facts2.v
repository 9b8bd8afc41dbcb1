(** * Facts for C93: texts of operators and viewers *)
From Coq Require Import Ascii Lia.
From Verif Require Import Base BaseFacts PyTree PyTreeFacts Tensor TensorFacts Num Utils UtilsFacts States Controller ControllerFacts Builder Viewer Editor Checkify Layers Wf UtilsSpec LayerSpec.
From Verif Require Import Text TextSpec TextFacts PyStr Messages MessagesSpec MessagesFacts MessagesFacts4 Messages2 Messages2Spec Messages2Facts.
Open Scope string_scope. Open Scope list_scope.

(** ** Operators *)
Section Operators.
  Context {N : numsys} (op : array N -> array N -> res (array N)).
  Lemma plain_begins ctx : plain_context ctx -> one_line ctx = true /\ begins ctx.
  Proof. intros [O H]. split; [exact O|]. destruct ctx as [|c r]; [destruct H|]. cbn. intros [E|E]; [now apply (proj1 H)|now apply (proj2 H)]. Qed.
  Lemma operands_says ctx : plain_context ctx -> format_error_message "
        An issue occurred while setting up the pytrees composing
        the two operands to be compatible.
        " ctx = operands_message ctx.
  Proof.
    intros P. apply plain_begins in P as [O B].
    exact (format_shown_b "        " "An issue occurred while setting up the pytrees composing" ["the two operands to be compatible."] ctx
      eq_refl ltac:(cbn; intros [Z|Z]; discriminate) eq_refl eq_refl O B).
  Qed.
  Lemma operator_says ctx i : plain_context ctx -> format_error_message ("
                An issue occurred while trying to execute the operator. It failed
                while attempting to execute the operators on leafs '" ++ str_int i ++ "'
                ") ctx = operator_message ctx i.
  Proof.
    intros P. apply plain_begins in P as [O B].
    etransitivity; [|apply (format_shown_b "                " "An issue occurred while trying to execute the operator. It failed"
      ["while attempting to execute the operators on leafs '" ++ str_int i ++ "'"]%string ctx); try assumption; try reflexivity].
    - f_equal. unfold lines. normal. reflexivity.
    - cbn; intros [Z|Z]; discriminate.
    - cbn [forallb]. rewrite !one_line_app, one_line_str_int. reflexivity.
  Qed.
  Lemma operates_iff x y : operates op x y <-> exists z, apply_left_broadcast op x y = Ok z.
  Proof.
    unfold operates. cbv zeta. split; intros [z H]; exists z; rewrite apply_left_char in *; [apply rewrap_ok; exact H|apply rewrap_ok in H; exact H].
  Qed.
  Lemma operates_dec x y : (exists z, apply_left_broadcast op x y = Ok z /\ operates op x y) \/ (apply_left_broadcast op x y = Err RuntimeError /\ ~ operates op x y).
  Proof.
    destruct (apply_left_broadcast op x y) as [z|e] eqn:E; [left|right].
    - exists z. split; [reflexivity|]. apply operates_iff. eauto.
    - split; [|rewrite operates_iff, E; intros [z H]; discriminate]. rewrite apply_left_char in E. apply rewrap_err in E. congruence.
  Qed.
  Lemma operate_says ctx la : plain_context ctx -> forall i lb,
    (exists out, m_operate op i la lb ctx = Gives out /\ mapM2 (apply_left_broadcast op) la lb = Ok out /\
       forall j x y, nth_error la j = Some x -> nth_error lb j = Some y -> operates op x y) \/
    (exists j x y, m_operate op i la lb ctx = Throws RuntimeError (Some (operator_message ctx (i + j))) /\ mapM2 (apply_left_broadcast op) la lb = Err RuntimeError /\
       nth_error la j = Some x /\ nth_error lb j = Some y /\ ~ operates op x y /\
       forall k x y, k < j -> nth_error la k = Some x -> nth_error lb k = Some y -> operates op x y).
  Proof.
    intros P. induction la as [|a la IH]; intros i [|b lb]; cbn [m_operate mapM2].
    - left. exists []. split; [reflexivity|]. split; [reflexivity|]. intros [|j]; discriminate.
    - left. exists []. split; [reflexivity|]. split; [reflexivity|]. intros [|j]; discriminate.
    - left. exists []. split; [reflexivity|]. split; [reflexivity|]. intros [|j] x y ?; discriminate.
    - destruct (operates_dec a b) as [(z & E & O)|[E O]]; rewrite E; cbn [bind].
      + destruct (IH (S i) lb) as [(out & -> & -> & H)|(j & x & y & -> & -> & Hx & Hy & O' & H)]; cbn [obind bind].
        * left. exists (z :: out). split; [reflexivity|]. split; [reflexivity|]. intros [|j] x y; cbn; [intros [= <-] [= <-]; exact O|apply H].
        * right. exists (S j), x, y. rewrite Nat.add_succ_r. split; [reflexivity|]. split; [reflexivity|]. repeat (split; [assumption|]).
          intros [|k] x' y' Hk; cbn; [intros [= <-] [= <-]; exact O|apply H; lia].
      + right. exists 0, a, b. rewrite Nat.add_0_r, operator_says by exact P. repeat (split; [first [reflexivity | assumption]|]). intros k x y Hk. lia.
  Qed.
  Lemma failure_fun a b i j : first_failure op a b i -> first_failure op a b j -> i = j.
  Proof.
    intros [(x & y & Hx & Hy & O) H] [(x' & y' & Hx' & Hy' & O') H']. destruct (Nat.lt_trichotomy i j) as [L|[L|L]]; [|exact L|]; exfalso; eauto.
  Qed.
  Lemma paired_fun {L M} (a : tree L) (b : tree M) a1 b1 a2 b2 : paired a b a1 b1 -> paired a b a2 b2 -> a1 = a2 /\ b1 = b2.
  Proof.
    assert (X : forall o, spreads a b o -> clash a b -> False) by (intros o Sp C; rewrite clash_iff in C; apply spreads_gives in Sp as [G _]; eapply C; exact G).
    intros [[S1 ->]|(C1 & S1 & ->)] [[S2 ->]|(C2 & S2 & ->)]; [|exfalso; eauto|exfalso; eauto|]; (split; [|reflexivity] || (split; [reflexivity|])); eapply spreads_fun; eassumption.
  Qed.
  Theorem binary_says ctx a b : plain_context ctx -> tree_wf a = true -> tree_wf b = true ->
    (exists out a' b', m_execute_binary op a b ctx = Gives out /\ paired a b a' b' /\
       forall j x y, nth_error (leaves a') j = Some x -> nth_error (leaves b') j = Some y -> operates op x y) \/
    (m_execute_binary op a b ctx = Throws RuntimeError (Some (operands_message ctx)) /\ forall a' b', ~ paired a b a' b') \/
    (exists a' b' i, m_execute_binary op a b ctx = Throws RuntimeError (Some (operator_message ctx i)) /\ paired a b a' b' /\ first_failure op a' b' i).
  Proof.
    intros P Wa Wb. unfold m_execute_binary. rewrite (operands_says ctx P).
    assert (X : (exists a' b', (match broadcast_pytree_shape a b with
           | Ok a' => Ok (a', b) | Err RuntimeError => b' <- broadcast_pytree_shape b a ;; Ok (a, b') | Err e => Err e end) = Ok (a', b') /\ paired a b a' b' /\ structure a' = structure b') \/
         ((exists e, (match broadcast_pytree_shape a b with
           | Ok a' => Ok (a', b) | Err RuntimeError => b' <- broadcast_pytree_shape b a ;; Ok (a, b') | Err e => Err e end) = Err e) /\ forall a' b', ~ paired a b a' b')).
    { destruct (broadcast_pytree_shape a b) as [a0|e] eqn:Ea.
      - left. exists a0, b. split; [reflexivity|]. apply broadcast_pytree_ok in Ea; auto. split; [left; auto|exact (spreads_structure _ _ _ Ea)].
      - destruct (broadcast_pytree_err a b e Wa Wb Ea) as [[-> G]|[-> (o & G & El)]].
        + destruct (broadcast_pytree_shape b a) as [b0|e] eqn:Eb.
          * left. exists a, b0. split; [reflexivity|]. apply broadcast_pytree_ok in Eb; auto. split; [right; split; [now apply clash_iff|auto]|symmetry; exact (spreads_structure _ _ _ Eb)].
          * right. split; [eexists; reflexivity|]. intros a' b' [[Sp ->]|(_ & Sp & ->)].
            -- apply spreads_gives in Sp as [G' _]. eapply G; exact G'.
            -- apply broadcast_pytree_ok in Sp; auto. congruence.
        + right. split; [eexists; reflexivity|]. intros a' b' [[Sp ->]|(C & _)].
          * apply broadcast_pytree_ok in Sp; auto. congruence.
          * rewrite clash_iff in C. eapply C; exact G. }
    destruct X as [(a' & b' & -> & Pr & Es)|[[e ->] Np]]; [|right; left; auto].
    destruct (operate_says ctx (leaves a') P 0 (leaves b')) as [(out & -> & E & H)|(j & x & y & -> & _ & Hx & Hy & O & H)]; cbn [obind].
    - left. apply mapM2_length in E. pose proof (structure_eq_length _ _ Es) as El.
      destruct (unflatten_ok (structure a') out) as (o & -> & _); [rewrite length_leaves_structure; lia|]. exists o, a', b'. auto.
    - right; right. exists a', b', j. split; [reflexivity|]. split; [exact Pr|]. split; [eauto|exact H].
  Qed.
  Lemma operate_without ctx la : forall i lb, without_text (m_operate op i la lb ctx) = mapM2 (apply_left_broadcast op) la lb.
  Proof.
    induction la as [|a la IH]; intros i [|b lb]; cbn [m_operate mapM2]; try reflexivity. destruct (apply_left_broadcast op a b) as [z|e] eqn:E; cbn [bind].
    - rewrite <- (IH (S i) lb). destruct (m_operate op (S i) la lb ctx); reflexivity.
    - rewrite apply_left_char in E. apply rewrap_err in E as ->. reflexivity.
  Qed.
  Lemma binary_without ctx a b : without_text (m_execute_binary op a b ctx) = execute_binary_operator op a b.
  Proof.
    unfold m_execute_binary, execute_binary_operator.
    match goal with |- without_text (match ?x with Ok _ => _ | Err _ => _ end) = _ => destruct x as [[a' b']|e] end; [|reflexivity]. cbn [rewrap bind].
    rewrite <- (operate_without ctx (leaves a') 0 (leaves b')). destruct (m_operate op 0 (leaves a') (leaves b') ctx); [|reflexivity]. cbn [obind without_text bind].
    destruct (unflatten _ _); reflexivity.
  Qed.
  Lemma operator_message_tells ctx ctx' i j : one_line ctx = true -> one_line ctx' = true -> operator_message ctx i = operator_message ctx' j -> ctx = ctx' /\ i = j.
  Proof.
    intros O O' E. unfold operator_message in E. unfold shown in E at 1 2. cbn [app] in E. rewrite !lines_cons in E. apply line_cancel in E as [-> E]; [|assumption|assumption].
    split; [reflexivity|]. unfold lines in E. cbn [map app String.concat append] in E. deeper E. reflexivity.
  Qed.
End Operators.

(** ** Viewers and the doors of editors *)
Section Viewers.
  Context {N : numsys}.
  Lemma transform_without (s : state N) f : without_text (m_transform s f) = transform s f.
  Proof.
    unfold m_transform, transform. match goal with |- without_text (match ?x with Ok _ => _ | Err _ => _ end) = _ => destruct x as [[[[[[a b] c] d] e] g]|e] end; [|reflexivity].
    cbn [rewrap bind]. destruct (replace _ _); reflexivity.
  Qed.
  Lemma mask_without (s : state N) d m : without_text (m_mask_data s d m) = mask_data s d m.
  Proof.
    unfold m_mask_data, mask_data, complain. destruct (dtype_eqb d DBool); cbn [obind guard bind]; [|reflexivity].
    destruct (shape_eqb _ _); cbn [obind guard bind]; [apply transform_without|reflexivity].
  Qed.
  Lemma edit_without2 (s : state N) mode : without_text (m_edit s mode) = edit_save s mode /\ without_text (m_edit s mode) = edit_controller s mode.
  Proof. unfold m_edit, edit_save, edit_controller, complain. destruct (existsb _ _); split; reflexivity. Qed.
End Viewers.
