(** Property C116: the options of integrate, transform, varf and varfd. *)
From Coq Require Import String List Bool Arith Lia.
From Verif Require Import Base OptModel OptSpec OptFacts.
Import ListNotations.
Local Open Scope string_scope. Local Open Scope list_scope. Local Open Scope nat_scope.

Definition ex_kw : keywords := [("index_set", AStr "cube"); ("tensorize", ABool true); ("degree", AInt 3); ("sparse", ABool true)].
Lemma ex_kw_complete : complete sig_varf ex_kw.
Proof. split; [cbn; repeat constructor; cbn; intuition discriminate|]. split; cbn; intros n; intuition (subst; auto; try discriminate). injection H0 as <-. tauto. Qed.

(** C116: with the options as keywords, in any order, a call of any of the four methods is split into groups of variables exactly when the
    option tensorize, or else the setting, asks for it, the quadrature is diagonal and the argument is a function; and every option has the
    value that the caller gave, or else its default. *)
Theorem C116_keywords : forall sig setting diag f kw, In sig methods -> complete sig kw ->
  exists b, call sig setting [AQuad diag; f] kw = Ok (if wanted setting kw && diag && splittable f then Split b (lookup "sparse" kw) else Plain b) /\
    map fst b = names sig /\ map snd (firstn 2 b) = (if wanted setting kw && diag && splittable f then [AQuad true; AFun] else [AQuad diag; f]) /\
    forall n, In n (names (skipn 2 sig)) -> lookup n b = option_value sig kw n.
Proof. exact call_keywords. Qed.
Print Assumptions C116_keywords.
Example C116_keywords_example : In sig_varf methods /\ complete sig_varf ex_kw /\ wanted false ex_kw = true /\ option_value sig_varf ex_kw "index_set" = Some (AStr "cube").
Proof. split; [cbn; tauto|]. split; [exact ex_kw_complete|]. split; reflexivity. Qed.

(** C116: then varf and varfd return a sparse form exactly when the option sparse, or else the setting, asks for it, into however many
    groups of variables the terms are split. *)
Theorem C116_sparse : forall sig setting sparse_setting parts diag f kw p, In sig [sig_varf; sig_varfd] -> complete sig kw -> call sig setting [AQuad diag; f] kw = Ok p ->
  sparse_result sparse_setting parts p = match lookup "sparse" kw with None | Some ANone => sparse_setting | Some v => truth v end.
Proof. exact call_sparse. Qed.
Print Assumptions C116_sparse.
Example C116_sparse_example : complete sig_varf ex_kw /\ exists b s, call sig_varf false [AQuad true; AFun] ex_kw = Ok (Split b s).
Proof. split; [exact ex_kw_complete|]. eexists. eexists. reflexivity. Qed.

(** C116: an option other than sparse and tensorize may be given by position or by keyword. *)
Theorem C116_positions : forall sig setting pos kw name d v, In sig methods -> 2 <= length pos -> nth_error sig (length pos) = Some (name, d) -> name <> "tensorize" -> name <> "sparse" -> lookup name kw = None ->
  call sig setting (pos ++ [v]) kw = call sig setting pos ((name, v) :: kw).
Proof. exact call_move. Qed.
Print Assumptions C116_positions.
Example C116_positions_example : nth_error sig_transform (length [AQuad true; AFun]) = Some ("degree", None) /\
  exists p, call sig_transform true [AQuad true; AFun; AInt 3] [] = Ok p /\ call sig_transform true [AQuad true; AFun] [("degree", AInt 3)] = Ok p.
Proof. split; [reflexivity|]. eexists. split; reflexivity. Qed.

(** C116, false for tensorize: by position it is ignored ... *)
Theorem C116_tensorize_refuted : ~ forall sig setting pos kw name d v, In sig methods -> 2 <= length pos -> nth_error sig (length pos) = Some (name, d) -> lookup name kw = None ->
  call sig setting (pos ++ [v]) kw = call sig setting pos ((name, v) :: kw).
Proof. intros H. specialize (H sig_integrate false [AQuad true; AFun; ABool false] [] "tensorize" (Some ANone) (ABool true) ltac:(cbn; tauto) ltac:(cbn; lia) eq_refl eq_refl). discriminate H. Qed.
Print Assumptions C116_tensorize_refuted.
(** ... and false for sparse: by position it does not reach the product of the parts, so that the format is that of the setting. *)
Theorem C116_sparse_refuted : ~ forall sig setting sparse_setting parts pos d v p p', In sig [sig_varf; sig_varfd] -> 2 <= length pos -> nth_error sig (length pos) = Some ("sparse", d) ->
  call sig setting (pos ++ [v]) [] = Ok p -> call sig setting pos [("sparse", v)] = Ok p' -> sparse_result sparse_setting parts p = sparse_result sparse_setting parts p'.
Proof.
  intros H. specialize (H sig_varf true false 2 [AQuad true; AFun; AInt 3] (Some ANone) (ABool true) _ _ (or_introl eq_refl) ltac:(cbn; lia) eq_refl eq_refl eq_refl). discriminate H.
Qed.
Print Assumptions C116_sparse_refuted.

(** C116: a call with an unknown option, or with too many arguments, raises TypeError ... *)
Theorem C116_unknown : forall sig setting pos kw, 2 <= length pos -> (exists k, In k (map fst kw) /\ ~ In k (names sig)) \/ length sig < length pos -> call sig setting pos kw = Throw "TypeError".
Proof. exact call_wrong. Qed.
Print Assumptions C116_unknown.
Example C116_unknown_example : (exists k, In k (map fst [("sparse", ABool true)]) /\ ~ In k (names sig_transform)) /\ call sig_transform true [AQuad true; AFun; AInt 3] [("sparse", ABool true)] = Throw "TypeError".
Proof. split; [|reflexivity]. exists "sparse". split; [cbn; tauto|]. cbn. intuition discriminate. Qed.
(** ... and so should a call that is accepted by the method itself not fail; but one with the function as a keyword raises IndexError. *)
Theorem C116_function_keyword_refuted : (forall sig setting quad kw, call sig setting [quad] kw = Throw "IndexError") /\
  ~ (forall sig setting pos kw b, In sig methods -> bind_call sig pos kw = Ok b -> exists p, call sig setting pos kw = Ok p).
Proof.
  split; [reflexivity|]. intros H. destruct (H sig_integrate false [AQuad true] [("function", AFun)] _ (or_introl eq_refl) eq_refl) as [p D]. discriminate D.
Qed.
Print Assumptions C116_function_keyword_refuted.
