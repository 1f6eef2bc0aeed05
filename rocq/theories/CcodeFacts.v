(** The C++ code of a function. *)
From Coq Require Import String Ascii List Bool Arith Lia Decimal DecimalString DecimalNat.
From Verif Require Import IndexModel HashPrint CcodeModel CcodeSpec.
Import ListNotations.
Local Open Scope string_scope. Local Open Scope list_scope. Local Open Scope nat_scope.

Lemma joined_cons : forall t ts, joined (t :: ts) = append t (joined ts).
Proof. reflexivity. Qed.
Lemma joined_app : forall a b, joined (a ++ b) = append (joined a) (joined b).
Proof. induction a as [|t a IH]; intros b; [reflexivity|]. change (append t (joined (a ++ b)) = append (append t (joined a)) (joined b)). rewrite IH, append_assoc_str. reflexivity. Qed.
Lemma chars_app : forall a b, chars (append a b) = chars a ++ chars b.
Proof. induction a as [|c a IH]; intros b; [reflexivity|]. cbn [append chars app]. rewrite IH. reflexivity. Qed.

(** The first character, if any, is not a word character. *)
Definition stops (s : string) : Prop := match s with EmptyString => True | String c _ => is_word c = false end.
Lemma prefix_stops : forall p t rest, Forall (fun c => is_word c = true) (chars p) -> stops rest -> String.prefix p (append t rest) = String.prefix p t.
Proof.
  induction p as [|a p IH]; intros [|b t] rest Hp Hr; [destruct rest; reflexivity|reflexivity| |].
  - cbn [append]. destruct rest as [|c rest]; [reflexivity|]. cbn [String.prefix]. cbn [chars] in Hp. apply Forall_inv in Hp. cbn [stops] in Hr. destruct (ascii_dec a c) as [->|]; [|reflexivity]. rewrite Hp in Hr. discriminate Hr.
  - cbn [append String.prefix]. destruct (ascii_dec a b); [|reflexivity]. apply IH; [|exact Hr]. cbn [chars] in Hp. apply Forall_inv_tail in Hp. exact Hp.
Qed.
Section Sub.
Variables pat rep : string.
Hypothesis Hpat : name pat.
Lemma sub_inside : forall t rest, Forall (fun c => is_word c = true) (chars t) -> re_sub pat rep 0 true (append t rest) = append t (re_sub pat rep 0 true rest).
Proof.
  induction t as [|c t IH]; intros rest Ht; [reflexivity|]. cbn [chars] in Ht. pose proof (Forall_inv Ht) as Hc. apply Forall_inv_tail in Ht. cbn [append re_sub]. rewrite Hc. cbn [xorb andb]. rewrite IH by exact Ht. reflexivity.
Qed.
Lemma sub_skip : forall t rest word, t <> EmptyString -> Forall (fun c => is_word c = true) (chars t) -> re_sub pat rep (String.length t) word (append t rest) = re_sub pat rep 0 true rest.
Proof.
  induction t as [|c t IH]; intros rest word Hn Ht; [contradiction|]. cbn [chars] in Ht. pose proof (Forall_inv Ht) as Hc. apply Forall_inv_tail in Ht. cbn [append re_sub String.length]. rewrite Hc.
  destruct t as [|c' t]; [reflexivity|]. apply IH; [discriminate|exact Ht].
Qed.
Lemma sub_match : forall rest, stops rest -> re_sub pat rep 0 false (append pat rest) = append rep (re_sub pat rep 0 true rest).
Proof.
  intros rest Hr. destruct Hpat as [Hn Hw]. destruct pat as [|c p] eqn:E; [contradiction|]. rewrite <- E in *. pose proof Hw as Hw'. rewrite E in Hw'. cbn [chars] in Hw'. pose proof (Forall_inv Hw') as Hc. apply Forall_inv_tail in Hw'.
  rewrite E at 2. cbn [append re_sub]. rewrite Hc. cbn [xorb andb].
  replace (String.prefix pat (String c (append p rest))) with true.
  2:{ change (String c (append p rest)) with (append (String c p) rest). rewrite <- E. rewrite prefix_stops by assumption. symmetry. clear. induction pat as [|a q IH]; [reflexivity|]. cbn [String.prefix]. destruct (ascii_dec a a); [exact IH|contradiction]. }
  f_equal. replace (String.length pat - 1) with (String.length p) by (rewrite E; cbn [String.length]; lia). destruct p as [|c' p]; [reflexivity|]. apply sub_skip; [discriminate|exact Hw'].
Qed.
Lemma sub_name : forall t rest, name t -> stops rest -> String.prefix pat t = false -> re_sub pat rep 0 false (append t rest) = append t (re_sub pat rep 0 true rest).
Proof.
  intros t rest [Hn Ht] Hr Hp. destruct t as [|c t]; [contradiction|]. cbn [chars] in Ht. pose proof (Forall_inv Ht) as Hc. apply Forall_inv_tail in Ht. pose proof (prefix_stops pat (String c t) rest (proj2 Hpat) Hr) as G. rewrite Hp in G.
  cbn [append re_sub]. cbn [append] in G. rewrite G, andb_false_r, Hc. rewrite sub_inside by exact Ht. reflexivity.
Qed.
Lemma sub_sign : forall c rest word, is_word c = false -> re_sub pat rep 0 word (String c rest) = String c (re_sub pat rep 0 false rest).
Proof.
  intros c rest word Hc. cbn [re_sub]. rewrite Hc. replace (String.prefix pat (String c rest)) with false; [rewrite andb_false_r; reflexivity|]. symmetry. destruct Hpat as [Hn Hw]. destruct pat as [|a p]; [contradiction|]. cbn [String.prefix chars] in *.
  apply Forall_inv in Hw. destruct (ascii_dec a c) as [->|]; [congruence|reflexivity].
Qed.

Definition chain (ts : list string) : Prop := Forall (fun t => name t \/ sign t) ts /\ forall a t u b, ts = a ++ t :: u :: b -> ~ (name t /\ name u).
Lemma chain_tail : forall t ts, chain (t :: ts) -> chain ts.
Proof. intros t ts [H1 H2]. split; [apply Forall_inv_tail in H1; exact H1|]. intros a u v b ->. apply (H2 (t :: a) u v b). reflexivity. Qed.
Lemma chain_stops : forall t ts, chain (t :: ts) -> name t -> stops (joined ts).
Proof.
  intros t [|u ts] [H1 H2] Ht; [exact I|]. rewrite joined_cons. apply Forall_inv_tail, Forall_inv in H1. destruct H1 as [Hu|(c & -> & Hc)]; [exfalso; apply (H2 [] t u ts eq_refl); auto|]. exact Hc.
Qed.
(** [word] may be true only before a sign. *)
Lemma sub_chain : forall ts word, chain ts -> (word = true -> stops (joined ts)) -> (forall t, In t ts -> String.prefix pat t = true -> t = pat) ->
  re_sub pat rep 0 word (joined ts) = joined (map (fun t => if String.eqb t pat then rep else t) ts).
Proof.
  induction ts as [|t ts IH]; intros word Hc Hw Hp; [reflexivity|]. cbn [map]. rewrite !joined_cons. pose proof (chain_tail _ _ Hc) as Hc'. assert (Hp' : forall t, In t ts -> String.prefix pat t = true -> t = pat) by (intros u Hu; apply Hp; right; exact Hu).
  destruct (Forall_inv (proj1 Hc)) as [Ht|(c & -> & Hs)].
  - pose proof (chain_stops _ _ Hc Ht) as Hst. assert (word = false) as ->. { destruct word; [|reflexivity]. specialize (Hw eq_refl). rewrite joined_cons in Hw. destruct Ht as [Hn Ht]. destruct t as [|c t]; [contradiction|]. cbn [append stops] in Hw. apply Forall_inv in Ht. congruence. }
    rewrite <- (IH true Hc' (fun _ => Hst) Hp'). destruct (String.eqb t pat) eqn:E.
    + apply String.eqb_eq in E. subst t. apply sub_match. exact Hst.
    + apply sub_name; [exact Ht|exact Hst|]. destruct (String.prefix pat t) eqn:Ep; [|reflexivity]. rewrite (Hp t (or_introl eq_refl) Ep), String.eqb_refl in E. discriminate E.
  - cbn [append]. rewrite sub_sign by exact Hs. rewrite (IH false Hc' ltac:(discriminate) Hp'). destruct (String.eqb (String c "") pat) eqn:E; [|reflexivity]. exfalso. apply String.eqb_eq in E. destruct Hpat as [_ Hw']. rewrite <- E in Hw'. apply Forall_inv in Hw'. cbn in Hw'. congruence.
Qed.
End Sub.

Lemma digits : forall d, Forall (fun c => in_range "0" c "9" = true) (chars (NilEmpty.string_of_uint d)).
Proof. induction d; cbn [NilEmpty.string_of_uint chars]; constructor; try exact IHd; reflexivity. Qed.
Lemma range_word : forall l, Forall (fun c => in_range "0" c "9" = true) l -> Forall (fun c => is_word c = true) l.
Proof. intros l H. eapply Forall_impl; [|exact H]. intros c Hc. unfold is_word. rewrite Hc. reflexivity. Qed.
Lemma to_string_digits : forall n, Forall (fun c => in_range "0" c "9" = true) (chars (to_string n)).
Proof. intros n. unfold to_string. apply digits. Qed.
Lemma to_string_name : forall n, name (to_string n).
Proof.
  intros n. split; [|apply range_word, to_string_digits]. intros H. unfold to_string in H. destruct (Nat.to_uint n) eqn:E; cbn [NilEmpty.string_of_uint] in H; try discriminate H.
  assert (G : n = 0) by (rewrite <- (Unsigned.of_to n), E; reflexivity). subst n. discriminate E.
Qed.
Lemma variable_name : forall d, name (variable d).
Proof. intros d. split; [discriminate|]. unfold variable. rewrite chars_app. apply Forall_app. split; [repeat constructor|apply to_string_name]. Qed.
Lemma variable_inj : forall a b, variable a = variable b -> a = b.
Proof. intros a b H. unfold variable in H. cbn [append] in H. injection H as H. apply to_string_inj. exact H. Qed.
Definition pieces (i : nat) : list string := ["v"; "["; to_string i; "]"].
Lemma pieces_joined : forall i, joined (pieces i) = coordinate i.
Proof. reflexivity. Qed.
Lemma variable_digits : forall d i, String.prefix (variable d) (to_string i) = false.
Proof.
  intros d i. pose proof (to_string_digits i) as H. destruct (to_string i) as [|c s]; [reflexivity|]. unfold variable. cbn [append String.prefix]. destruct (ascii_dec "x" c) as [<-|]; [|reflexivity]. apply Forall_inv in H. discriminate H.
Qed.
(** One substitution in the names. *)
Definition expand (d i : nat) (t : string) : list string := if String.eqb t (variable d) then pieces i else [t].
Lemma sign_not_name : forall t, sign t -> ~ name t.
Proof. intros t (c & -> & Hc) [_ H]. apply Forall_inv in H. congruence. Qed.
Lemma sign_v : forall s, s = "[" \/ s = "]" -> sign s.
Proof. intros s [->| ->]; eexists; split; reflexivity. Qed.
(** a chain that does not begin with a name if [word] *)
Lemma chain_cons : forall t ts, (name t \/ sign t) -> chain ts -> (name t -> match ts with u :: _ => ~ name u | [] => True end) -> chain (t :: ts).
Proof.
  intros t ts Ht [H1 H2] Hn. split; [constructor; assumption|]. intros [|x a] u v b E; cbn [app] in E.
  - injection E as -> ->. intros [Hu Hv]. exact (Hn Hu Hv).
  - injection E as -> ->. apply (H2 a u v b eq_refl).
Qed.
Lemma expand_head : forall d i ts, match ts with u :: _ => ~ name u | [] => True end -> match flat_map (expand d i) ts with u :: _ => ~ name u | [] => True end.
Proof.
  intros d i [|u ts] H; [exact I|]. cbn [flat_map]. unfold expand. destruct (String.eqb u (variable d)) eqn:E; [|exact H]. apply String.eqb_eq in E. subst u. exfalso. apply H, variable_name.
Qed.
Lemma expand_chain : forall d i ts, chain ts -> chain (flat_map (expand d i) ts).
Proof.
  intros d i. induction ts as [|t ts IH]; intros H; [exact H|]. pose proof (IH (chain_tail _ _ H)) as G. cbn [flat_map].
  assert (Hh : name t -> match flat_map (expand d i) ts with u :: _ => ~ name u | [] => True end).
  { intros Ht. apply expand_head. destruct ts as [|u ts]; [exact I|]. intros Hu. apply (proj2 H [] t u ts eq_refl). auto. }
  unfold expand at 1. destruct (String.eqb t (variable d)) eqn:E; cbn [app].
  - apply String.eqb_eq in E. subst t. unfold pieces. cbn [app].
    apply chain_cons; [left; split; [discriminate|repeat constructor]| |intros _; apply (sign_not_name "["), sign_v; auto].
    apply chain_cons; [right; apply sign_v; auto| |intros Hs; exfalso; revert Hs; apply sign_not_name, sign_v; auto].
    apply chain_cons; [left; apply to_string_name| |intros _; apply (sign_not_name "]"), sign_v; auto].
    apply chain_cons; [right; apply sign_v; auto|exact G|intros Hs; exfalso; revert Hs; apply sign_not_name, sign_v; auto].
  - apply chain_cons; [exact (Forall_inv (proj1 H))|exact G|exact Hh].
Qed.
Lemma expand_joined : forall d i ts, joined (flat_map (expand d i) ts) = joined (map (fun t => if String.eqb t (variable d) then coordinate i else t) ts).
Proof.
  intros d i. induction ts as [|t ts IH]; [reflexivity|]. cbn [flat_map map]. rewrite joined_app, joined_cons, IH. f_equal. unfold expand. destruct (String.eqb t (variable d)); [apply pieces_joined|]. cbn [joined fold_right]. clear. induction t as [|c t IH]; [reflexivity|]. cbn [append]. rewrite IH. reflexivity.
Qed.
(** All substitutions. *)
Fixpoint renamed (i : nat) (dirs : list nat) (t : string) : string :=
  match dirs with [] => t | d :: dirs => if String.eqb t (variable d) then coordinate i else renamed (S i) dirs t end.
Lemma loop_chain : forall dirs i ts, chain ts -> (forall t d, In t ts -> In d dirs -> String.prefix (variable d) t = true -> t = variable d) ->
  ccode_loop i dirs (joined ts) = joined (map (renamed i dirs) ts).
Proof.
  induction dirs as [|d dirs IH]; intros i ts Hc Hp; [cbn [ccode_loop]; rewrite map_ext with (g := fun t => t) by reflexivity; rewrite map_id; reflexivity|]. cbn [ccode_loop].
  change (append "x" (to_string d)) with (variable d). change (append "v[" (append (to_string i) "]")) with (coordinate i).
  rewrite (sub_chain _ _ (variable_name d) ts false Hc) by (first [discriminate|intros t Ht; apply Hp; [exact Ht|left; reflexivity]]).
  rewrite <- expand_joined. rewrite IH.
  - induction ts as [|t ts IHt]; [reflexivity|]. cbn [flat_map map]. rewrite map_app, joined_app, joined_cons. rewrite IHt; [|exact (chain_tail _ _ Hc)|intros u e Hu; apply Hp; right; exact Hu]. f_equal. unfold expand. cbn [renamed]. destruct (String.eqb t (variable d)).
    + assert (G : forall s, (forall e, s <> variable e) -> renamed (S i) dirs s = s). { clear. intros s H. generalize (S i). induction dirs as [|e dirs IH]; intros j; [reflexivity|]. cbn [renamed]. destruct (String.eqb s (variable e)) eqn:E; [apply String.eqb_eq in E; exfalso; exact (H e E)|apply IH]. }
      cbn [pieces map]. rewrite !G; [apply pieces_joined|discriminate| |discriminate|discriminate]. intros e E. pose proof (variable_digits e i) as V. rewrite E in V. assert (W : forall s, String.prefix s s = true) by (clear; induction s as [|c s IH]; [reflexivity|]; cbn [String.prefix]; destruct (ascii_dec c c); [exact IH|contradiction]). rewrite W in V. discriminate V.
    + cbn [map joined fold_right]. clear. generalize (renamed (S i) dirs t). intros s. induction s as [|c s IH]; [reflexivity|]. cbn [append]. rewrite IH. reflexivity.
  - apply expand_chain. exact Hc.
  - intros t e Ht He Hpre. apply in_flat_map in Ht as (u & Hu & Ht). unfold expand in Ht. destruct (String.eqb u (variable d)).
    + exfalso. destruct Ht as [<-|[<-|[<-|[<-|[]]]]]; try discriminate Hpre. rewrite variable_digits in Hpre. discriminate Hpre.
    + destruct Ht as [<-|[]]. apply (Hp u e Hu); [right; exact He|exact Hpre].
Qed.
Lemma renamed_rewritten : forall dirs t, rewritten dirs t (renamed 0 dirs t).
Proof.
  intros dirs t. assert (G : forall i, (exists j d, nth_error dirs j = Some d /\ t = variable d /\ renamed i dirs t = coordinate (i + j)) \/ (forall d, In d dirs -> t <> variable d) /\ renamed i dirs t = t).
  { induction dirs as [|d dirs IH]; intros i; [right; split; [intros d []|reflexivity]|]. cbn [renamed]. destruct (String.eqb t (variable d)) eqn:E.
    - left. exists 0, d. apply String.eqb_eq in E. rewrite Nat.add_0_r. auto.
    - destruct (IH (S i)) as [(j & e & H1 & H2 & H3)|[H1 H2]]; [left; exists (S j), e; rewrite Nat.add_succ_r; auto|right; split; [|exact H2]]. intros e [<-|He]; [intros ->; rewrite String.eqb_refl in E; discriminate E|apply H1; exact He]. }
  exact (G 0).
Qed.
Theorem ccode_ok : forall dirs s ts, parts_of s ts -> (forall t d, In t ts -> In d dirs -> String.prefix (variable d) t = true -> t = variable d) ->
  exists us, Forall2 (rewritten dirs) ts us /\ ccode dirs s = joined us.
Proof.
  intros dirs s ts [-> Hc] Hp. exists (map (renamed 0 dirs) ts). split; [|apply loop_chain; assumption]. clear. induction ts as [|t ts IH]; [constructor|]. cbn [map]. constructor; [apply renamed_rewritten|exact IH].
Qed.
(** Every text has such parts. *)
Theorem parts_exist : forall s, exists ts, parts_of s ts.
Proof.
  induction s as [|c s (ts & -> & Hc)]; [exists []; split; [reflexivity|]; split; [constructor|intros [|] ? ? ? H; discriminate H]|]. fold (chain ts) in Hc.
  destruct (is_word c) eqn:Ec.
  - destruct ts as [|t ts]; [exists [String c ""]; split; [reflexivity|]; apply chain_cons; [left; split; [discriminate|repeat constructor; exact Ec]|exact Hc|exact (fun _ => I)]|].
    destruct (Forall_inv (proj1 Hc)) as [Ht|Ht].
    + exists (String c t :: ts). split; [reflexivity|]. apply chain_cons; [left; split; [discriminate|constructor; [exact Ec|apply Ht]]|exact (chain_tail _ _ Hc)|]. intros _. destruct ts as [|u ts]; [exact I|]. intros Hu. apply (proj2 Hc [] t u ts eq_refl). auto.
    + exists (String c "" :: t :: ts). split; [reflexivity|]. apply chain_cons; [left; split; [discriminate|repeat constructor; exact Ec]|exact Hc|]. intros _. apply sign_not_name. exact Ht.
  - exists (String c "" :: ts). split; [reflexivity|]. assert (Hs : sign (String c "")) by (exists c; auto). apply chain_cons; [right; exact Hs|exact Hc|]. intros Hn. exfalso. exact (sign_not_name _ Hs Hn).
Qed.
Lemma prefix_sample : parts_of "x10" ["x10"].
Proof. split; [reflexivity|]. split; [constructor; [left; split; [discriminate|repeat constructor]|constructor]|]. intros [|x [|y a]] t u b H; discriminate H. Qed.
Theorem ccode_prefix_refuted : ~ forall dirs s ts, parts_of s ts -> exists us, Forall2 (rewritten dirs) ts us /\ ccode dirs s = joined us.
Proof.
  intros H. destruct (H [1] "x10" ["x10"] prefix_sample) as (us & H1 & H2). inversion H1 as [|t u ts us' H3 H4]; subst. inversion H4; subst. destruct H3 as [(i & d & Hd & E & _)|[_ E]].
  - destruct i as [|i]; [|destruct i; discriminate Hd]. injection Hd as <-. discriminate E.
  - subst u. vm_compute in H2. discriminate H2.
Qed.
