(** Proofs about the options of the methods of Quad. *)
From Coq Require Import String List Bool Arith Lia.
From Verif Require Import Base OptModel OptSpec.
Import ListNotations.
Local Open Scope string_scope. Local Open Scope list_scope. Local Open Scope nat_scope.

Lemma lookup_none : forall kw n, ~ In n (map fst kw) -> lookup n kw = None.
Proof.
  induction kw as [|[k v] kw IH]; intros n H; [reflexivity|]. cbn in *. destruct (String.eqb k n) eqn:E; [apply String.eqb_eq in E; tauto|]. apply IH. tauto.
Qed.
Lemma lookup_some : forall kw n, In n (map fst kw) -> lookup n kw <> None.
Proof.
  induction kw as [|[k v] kw IH]; intros n H; [destruct H|]. cbn in *. destruct (String.eqb k n) eqn:E; [discriminate|]. destruct H as [H|H]; [subst; rewrite String.eqb_refl in E; discriminate E|]. apply IH. exact H.
Qed.
Lemma find_name : forall (sig : signature) n d, NoDup (names sig) -> In (n, d) sig -> find (fun '(m, _) => String.eqb m n) sig = Some (n, d).
Proof.
  induction sig as [|[m e] sig IH]; intros n d Hd Hi; [destruct Hi|]. cbn in *. inversion_clear Hd as [|? ? Hn Hd']. destruct Hi as [Hi|Hi]; [injection Hi as -> ->; rewrite String.eqb_refl; reflexivity|].
  destruct (String.eqb m n) eqn:E; [|apply IH; assumption]. apply String.eqb_eq in E. subst m. destruct Hn. apply in_map_iff. exists (n, d). split; [reflexivity|exact Hi].
Qed.

Lemma bind_rest : forall sig kw, NoDup (names sig) -> (forall n, In (n, None) sig -> lookup n kw <> None) ->
  exists b, bind_params sig [] kw = Ok b /\ map fst b = names sig /\ forall n, In n (names sig) -> lookup n b = option_value sig kw n.
Proof.
  induction sig as [|[m d] sig IH]; intros kw Hd Hn; [exists []; repeat split; intros n []|]. inversion_clear Hd as [|? ? Hm Hd']. fold (names sig) in Hm, Hd'.
  destruct (IH kw Hd') as (b & B1 & B2 & B3); [intros n Hi; apply Hn; right; exact Hi|].
  assert (Hv : exists v, option_value ((m, d) :: sig) kw m = Some v /\ bind_params ((m, d) :: sig) [] kw = Ok ((m, v) :: b)).
  { unfold option_value. cbn [bind_params find]. rewrite B1, String.eqb_refl. destruct (lookup m kw) as [v|] eqn:E; [exists v; split; reflexivity|]. destruct d as [v|]; [exists v; split; reflexivity|]. destruct (Hn m (or_introl eq_refl) E). }
  destruct Hv as (v & V1 & V2). exists ((m, v) :: b). split; [exact V2|]. split; [cbn; f_equal; exact B2|]. intros n Hi. cbn [lookup]. destruct (String.eqb m n) eqn:E.
  - apply String.eqb_eq in E. subst n. symmetry. exact V1.
  - destruct Hi as [Hi|Hi]; [cbn in Hi; subst; rewrite String.eqb_refl in E; discriminate E|]. rewrite B3 by exact Hi. unfold option_value. cbn [find]. rewrite E. reflexivity.
Qed.

Lemma names_ok : forall sig, In sig methods -> NoDup (names sig) /\ exists f opts, sig = ("self", None) :: (f, None) :: opts.
Proof.
  intros sig H. repeat (destruct H as [<-|H]); [..|destruct H]; (split; [cbn; repeat constructor; cbn; intuition discriminate|]); eexists; eexists; reflexivity.
Qed.

Lemma bind_keywords : forall sig q f kw, In sig methods -> complete sig kw -> exists b, bind_call sig [q; f] kw = Ok b /\ map fst b = names sig /\
  map snd (firstn 2 b) = [q; f] /\ forall n, In n (names (skipn 2 sig)) -> lookup n b = option_value sig kw n.
Proof.
  intros sig q f kw Hsig (Hkw & Hin & Hreq). destruct (names_ok sig Hsig) as (Hd & g & opts & ->). cbn [skipn] in *. cbn [names map fst] in Hd. fold (names opts) in Hd. inversion_clear Hd as [|? ? Hs Hd1]. inversion_clear Hd1 as [|? ? Hg Hd2].
  unfold bind_call. replace (forallb _ kw) with true.
  2:{ symmetry. apply forallb_forall. intros [k v] Hk. apply existsb_exists. assert (Hk' : In k (names opts)) by (apply Hin; apply (in_map fst) in Hk; exact Hk). apply in_map_iff in Hk'. destruct Hk' as ([k' e] & <- & Hk'). exists (k', e). split; [right; right; exact Hk'|apply String.eqb_refl]. }
  destruct (bind_rest opts kw Hd2) as (b & B1 & B2 & B3); [intros n Hn; apply lookup_some, Hreq; exact Hn|].
  exists (("self", q) :: (g, f) :: b). cbn [bind_params].
  rewrite (lookup_none kw "self") by (intros H; apply Hs; right; apply Hin; exact H). rewrite (lookup_none kw g) by (intros H; apply Hg; apply Hin; exact H). rewrite B1. cbn [bind].
  split; [reflexivity|]. split; [cbn; f_equal; f_equal; exact B2|]. split; [reflexivity|]. intros n Hn. cbn [lookup].
  assert (E1 : String.eqb "self" n = false) by (apply String.eqb_neq; intros <-; apply Hs; right; exact Hn). assert (E2 : String.eqb g n = false) by (apply String.eqb_neq; intros <-; apply Hg; exact Hn).
  rewrite E1, E2, B3 by exact Hn. unfold option_value. cbn [find]. rewrite E1, E2. reflexivity.
Qed.

Lemma call_keywords : forall sig setting diag f kw, In sig methods -> complete sig kw ->
  exists b, call sig setting [AQuad diag; f] kw = Ok (if wanted setting kw && diag && splittable f then Split b (lookup "sparse" kw) else Plain b) /\
    map fst b = names sig /\ map snd (firstn 2 b) = (if wanted setting kw && diag && splittable f then [AQuad true; AFun] else [AQuad diag; f]) /\
    forall n, In n (names (skipn 2 sig)) -> lookup n b = option_value sig kw n.
Proof.
  intros sig setting diag f kw Hsig Hc. destruct (wanted setting kw && diag && splittable f) eqn:W.
  - apply andb_true_iff in W. destruct W as [W Wf]. apply andb_true_iff in W. destruct W as [W ->]. destruct (bind_keywords sig (AQuad true) AFun kw Hsig Hc) as (b & B1 & B2 & B3 & B4). exists b. split; [|auto].
    unfold call. unfold wanted in W. destruct (lookup "tensorize" kw) as [t|]; destruct f; try discriminate Wf; try (destruct t); rewrite ?W, B1; reflexivity.
  - destruct (bind_keywords sig (AQuad diag) f kw Hsig Hc) as (b & B1 & B2 & B3 & B4). exists b. split; [|auto]. unfold call. rewrite B1. cbn [bind].
    unfold wanted in W. destruct (lookup "tensorize" kw) as [[| | | | | | | |]|]; cbn [truth] in *; repeat match goal with |- context [if ?x then _ else _] => destruct x eqn:?; try reflexivity end;
      destruct f; cbn in *; destruct diag; try discriminate; cbn in *; repeat match goal with H : negb ?x = _ |- _ => destruct x; cbn in *; try discriminate end; try reflexivity.
Qed.

Lemma call_sparse : forall sig setting sparse_setting parts diag f kw p, In sig [sig_varf; sig_varfd] -> complete sig kw -> call sig setting [AQuad diag; f] kw = Ok p ->
  sparse_result sparse_setting parts p = match lookup "sparse" kw with None | Some ANone => sparse_setting | Some v => truth v end.
Proof.
  intros sig setting ss parts diag f kw p Hsig Hc Hp. assert (Hm : In sig methods) by (destruct Hsig as [<-|[<-|[]]]; cbn; tauto).
  destruct (call_keywords sig setting diag f kw Hm Hc) as (b & B1 & _ & _ & B4). rewrite B1 in Hp. injection Hp as <-.
  assert (Hl : lookup "sparse" b = Some (match lookup "sparse" kw with Some v => v | None => ANone end)).
  { rewrite B4 by (destruct Hsig as [<-|[<-|[]]]; cbn; tauto). unfold option_value. destruct (lookup "sparse" kw); [reflexivity|]. destruct Hsig as [<-|[<-|[]]]; reflexivity. }
  destruct (wanted setting kw && diag && splittable f); cbn [sparse_result]; rewrite Hl; [destruct (parts =? 1)|]; destruct (lookup "sparse" kw) as [[]|]; reflexivity.
Qed.

Lemma bind_other : forall sig kw name v, ~ In name (names sig) -> bind_params sig [] ((name, v) :: kw) = bind_params sig [] kw.
Proof.
  induction sig as [|[m d] sig IH]; intros kw name v H; [reflexivity|]. cbn in H. cbn [bind_params lookup]. rewrite (proj2 (String.eqb_neq name m)) by (intros ->; apply H; left; reflexivity). rewrite IH by (intros Hi; apply H; right; exact Hi). reflexivity.
Qed.
Lemma bind_move : forall sig pos kw name d v, NoDup (names sig) -> nth_error sig (length pos) = Some (name, d) -> lookup name kw = None ->
  bind_params sig (pos ++ [v]) kw = bind_params sig pos ((name, v) :: kw).
Proof.
  induction sig as [|[m e] sig IH]; intros pos kw name d v Hd Hn Hl; [destruct pos; discriminate Hn|]. inversion_clear Hd as [|? ? Hm Hd']. fold (names sig) in Hm, Hd'. destruct pos as [|w pos]; cbn [app length nth_error] in *.
  - injection Hn as -> ->. cbn [bind_params lookup]. rewrite String.eqb_refl, Hl, bind_other by exact Hm. reflexivity.
  - cbn [bind_params lookup]. rewrite (proj2 (String.eqb_neq name m)). 2:{ intros ->. apply Hm. apply nth_error_In in Hn. apply (in_map fst) in Hn. exact Hn. } rewrite (IH pos kw name d v Hd' Hn Hl). reflexivity.
Qed.
Lemma call_move : forall sig setting pos kw name d v, In sig methods -> 2 <= length pos -> nth_error sig (length pos) = Some (name, d) -> name <> "tensorize" -> name <> "sparse" -> lookup name kw = None ->
  call sig setting (pos ++ [v]) kw = call sig setting pos ((name, v) :: kw).
Proof.
  intros sig setting pos kw name d v Hsig Hlen Hn Ht Hs Hl. destruct (names_ok sig Hsig) as [Hd _]. destruct pos as [|q [|f pos]]; [cbn in Hlen; lia..|].
  assert (Hb : forall q f, bind_call sig (q :: f :: pos ++ [v]) kw = bind_call sig (q :: f :: pos) ((name, v) :: kw)).
  { intros q' f'. unfold bind_call. cbn [forallb]. replace (existsb _ sig) with true. 2:{ symmetry. apply existsb_exists. exists (name, d). split; [apply nth_error_In in Hn; exact Hn|apply String.eqb_refl]. }
    cbn [andb]. destruct (forallb _ kw); [|reflexivity]. exact (bind_move sig (q' :: f' :: pos) kw name d v Hd Hn Hl). }
  unfold call. cbn [app lookup]. rewrite (proj2 (String.eqb_neq name "tensorize") Ht), (proj2 (String.eqb_neq name "sparse") Hs), !Hb. reflexivity.
Qed.

Lemma bind_too_many : forall sig pos kw, length sig < length pos -> exists e, bind_params sig pos kw = Throw e /\ e = "TypeError".
Proof.
  induction sig as [|[m e] sig IH]; intros [|v pos] kw H; cbn in H; try lia; [exists "TypeError"; split; reflexivity|]. cbn [bind_params]. destruct (lookup m kw); [exists "TypeError"; split; reflexivity|].
  destruct (IH pos kw) as (x & H1 & ->); [lia|]. rewrite H1. exists "TypeError". split; reflexivity.
Qed.
Lemma call_wrong : forall sig setting pos kw, 2 <= length pos -> (exists k, In k (map fst kw) /\ ~ In k (names sig)) \/ length sig < length pos -> call sig setting pos kw = Throw "TypeError".
Proof.
  intros sig setting pos kw Hlen Hw. destruct pos as [|q [|f pos]]; [cbn in Hlen; lia..|].
  assert (Hb : forall q f, bind_call sig (q :: f :: pos) kw = Throw "TypeError").
  { intros q' f'. unfold bind_call. destruct (forallb _ kw) eqn:Hk; [|reflexivity]. destruct Hw as [(k & K1 & K2)|Hw].
    - apply in_map_iff in K1. destruct K1 as ([k' v] & <- & K1). rewrite forallb_forall in Hk. specialize (Hk _ K1). apply existsb_exists in Hk. destruct Hk as ([m e] & M1 & M2). apply String.eqb_eq in M2. subst m. destruct K2. apply (in_map fst) in M1. exact M1.
    - destruct (bind_too_many sig (q' :: f' :: pos) kw) as (x & X1 & ->); [exact Hw|exact X1]. }
  unfold call. rewrite !Hb. cbn [bind]. repeat match goal with |- context [if ?b then _ else _] => destruct b end; reflexivity.
Qed.
