(** Proofs for C104. *)
From Coq Require Import String Ascii List Bool Arith ZArith Lia Reals Lra Sorted.
From Verif Require Import Base IndexModel Num Fnum LinSpec CalcSpec CalcModel PyBase SeriesModel FnModel FnSpec FnFacts CcodeModel CcodeSpec CcodeFacts InternModel InternSpec InternFacts Facts11 DiscModel DiscSpec.
Import ListNotations.
Local Open Scope nat_scope.

Section Alone.
Variable F : fnum.
Variable junk : F.
Variable name : string -> string.
Variable compiler : string -> option (list F -> F).
Lemma alone_value : forall body nodes mean factor t, so t (name body) = None ->
  fst (discretize_alone F junk name compiler body nodes mean factor t) = match compiler (source body) with Some func => discretize F junk func nodes mean factor | None => Ub end.
Proof.
  intros body nodes mean factor t H. unfold discretize_alone.
  set (f := fun '(c, t) => step F junk name compiler (String.length (source body)) c t). set (n := name body). fold n in H.
  assert (S1 : f (Call body nodes mean factor Test, t) = (Call body nodes mean factor Open, t)) by (unfold f, step; cbn [c_stage c_body]; fold n; rewrite H; reflexivity).
  set (t1 := set_cpp t n ""). assert (S2 : f (Call body nodes mean factor Open, t) = (Call body nodes mean factor Write, t1)) by reflexivity.
  set (t2 := set_cpp t1 n (source body)).
  assert (S3 : f (Call body nodes mean factor Write, t1) = (Call body nodes mean factor Compile, t2)) by (unfold f, step; cbn [c_stage c_body]; rewrite Nat.leb_refl, substring_all by lia; reflexivity).
  assert (S4 : f (Call body nodes mean factor Compile, t2) = match compiler (source body) with Some func => (Call body nodes mean factor (Link func), set_so t2 n Partial) | None => (Call body nodes mean factor Load, t2) end).
  { unfold f, step. cbn [c_stage c_body]. fold n. change (cpp t2 n) with (set_file (cpp t1) n (source body) n). rewrite set_file_eq. destruct (compiler (source body)); reflexivity. }
  change (Nat.iter 6 f (Call body nodes mean factor Test, t)) with (f (f (f (f (f (f (Call body nodes mean factor Test, t))))))). rewrite S1, S2, S3, S4. destruct (compiler (source body)) as [func|].
  - assert (S5 : f (Call body nodes mean factor (Link func), set_so t2 n Partial) = (Call body nodes mean factor Load, set_so (set_so t2 n Partial) n (Complete func))) by reflexivity. rewrite S5.
    unfold f, step. cbn [c_stage c_body]. fold n. change (so (set_so (set_so t2 n Partial) n (Complete func)) n) with (set_file (so (set_so t2 n Partial)) n (Complete func) n). rewrite set_file_eq. reflexivity.
  - unfold f, step. cbn [c_stage c_body at_stage]. fold n. change (so t2 n) with (so t n). rewrite H. reflexivity.
Qed.
End Alone.

Section Expr.
Variable E : Type.
Variable free_symbols : E -> list symbol.
Variable subs : E -> symbol -> symbol -> E.
Variable expand : E -> E.
Variable eval : E -> (symbol -> R) -> R.
Variable printed : E -> string.
Variable tokens : E -> list string.
Variable compiler : string -> option (list R -> R).
Hypothesis HL : sympy_laws R E free_symbols subs expand eval.
Hypothesis HP : printing free_symbols printed tokens.
Hypothesis HC : compiling free_symbols eval tokens compiler.
Notation body_of := (body_of E free_symbols subs expand printed).

Lemma body_ok : forall dirs expr, Sorted le dirs -> NoDup dirs -> Forall (fun d => d < 5) dirs -> (forall s, In s (free_symbols expr) -> exists d, In d dirs /\ FnSpec.coordinate (fst s) = Some d) ->
  exists body func, body_of expr dirs = Ok body /\ compiler (source body) = Some func /\ forall v point param, length v = length dirs -> along dirs v point -> func v = eval expr (reading point param).
Proof using HL HP HC.
  intros dirs expr Hs Hn H5 Hv.
  destruct (new_accepts R E free_symbols subs expand eval HL expr dirs Hs H5) as (f & Ef & Df). { intros i (s & Is & Es). destruct (Hv s Is) as (d & Hd & Ed). rewrite Es in Ed. injection Ed as ->. exact Hd. }
  destruct (fn_new_inv E free_symbols subs expand expr (Some dirs) None f Ef) as (Sf & _ & _).
  assert (Pl : plain free_symbols dirs (f_sym f)).
  { intros u Hu. rewrite Sf in Hu. apply (law_expand_free _ _ _ _ _ _ HL) in Hu. destruct (convert_free R E free_symbols subs expand eval HL expr u Hu) as [[Iu Nu]|(s & Is & Cs)].
    - destruct (Hv u Iu) as (d & _ & Ed). destruct (conv_some (fst u) d Ed) as (t & Ct & _). rewrite Nu in Ct. discriminate Ct.
    - destruct (conv_target (fst s) u Cs) as (i & Ci & Ni). destruct (Hv s Is) as (d & Hd & Ed). rewrite Ci in Ed. injection Ed as <-. exists i. split; assumption. }
  destruct (HP dirs (f_sym f) Pl) as (Pp & Pv). destruct (ccode_ok dirs (printed (f_sym f)) (tokens (f_sym f)) Pp (fun t d Ht _ => Pv t d Ht)) as (us & Hu & Eu).
  destruct (HC dirs (f_sym f) us Hn H5 Pl Hu) as (func & Cf & Vf). exists (joined us), func. split; [|split].
  - unfold DiscModel.body_of. rewrite Ef. cbn [bind]. rewrite Df, Eu. reflexivity.
  - exact Cf.
  - intros v point param Lv Al. rewrite (Vf v point param Lv Al). apply (new_value R E free_symbols subs expand eval HL expr (Some dirs) None f Ef).
Qed.

Lemma values_from : forall junk dirs expr nodes mean factor func, length dirs = length nodes -> nodes <> [] -> grid_fits nodes -> length mean = length nodes -> @mat_wf num_R (length nodes) (length nodes) factor ->
  (forall v point param, length v = length dirs -> along dirs v point -> func v = eval expr (reading point param)) -> values_at eval expr dirs nodes mean factor (discretize fnum_R junk func nodes mean factor).
Proof using.
  intros junk dirs expr nodes mean factor func Hd Hn Hg Hm Hf Hv. exists (map (fun p => func (location nodes mean factor p)) (grid nodes)). split; [exact (discretize_R junk func nodes mean factor Hn Hg Hm Hf)|]. split; [apply map_length|].
  intros k p point param Hk Al. rewrite nth_error_map, Hk. cbn [option_map]. f_equal. apply Hv; [|exact Al]. unfold location. rewrite map_length, combine_length. assert (Lf : @length (list R) factor = length nodes) by exact (proj1 Hf). rewrite Hd. etransitivity; [exact (f_equal2 Nat.min Hm Lf)|apply Nat.min_id].
Qed.
Lemma history_values : forall junk name dirs nodes mean factor expr, Sorted le dirs -> NoDup dirs -> Forall (fun d => d < 5) dirs -> (forall s, In s (free_symbols expr) -> exists d, In d dirs /\ FnSpec.coordinate (fst s) = Some d) ->
  length dirs = length nodes -> nodes <> [] -> grid_fits nodes -> length mean = length nodes -> @mat_wf num_R (length nodes) (length nodes) factor ->
  exists body, body_of expr dirs = Ok body /\ forall (bodies : string -> Prop), (forall b b', bodies b -> bodies b' -> name b = name b' -> b = b') ->
  forall (s : system fnum_R) history, @tidy fnum_R name compiler bodies (files s) -> (forall pid, calls s pid = None) -> uses bodies history -> always fnum_R junk name compiler (exclusive name) s history -> no_crash_in_link fnum_R junk name compiler s history ->
  forall pid r, calls (run fnum_R junk name compiler s history) pid = Some (Call (F := fnum_R) body nodes mean factor (Returned r)) -> values_at eval expr dirs nodes mean factor r.
Proof using HL HP HC.
  intros junk name dirs nodes mean factor expr Hs Hn H5 Hv Hd Hne Hg Hm Hf. destruct (body_ok dirs expr Hs Hn H5 Hv) as (body & func & Eb & Ec & Vf). exists body. split; [exact Eb|].
  intros bodies Hb s history T C U A N pid r Hc. pose proof (intern_right fnum_R junk name compiler bodies Hb s history T C U A N pid _ r Hc eq_refl) as G. cbn [c_body] in G.
  destruct G as (func' & Ec' & ->); [change (compiler (source body) <> None); rewrite Ec; discriminate|]. change (compiler (source body) = Some func') in Ec'. rewrite Ec in Ec'. injection Ec' as <-. cbn [c_nodes c_translation c_dilation].
  apply values_from; assumption.
Qed.
Lemma alone_values : forall junk name dirs nodes mean factor expr t, Sorted le dirs -> NoDup dirs -> Forall (fun d => d < 5) dirs -> (forall s, In s (free_symbols expr) -> exists d, In d dirs /\ FnSpec.coordinate (fst s) = Some d) ->
  length dirs = length nodes -> nodes <> [] -> grid_fits nodes -> length mean = length nodes -> @mat_wf num_R (length nodes) (length nodes) factor -> (forall body, body_of expr dirs = Ok body -> so t (name body) = None) ->
  values_at eval expr dirs nodes mean factor (fst (discretize_expr fnum_R junk name compiler E free_symbols subs expand printed nodes mean factor dirs expr t)).
Proof using HL HP HC.
  intros junk name dirs nodes mean factor expr t Hs Hn H5 Hv Hd Hne Hg Hm Hf Ht. destruct (body_ok dirs expr Hs Hn H5 Hv) as (body & func & Eb & Ec & Vf). unfold discretize_expr. rewrite Eb. rewrite alone_value by (apply Ht; exact Eb).
  change (compiler (source body) = Some func) in Ec. replace (compiler (source body)) with (Some func) by (symmetry; exact Ec). apply values_from; assumption.
Qed.
End Expr.

(** Other texts. *)
Lemma uncompiled : forall (F : fnum) junk name compiler E free_symbols subs expand printed nodes mean factor dirs (expr : E) t body,
  body_of E free_symbols subs expand printed expr dirs = Ok body -> compiler (source body) = None -> so t (name body) = None ->
  fst (discretize_expr F junk name compiler E free_symbols subs expand printed nodes mean factor dirs expr t) = Ub.
Proof. intros F junk name compiler E free_symbols subs expand printed nodes mean factor dirs expr t body Eb Ec Ht. unfold discretize_expr. rewrite Eb, alone_value by exact Ht. rewrite Ec. reflexivity. Qed.

Lemma x_0_kept : forall dirs i, ccode_loop i dirs "x_0" = "x_0"%string.
Proof.
  induction dirs as [|d dirs IH]; intros i; [reflexivity|]. cbn [ccode_loop]. rewrite <- (IH (S i)) at 2. f_equal.
  pose proof (to_string_digits d) as H. pose proof (to_string_name d) as (N & _). destruct (to_string d) as [|c s]; [contradiction N; reflexivity|]. apply Forall_inv in H. cbn [append].
  assert (C : c <> "_"%char) by (intros ->; discriminate H).
  cbn [re_sub String.prefix is_word xorb]. cbn. destruct (ascii_dec c "_") as [->|_]; [contradiction C; reflexivity|]. reflexivity.
Qed.
Lemma coordinate_body : forall E free_symbols subs expand printed of_symbol dirs, symbols_ok free_symbols expand printed of_symbol -> Sorted le dirs -> Forall (fun d => d < 5) dirs ->
  body_of E free_symbols subs expand printed (sympify_name E of_symbol "x_0") dirs = Ok "x_0"%string.
Proof.
  intros E free_symbols subs expand printed of_symbol dirs HS Hs H5. unfold sympify_name. change (conv "x_0") with (@None symbol). destruct (HS ("x_0"%string, false)) as (Hf & He & Hp).
  unfold body_of, fn_new, convert. rewrite Hf. cbn [fold_left fst]. change (conv "x_0") with (@None symbol). cbn iota. unfold variables. rewrite Hf. cbn [flat_map app]. rewrite He.
  rewrite (sorted_py dirs Hs). replace (nats_eqb dirs dirs) with true by (symmetry; apply nats_eqb_iff; reflexivity). cbn [andb require bind].
  change (flat_map _ _) with (@nil nat). rewrite (check_ok _ dirs H5) by (intros x Hx; cbn in Hx; contradiction). cbn [bind f_dirs f_sym]. rewrite Hp. cbn [fst]. unfold ccode. rewrite x_0_kept. reflexivity.
Qed.

Lemma mapped_fails : forall (F : fnum) junk name compiler E free_symbols subs expand printed of_symbol, symbols_ok free_symbols expand printed of_symbol -> compiler (source "x_0") = None ->
  forall nodes mean factor dirs t, so t (name "x_0"%string) = None -> Sorted le dirs -> Forall (fun d => d < 5) dirs ->
  fst (mapped_nodes F junk name compiler E free_symbols subs expand printed of_symbol nodes mean factor dirs t) = match mean with [] => Throw "ValueError"%string | _ => Ub end.
Proof.
  intros F junk name compiler E free_symbols subs expand printed of_symbol HS Hc nodes mean factor dirs t Ht Hs H5. unfold mapped_nodes. destruct mean as [|m mean]; [reflexivity|].
  cbn [length seq coords_nodes]. change (append "x_" (to_string 0)) with "x_0"%string.
  pose proof (uncompiled F junk name compiler E free_symbols subs expand printed nodes (m :: mean) factor dirs _ t _ (coordinate_body E free_symbols subs expand printed of_symbol dirs HS Hs H5) Hc Ht) as U.
  destruct (discretize_expr _ _ _ _ _ _ _ _ _ _ _ _ _ _ _) as [r t']. cbn [fst] in U. rewrite U. reflexivity.
Qed.
Lemma mapped_never : forall (F : fnum) junk name compiler E free_symbols subs expand printed of_symbol, symbols_ok free_symbols expand printed of_symbol -> compiler (source "x_0") = None ->
  forall nodes mean factor dirs t, so t (name "x_0"%string) = None -> forall v, fst (mapped_nodes F junk name compiler E free_symbols subs expand printed of_symbol nodes mean factor dirs t) <> Ok v.
Proof.
  intros F junk name compiler E free_symbols subs expand printed of_symbol HS Hc nodes mean factor dirs t Ht v H.
  destruct (fn_new E free_symbols subs expand (sympify_name E of_symbol "x_0") (Some dirs) None) as [f| | | |] eqn:Ef.
  1: { destruct (new_only E free_symbols subs expand _ dirs None f Ef) as (_ & Hs & H5 & _). rewrite (mapped_fails F junk name compiler E free_symbols subs expand printed of_symbol HS Hc nodes mean factor dirs t Ht Hs H5) in H. destruct mean; discriminate H. }
  all: unfold mapped_nodes in H; destruct mean as [|m mean]; [discriminate H|]; cbn [length seq coords_nodes] in H; change (append "x_" (to_string 0)) with "x_0"%string in H; unfold discretize_expr, body_of in H; rewrite Ef in H; discriminate H.
Qed.

(** Products of two symbols. *)
Lemma pr_laws : sympy_laws R product pr_free pr_subs (fun e => e) pr_eval.
Proof.
  constructor.
  - intros [a b] env env' H. unfold pr_eval. cbn [fst snd]. rewrite (H a), (H b); [reflexivity|right; left; reflexivity|left; reflexivity].
  - intros [a b] s t env. unfold pr_eval, pr_subs. cbn [fst snd]. destruct (symbol_eqb a s), (symbol_eqb b s); reflexivity.
  - intros [a b] s t u H. unfold pr_free, pr_subs in *. cbn [fst snd] in *.
    assert (K : forall c, (if symbol_eqb c s then t else c) = u -> (u = c /\ u <> s) \/ (u = t /\ c = s)).
    { intros c Hc. destruct (symbol_eqb c s) eqn:E; [right; apply symbol_eqb_iff in E; auto|]. left. split; [auto|]. intros ->. subst c. rewrite symbol_eqb_refl in E. discriminate E. }
    destruct H as [H|[H|[]]]; apply K in H; destruct H as [[-> N]|[-> ->]]; cbn; auto.
  - reflexivity.
  - intros e s H. exact H.
Qed.
Lemma x_sub_name : forall d s, nth_error x_sub d = Some s -> (d < 5)%nat /\ fst s = variable d.
Proof. intros d s H. do 5 (destruct d as [|d]; [injection H as <-; split; [lia|reflexivity]|]). destruct d; discriminate H. Qed.
Lemma short_prefix : forall d e, (e < 5)%nat -> String.prefix (variable d) (variable e) = true -> variable e = variable d.
Proof.
  intros d e He H. pose proof (to_string_name d) as (N & _). unfold variable in *. destruct (to_string d) as [|c s] eqn:E; [contradiction N; reflexivity|].
  assert (Q : exists a, to_string e = String a EmptyString) by (do 5 (destruct e as [|e]; [eexists; reflexivity|]); lia). destruct Q as (a & Q). rewrite Q in *. cbn [append String.prefix] in H.
  destruct (ascii_dec "x" "x") as [_|K]; [|contradiction K; reflexivity]. destruct (ascii_dec c a) as [->|]; [|discriminate H]. destruct s; [reflexivity|discriminate H].
Qed.
Lemma pr_printing : printing pr_free pr_printed pr_tokens.
Proof.
  intros dirs [a b] H. destruct (H a (or_introl eq_refl)) as (d & _ & Hd). destruct (H b (or_intror (or_introl eq_refl))) as (e & _ & He). apply x_sub_name in Hd, He. destruct Hd as (Ld & Ha), He as (Le & Hb).
  unfold pr_printed, pr_tokens. cbn [fst snd]. rewrite Ha, Hb. split.
  - split; [reflexivity|]. split; [constructor; [left; apply variable_name|constructor; [right; exists "*"%char; split; reflexivity|constructor; [left; apply variable_name|constructor]]]|].
    intros l t u r Q (Nt & Nu). assert (S : ~ name "*"). { intros (_ & W). apply Forall_inv in W. discriminate W. }
    destruct l as [|? l]; [injection Q as <- <- _; exact (S Nu)|]. destruct l as [|? l]; [injection Q as _ <- _ _; exact (S Nt)|]. destruct l as [|? l]; [discriminate Q|]. destruct l; discriminate Q.
  - intros t k [<-|[<-|[<-|[]]]] Hp; [apply short_prefix; assumption| |apply short_prefix; assumption]. unfold variable in Hp. cbn [append String.prefix] in Hp. destruct (ascii_dec "x" "*") as [K|_]; discriminate.
Qed.
Lemma pr_find : forall i j, (i < 5)%nat -> (j < 5)%nat -> find (fun ij => String.eqb (source (pr_body i j)) (source (pr_body (fst ij) (snd ij)))) (list_prod (seq 0 5) (seq 0 5)) = Some (i, j).
Proof. intros i j Hi Hj. do 5 (destruct i as [|i]; [do 5 (destruct j as [|j]; [vm_compute; reflexivity|]); lia|]). lia. Qed.
Lemma few : forall dirs i d, NoDup dirs -> Forall (fun d => d < 5)%nat dirs -> nth_error dirs i = Some d -> (i < 5)%nat.
Proof.
  intros dirs i d Hn H5 Hi. assert (L : (length dirs <= length (seq 0 5))%nat). { apply NoDup_incl_length; [exact Hn|]. intros x Hx. apply in_seq. rewrite Forall_forall in H5. specialize (H5 x Hx). lia. }
  cbn in L. assert (i < length dirs)%nat by (apply nth_error_Some; rewrite Hi; discriminate). lia.
Qed.
Lemma pr_compiling : compiling pr_free pr_eval pr_tokens pr_compiler.
Proof.
  intros dirs [a b] us Hn H5 Hp Hu. destruct (Hp a (or_introl eq_refl)) as (d & Id & Hd). destruct (Hp b (or_intror (or_introl eq_refl))) as (e & Ie & He).
  pose proof (x_sub_name _ _ Hd) as (Ld & Ha). pose proof (x_sub_name _ _ He) as (Le & Hb). unfold pr_tokens in Hu. cbn [fst snd] in Hu. rewrite Ha, Hb in Hu.
  inversion Hu as [|? u1 ? us1 R1 Hu1]; subst. inversion Hu1 as [|? u2 ? us2 R2 Hu2]; subst. inversion Hu2 as [|? u3 ? us3 R3 Hu3]; subst. inversion Hu3; subst.
  assert (V : forall k u, In k dirs -> rewritten dirs (variable k) u -> exists i, nth_error dirs i = Some k /\ u = coordinate i).
  { intros k u Ik [(i & k' & Ni & Ek & ->)|[N _]]; [|contradiction (N k Ik eq_refl)]. apply variable_inj in Ek. subst k'. exists i. auto. }
  destruct (V d u1 Id R1) as (i & Ni & ->). destruct (V e u3 Ie R3) as (j & Nj & ->).
  assert (u2 = "*"%string) as ->. { destruct R2 as [(? & k & _ & Q & _)|[_ Q]]; [unfold variable in Q; cbn [append] in Q; discriminate Q|exact Q]. }
  exists (fun v => (nth i v 0 * nth j v 0)%R). split.
  - unfold pr_compiler. change (joined [coordinate i; "*"%string; coordinate j]) with (pr_body i j). rewrite pr_find; [reflexivity|exact (few dirs i d Hn H5 Ni)|exact (few dirs j e Hn H5 Nj)].
  - intros v point param Lv Al. unfold pr_eval, reading. cbn [fst snd]. rewrite (proj1 (x_sub_coordinate d a Hd)), (proj1 (x_sub_coordinate e b He)). rewrite (Al i d Ni), (Al j e Nj). reflexivity.
Qed.
