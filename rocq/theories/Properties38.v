(** C104: from an expression to its values at the nodes. *)
From Coq Require Import String List Bool Arith ZArith Lia Reals Lra Sorted.
From Verif Require Import Base IndexModel Num Fnum LinSpec CalcSpec SeriesModel FnModel FnSpec CcodeSpec InternModel InternSpec InternFacts DiscModel DiscSpec DiscFacts.
Import ListNotations.
Local Open Scope nat_scope.

(** C104: Quad.discretize of an expression whose symbols are names of coordinates of the quadrature hands a text to the compiler, and in every history of processes that share /tmp - if no two texts have the same hash, no object is used while it is made,
    and no process dies in the linker - every call with that text that returns gives the values of the expression at the mapped nodes, in the order of the grid. *)
Theorem C104_discretize : forall E free_symbols subs expand eval printed tokens compiler, sympy_laws R E free_symbols subs expand eval -> printing free_symbols printed tokens -> compiling free_symbols eval tokens compiler ->
  forall junk name dirs nodes mean factor expr, Sorted le dirs -> NoDup dirs -> Forall (fun d => d < 5) dirs -> (forall s, In s (free_symbols expr) -> exists d, In d dirs /\ FnSpec.coordinate (fst s) = Some d) ->
  length dirs = length nodes -> nodes <> [] -> grid_fits nodes -> length mean = length nodes -> @mat_wf num_R (length nodes) (length nodes) factor ->
  exists body, body_of E free_symbols subs expand printed expr dirs = Ok body /\ forall (bodies : string -> Prop), (forall b b', bodies b -> bodies b' -> name b = name b' -> b = b') ->
  forall (s : system fnum_R) history, @tidy fnum_R name compiler bodies (files s) -> (forall pid, calls s pid = None) -> uses bodies history -> always fnum_R junk name compiler (exclusive name) s history -> no_crash_in_link fnum_R junk name compiler s history ->
  forall pid r, calls (run fnum_R junk name compiler s history) pid = Some (Call (F := fnum_R) body nodes mean factor (Returned r)) -> values_at eval expr dirs nodes mean factor r.
Proof. exact history_values. Qed.
Print Assumptions C104_discretize.

(** If no other process is at work and the text was not compiled before, the call returns these values. *)
Theorem C104_alone : forall E free_symbols subs expand eval printed tokens compiler, sympy_laws R E free_symbols subs expand eval -> printing free_symbols printed tokens -> compiling free_symbols eval tokens compiler ->
  forall junk name dirs nodes mean factor expr t, Sorted le dirs -> NoDup dirs -> Forall (fun d => d < 5) dirs -> (forall s, In s (free_symbols expr) -> exists d, In d dirs /\ FnSpec.coordinate (fst s) = Some d) ->
  length dirs = length nodes -> nodes <> [] -> grid_fits nodes -> length mean = length nodes -> @mat_wf num_R (length nodes) (length nodes) factor ->
  (forall body, body_of E free_symbols subs expand printed expr dirs = Ok body -> so t (name body) = None) ->
  values_at eval expr dirs nodes mean factor (fst (discretize_expr fnum_R junk name compiler E free_symbols subs expand printed nodes mean factor dirs expr t)).
Proof. exact alone_values. Qed.
Print Assumptions C104_alone.

(** The product x*y on a quadrature in the directions x and y with two nodes each, centred at (10, 20): the text is v[0]*v[1], and a process that discretizes it twice gets twice 12*24, 12*26, 13*24 and 13*26. *)
Definition xy : product := (("x", false), ("y", true))%string.
Lemma xy_symbols : forall s, In s (pr_free xy) -> exists d, In d [0; 1] /\ FnSpec.coordinate (fst s) = Some d.
Proof. intros s [<-|[<-|[]]]; [exists 0|exists 1]; split; try reflexivity; cbn; auto. Qed.
Definition nodes_xy : list (list R) := [[2; 3]; [4; 6]]%R.
Lemma xy_at : forall r, values_at pr_eval xy [0; 1] nodes_xy [10; 20]%R [[1; 0]; [0; 1]]%R r -> r = Ok [288; 312; 312; 338]%R.
Proof.
  intros r (values & -> & L & V). change (length (grid nodes_xy)) with 4 in L.
  assert (P : forall k p a b, nth_error (grid nodes_xy) k = Some p -> location nodes_xy [10; 20]%R [[1; 0]; [0; 1]]%R p = [a; b] -> nth_error values k = Some (a * b)%R).
  { intros k p a b Hk Hp. refine (V k p (fun d => nth d [a; b] 0%R) (fun _ => 0%R) Hk _). rewrite Hp. intros i d Hi. destruct i as [|[|[|i]]]; try discriminate Hi; injection Hi as <-; reflexivity. }
  assert (Loc : forall a b, location nodes_xy [10; 20]%R [[1; 0]; [0; 1]]%R [a; b] = [10 + nth a [2; 3] 0; 20 + nth b [4; 6] 0]%R).
  { intros a b. unfold location, nodes_xy. cbn [at_pos combine map]. unfold rsum. cbn. f_equal; [|f_equal]; ring. }
  pose proof (P 0 [0; 0] _ _ eq_refl (Loc 0 0)) as P0. pose proof (P 1 [0; 1] _ _ eq_refl (Loc 0 1)) as P1. pose proof (P 2 [1; 0] _ _ eq_refl (Loc 1 0)) as P2. pose proof (P 3 [1; 1] _ _ eq_refl (Loc 1 1)) as P3.
  destruct values as [|a [|b [|c [|d [|? ?]]]]]; try discriminate L. cbn [nth_error nth] in *. injection P0 as ->. injection P1 as ->. injection P2 as ->. injection P3 as ->. do 2 f_equal; [lra|f_equal; [lra|f_equal; [lra|f_equal; lra]]].
Qed.
Definition round (body : string) : list (event fnum_R) := Start (F := fnum_R) 0 body nodes_xy [10; 20]%R [[1; 0]; [0; 1]]%R :: repeat (Step 0 300) 6.
Definition empty_tmp : system fnum_R := Sys (F := fnum_R) (Tmp (fun _ => None) (fun _ => None)) (fun _ => None).
Lemma round_live : forall body, String.length (source body) <= 300 -> forall c, calls (run fnum_R 0%R (fun b => b) pr_compiler empty_tmp (round body)) 0 = Some c -> live c = false.
Proof.
  intros body B c Hc. destruct (intern_returns fnum_R 0%R (fun b => b) pr_compiler empty_tmp 0 body nodes_xy [10; 20]%R [[1; 0]; [0; 1]]%R 300) as (r & Er); [intros c' K; discriminate K|exact B|].
  unfold round in Hc. rewrite Er in Hc. injection Hc as <-. reflexivity.
Qed.
Lemma run_app : forall s a b, run fnum_R 0%R (fun b => b) pr_compiler s (a ++ b) = run fnum_R 0%R (fun b => b) pr_compiler (run fnum_R 0%R (fun b => b) pr_compiler s a) b.
Proof. intros s a b. unfold run. apply fold_left_app. Qed.
Lemma two_rounds : forall body, String.length (source body) <= 300 ->
  exists r, calls (run fnum_R 0%R (fun b => b) pr_compiler empty_tmp (round body ++ round body)) 0 = Some (Call (F := fnum_R) body nodes_xy [10; 20]%R [[1; 0]; [0; 1]]%R (Returned r)).
Proof. intros body B. rewrite run_app. exact (intern_returns fnum_R 0%R (fun b => b) pr_compiler (run fnum_R 0%R (fun b => b) pr_compiler empty_tmp (round body)) 0 body nodes_xy [10; 20]%R [[1; 0]; [0; 1]]%R 300 (round_live body B) B). Qed.
Lemma round_events : forall body e, In e (round body ++ round body) -> e = Start (F := fnum_R) 0 body nodes_xy [10; 20]%R [[1; 0]; [0; 1]]%R \/ e = Step 0 300.
Proof. intros body e H. apply in_app_or in H. assert (K : In e (round body)) by tauto. destruct K as [<-|K]; [left; reflexivity|right; symmetry; exact (eq_sym (repeat_spec _ _ _ K))]. Qed.
Example C104_discretize_example : exists body, body_of product pr_free pr_subs (fun e => e) pr_printed xy [0; 1] = Ok body /\ body = "v[0]*v[1]"%string /\
  exists r, calls (run fnum_R 0%R (fun b => b) pr_compiler empty_tmp (round body ++ round body)) 0 = Some (Call (F := fnum_R) body nodes_xy [10; 20]%R [[1; 0]; [0; 1]]%R (Returned r)) /\ r = Ok [288; 312; 312; 338]%R.
Proof.
  destruct (C104_discretize product pr_free pr_subs (fun e => e) pr_eval pr_printed pr_tokens pr_compiler pr_laws pr_printing pr_compiling 0%R (fun b => b) [0; 1] nodes_xy [10; 20]%R [[1; 0]; [0; 1]]%R xy) as (body & Eb & H).
  { repeat constructor. } { constructor; [intros [K|[]]; discriminate K|constructor; [intros []|constructor]]. } { repeat constructor; lia. } { exact xy_symbols. } { reflexivity. } { discriminate. } { unfold grid_fits; cbn; lia. } { reflexivity. } { split; [reflexivity|repeat constructor]. }
  assert (B : body = "v[0]*v[1]"%string) by (vm_compute in Eb; injection Eb as <-; reflexivity). exists body. split; [exact Eb|]. split; [exact B|].
  assert (Bl : String.length (source body) <= 300) by (rewrite B; apply Nat.leb_le; vm_compute; reflexivity). destruct (two_rounds body Bl) as (r & Er). exists r. split; [exact Er|]. apply xy_at. apply (H (fun b => b = body)) with (s := empty_tmp) (history := round body ++ round body) (pid := 0).
  - intros b b' -> ->. reflexivity.
  - intros n o K. discriminate K.
  - reflexivity.
  - intros pid b nodes t d K. apply round_events in K. destruct K as [K|K]; [injection K; congruence|discriminate K].
  - intros past future Q. apply one_exclusive. apply (one_process fnum_R 0%R (fun b => b) pr_compiler empty_tmp (round body ++ round body) 0) with (future := future); [reflexivity| |exact Q]. intros e K. apply round_events in K. destruct K as [->| ->]; reflexivity.
  - apply no_crash. intros pid K. apply round_events in K. destruct K as [K|K]; discriminate K.
  - exact Er.
Qed.
Example C104_alone_example : fst (discretize_expr fnum_R 0%R (fun b => b) pr_compiler product pr_free pr_subs (fun e => e) pr_printed nodes_xy [10; 20]%R [[1; 0]; [0; 1]]%R [0; 1] xy (Tmp (fun _ => None) (fun _ => None))) = Ok [288; 312; 312; 338]%R.
Proof.
  apply xy_at. apply (C104_alone product pr_free pr_subs (fun e => e) pr_eval pr_printed pr_tokens pr_compiler pr_laws pr_printing pr_compiling).
  { repeat constructor. } { constructor; [intros [K|[]]; discriminate K|constructor; [intros []|constructor]]. } { repeat constructor; lia. } { exact xy_symbols. } { reflexivity. } { discriminate. } { unfold grid_fits; cbn; lia. } { reflexivity. } { split; [reflexivity|repeat constructor]. }
  reflexivity.
Qed.

(** A text that does not compile - a parameter without a value, for example - is undefined behaviour: the null pointer is called. *)
Theorem C104_uncompiled : forall (F : fnum) junk name compiler E free_symbols subs expand printed nodes mean factor dirs (expr : E) t body,
  body_of E free_symbols subs expand printed expr dirs = Ok body -> compiler (source body) = None -> so t (name body) = None ->
  fst (discretize_expr F junk name compiler E free_symbols subs expand printed nodes mean factor dirs expr t) = Ub.
Proof. exact uncompiled. Qed.
Print Assumptions C104_uncompiled.
Example C104_uncompiled_example : let beta_x := (("beta", true), ("x", true))%string in body_of product pr_free pr_subs (fun e => e) pr_printed beta_x [0] = Ok "beta*v[0]"%string /\ pr_compiler (source "beta*v[0]") = None /\
  fst (discretize_expr fnum_R 0%R (fun b => b) pr_compiler product pr_free pr_subs (fun e => e) pr_printed [[2; 3]]%R [10]%R [[1]]%R [0] beta_x (Tmp (fun _ => None) (fun _ => None))) = Ub.
Proof.
  assert (B : body_of product pr_free pr_subs (fun e => e) pr_printed (("beta", true), ("x", true))%string [0] = Ok "beta*v[0]"%string) by (vm_compute; reflexivity). assert (C : pr_compiler (source "beta*v[0]") = None) by (vm_compute; reflexivity).
  split; [exact B|]. split; [exact C|]. apply (C104_uncompiled fnum_R) with (body := "beta*v[0]"%string); [exact B|exact C|reflexivity].
Qed.

(** Quad.mapped_nodes, which is to give the mapped nodes, asks for the coordinates under the names x_0, x_1, ..., which Function does not know (the names are x0, x1, ...).  No quadrature whatever has mapped nodes: the text "x_0" does not compile. *)
Theorem C104_mapped_nodes_refuted : forall (F : fnum) junk name compiler E free_symbols subs expand printed of_symbol, symbols_ok free_symbols expand printed of_symbol -> compiler (source "x_0") = None ->
  forall nodes mean factor dirs t, so t (name "x_0"%string) = None ->
  (forall v, fst (mapped_nodes F junk name compiler E free_symbols subs expand printed of_symbol nodes mean factor dirs t) <> Ok v) /\
  (Sorted le dirs -> Forall (fun d => d < 5) dirs -> fst (mapped_nodes F junk name compiler E free_symbols subs expand printed of_symbol nodes mean factor dirs t) = match mean with [] => Throw "ValueError"%string | _ => Ub end).
Proof.
  intros F junk name compiler E free_symbols subs expand printed of_symbol HS Hc nodes mean factor dirs t Ht.
  exact (conj (mapped_never F junk name compiler E free_symbols subs expand printed of_symbol HS Hc nodes mean factor dirs t Ht) (mapped_fails F junk name compiler E free_symbols subs expand printed of_symbol HS Hc nodes mean factor dirs t Ht)).
Qed.
Print Assumptions C104_mapped_nodes_refuted.
Example C104_mapped_nodes_example : symbols_ok (fun s => [s]) (fun s => s) fst (fun s => s) /\ pr_compiler (source "x_0") = None /\
  fst (mapped_nodes fnum_R 0%R (fun b => b) pr_compiler symbol (fun s => [s]) (fun e s t => if symbol_eqb e s then t else e) (fun s => s) fst (fun s => s) nodes_xy [10; 20]%R [[1; 0]; [0; 1]]%R [0; 1] (Tmp (fun _ => None) (fun _ => None))) = Ub.
Proof.
  assert (S : symbols_ok (fun s : symbol => [s]) (fun s => s) fst (fun s => s)) by (intros s; repeat split). assert (C : pr_compiler (source "x_0") = None) by (vm_compute; reflexivity).
  split; [exact S|]. split; [exact C|]. apply (C104_mapped_nodes_refuted fnum_R 0%R (fun b => b) pr_compiler symbol _ _ _ _ _ S C nodes_xy [10; 20]%R); [reflexivity|repeat constructor|repeat constructor; lia].
Qed.
