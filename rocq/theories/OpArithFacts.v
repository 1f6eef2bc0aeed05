(** Proofs about the arithmetic of functions and operators. *)
From Coq Require Import List Arith Reals Lia Lra Bool Sorting.Sorted.
From Verif Require Import Base PyBase Num CalcReal LinSpec CalcSpec PosModel SeriesModel PyQuadSpec OpSpec OpQuadSpec OpModel CalcVarfd TensOpFacts OpQuadFacts OpArithModel OpArithSpec.
Import ListNotations.
Local Open Scope R_scope.

(** derivatives and their coordinates *)
Definition coords_from (s : nat) (n : list nat) : list nat := concat (map (fun '(k, a) => repeat k a) (combine (seq s (length n)) n)).
Lemma coords_from_cons : forall s a n, coords_from s (a :: n) = repeat s a ++ coords_from (S s) n.
Proof. reflexivity. Qed.
Lemma coords_ge : forall n s k, In k (coords_from s n) -> (s <= k)%nat.
Proof.
  induction n as [|a n IH]; intros s k H; [destruct H|]. rewrite coords_from_cons in H. apply in_app_or in H as [H|H]; [apply repeat_spec in H; lia|apply IH in H; lia].
Qed.
Lemma coords_sorted : forall n s, StronglySorted le (coords_from s n).
Proof.
  induction n as [|a n IH]; intros s; [constructor|]. rewrite coords_from_cons. induction a as [|a IHa]; [apply IH|]. cbn [repeat app]. constructor; [exact IHa|].
  apply Forall_forall. intros k H. apply in_app_or in H as [H|H]; [apply repeat_spec in H; lia|apply coords_ge in H; lia].
Qed.
Lemma coords_length : forall n s, length (coords_from s n) = order n.
Proof. induction n as [|a n IH]; intros s; [reflexivity|]. rewrite coords_from_cons, app_length, repeat_length, IH. reflexivity. Qed.
Lemma coords_zero : forall d s, coords_from s (repeat 0%nat d) = [].
Proof. induction d as [|d IH]; intros s; [reflexivity|]. cbn [repeat]. rewrite coords_from_cons. apply IH. Qed.
Lemma order_zero : forall d, order (repeat 0%nat d) = 0%nat.
Proof. induction d as [|d IH]; [reflexivity|exact IH]. Qed.
Lemma coords_bump : forall n s k, (k < length n)%nat -> (forall i, (i < k)%nat -> nth i n 0%nat = 0%nat) -> coords_from s (bump k n) = (s + k)%nat :: coords_from s n.
Proof.
  induction n as [|a n IH]; intros s k Hk Hz; cbn [length] in Hk; [lia|]. destruct k as [|k]; cbn [bump].
  - rewrite !coords_from_cons, Nat.add_0_r. reflexivity.
  - assert (a = 0%nat) by (apply (Hz 0%nat); lia). subst a. rewrite !coords_from_cons. cbn [repeat app]. rewrite IH; [f_equal; lia|lia|]. intros i Hi. apply (Hz (S i)). lia.
Qed.
Lemma bump_length : forall n k, length (bump k n) = length n.
Proof. induction n as [|a n IH]; intros [|k]; cbn [bump length]; auto. Qed.
Lemma bump_nth : forall n k i, i <> k -> nth i (bump k n) 0%nat = nth i n 0%nat.
Proof. induction n as [|a n IH]; intros [|k] [|i] H; cbn [bump nth]; try reflexivity; [congruence|]. apply IH. congruence. Qed.
Lemma bump_order : forall n k, (order (bump k n) <= S (order n))%nat.
Proof. induction n as [|a n IH]; intros [|k]; cbn [bump]; unfold order in *; cbn [list_sum fold_right]; try lia. specialize (IH k). change (fold_right Init.Nat.add 0%nat (bump k n)) with (list_sum (bump k n)). change (fold_right Init.Nat.add 0%nat n) with (list_sum n). lia. Qed.
Lemma bump_with_entry : forall n k, (k < length n)%nat -> bump k n = with_entry n k (S (nth k n 0%nat)).
Proof.
  induction n as [|a n IH]; intros k H; cbn [length] in H; [lia|]. destruct k as [|k]; [reflexivity|]. cbn [bump nth]. rewrite IH by lia. reflexivity.
Qed.

Lemma repeat_map : forall A B (f : A -> B) a n, map f (repeat a n) = repeat (f a) n.
Proof. induction n as [|n IH]; cbn; congruence. Qed.
Lemma along_coords : forall n dirs pre, length n = length dirs -> along dirs n = map (fun k => nth k (pre ++ dirs) 0%nat) (coords_from (length pre) n).
Proof.
  induction n as [|a n IH]; intros [|d dirs] pre H; try discriminate H; [reflexivity|]. cbn [along]. rewrite coords_from_cons, map_app. f_equal.
  - rewrite repeat_map. f_equal. rewrite app_nth2 by lia. rewrite Nat.sub_diag. reflexivity.
  - rewrite (IH dirs (pre ++ [d])) by (cbn in H; lia). rewrite app_length, Nat.add_1_r, <- app_assoc. reflexivity.
Qed.
Lemma along_coordinates : forall n dirs, length n = length dirs -> along dirs n = map (fun k => nth k dirs 0%nat) (coordinates n).
Proof. intros n dirs H. exact (along_coords n dirs [] H). Qed.

Lemma place_nth : forall dirs k d, NoDup dirs -> nth_error dirs k = Some d -> place d dirs = Some k.
Proof.
  induction dirs as [|d' dirs IH]; intros k d Hn H; [destruct k; discriminate H|]. inversion Hn as [|? ? N1 N2]; subst. destruct k as [|k]; cbn [nth_error place] in *.
  - injection H as ->. rewrite Nat.eqb_refl. reflexivity.
  - destruct (Nat.eqb_spec d d') as [->|]; [exfalso; apply N1; eapply nth_error_In; exact H|]. rewrite (IH k d N2 H). reflexivity.
Qed.

Lemma deriv_same : forall dim ks f g g', Forall (fun k => k < dim)%nat ks -> deriv_along dim ks f g -> deriv_along dim ks f g' -> forall x, length x = dim -> g x = g' x.
Proof.
  intros dim ks f g g'. pose proof (deriv_unique (repeat 0 dim) ks f f g g') as H. rewrite repeat_length in H. intros H1 H2 H3. apply (H H1 (fun x _ => eq_refl) H2 H3).
Qed.

Section Value.
Context {E : Type}.
Variable eval : E -> (nat -> R) -> R.

(** the value of an operator, as a sum of real numbers *)
Fixpoint rv (l : oper E) (dv : list nat -> R) (e : nat -> R) : R :=
  match l with
  | [] => 0
  | (c, n) :: l => eval c e * dv n + rv l dv e
  end.
Lemma op_value_rv : forall l dv e, op_value (N := num_R) eval l dv e = rv l dv e.
Proof.
  intros l dv e. unfold op_value. etransitivity; [exact (nsum_rsum _)|]. induction l as [|[c n] l IH]; [reflexivity|]. cbn [map rv]. rewrite rsum_cons, IH. reflexivity.
Qed.
Lemma rv_app : forall l l' dv e, rv (l ++ l') dv e = rv l dv e + rv l' dv e.
Proof. induction l as [|[c n] l IH]; intros; cbn [rv app]; [ring|]. rewrite IH. ring. Qed.
Lemma rv_ext : forall l dv dv' e, (forall c n, In (c, n) l -> dv n = dv' n) -> rv l dv e = rv l dv' e.
Proof. induction l as [|[c n] l IH]; intros dv dv' e H; cbn [rv]; [reflexivity|]. rewrite (H c n (or_introl eq_refl)), (IH dv dv'); [reflexivity|]. intros c' n' Hi. eapply H. right. exact Hi. Qed.

Variable e_add e_mul e_div : E -> E -> E.
Variable e_opp : E -> E.
Variable e_0 : E.
Variable e_diff : nat -> E -> E.
Variable fine : E -> Prop.
Hypothesis HA : sympy_arith eval e_add e_mul e_div e_opp e_0 e_diff fine.
Variable free_vars : E -> list nat.
Hypothesis HV : sympy_arith_vars free_vars e_add e_mul e_div e_opp e_0 e_diff.
Hypothesis HF : reads_free eval free_vars.
Variable dirs : list nat.
Hypothesis Hd : NoDup dirs.
Variable env : list R -> nat -> R.
Hypothesis He : assigns dirs env.
Let dim := length dirs.
Let dir k := nth k dirs 0%nat.

Lemma rv_map_mul : forall c l dv e, rv (map (fun '(c', n) => (e_mul c c', n)) l) dv e = eval c e * rv l dv e.
Proof using HA. induction l as [|[c' n] l IH]; intros; cbn [rv map]; [ring|]. rewrite IH, (arith_mul _ _ _ _ _ _ _ _ HA). ring. Qed.
Lemma rv_map_mul_r : forall c l dv e, rv (map (fun '(c', n) => (e_mul c' c, n)) l) dv e = rv l dv e * eval c e.
Proof using HA. induction l as [|[c' n] l IH]; intros; cbn [rv map]; [ring|]. rewrite IH, (arith_mul _ _ _ _ _ _ _ _ HA). ring. Qed.
Lemma rv_map_opp : forall l dv e, rv (map (fun '(c', n) => (e_opp c', n)) l) dv e = - rv l dv e.
Proof using HA. induction l as [|[c' n] l IH]; intros; cbn [rv map]; [ring|]. rewrite IH, (arith_opp _ _ _ _ _ _ _ _ HA). ring. Qed.
Lemma rv_map_div : forall w l dv e, eval w e <> 0 -> rv (map (fun '(c', n) => (e_div c' w, n)) l) dv e = rv l dv e / eval w e.
Proof using HA. induction l as [|[c' n] l IH]; intros dv e Hw; cbn [rv map]; [field; exact Hw|]. rewrite IH, (arith_div _ _ _ _ _ _ _ _ HA) by exact Hw. field. exact Hw. Qed.

Lemma dir_error : forall k, (k < dim)%nat -> nth_error dirs k = Some (dir k).
Proof using. intros k Hk. apply nth_error_nth'. exact Hk. Qed.

Lemma coef_partial : forall e k, fine e -> incl (free_vars e) dirs -> (k < dim)%nat -> partial dim k (fun x => eval e (env x)) (fun x => eval (e_diff (dir k) e) (env x)).
Proof using HA HF Hd He.
  intros e k Hf Hi Hk x Hx. pose proof (He x Hx) as Hp. pose proof (dir_error k Hk) as Hk'.
  pose proof (arith_diff _ _ _ _ _ _ _ _ HA e (dir k) (env x) Hf) as G. assert (Ex : env x (dir k) = nth k x 0). { specialize (Hp k _ Hk'). symmetry. apply nth_error_nth with (d := 0) in Hp. exact Hp. }
  rewrite Ex in G. eapply derivable_pt_lim_ext; [|exact G]. intros t. cbv beta. apply HF. intros d' Hd'. apply Hi in Hd'. apply In_nth_error in Hd' as (i & Hi'). 
  assert (Lx : length (with_entry x k t) = dim) by (rewrite with_entry_length; [exact Hx|rewrite Hx; exact Hk]).
  specialize (He _ Lx i d' Hi') as Q. specialize (Hp i d' Hi'). apply nth_error_nth with (d := 0) in Q. apply nth_error_nth with (d := 0) in Hp. rewrite with_entry_nth in Q by (rewrite Hx; exact Hk).
  destruct (Nat.eqb_spec i k) as [->|Nik].
  - rewrite Hk' in Hi'. injection Hi' as <-. rewrite Nat.eqb_refl. exact Q.
  - destruct (Nat.eqb_spec d' (dir k)) as [->|]; [|rewrite <- Q; symmetry; exact Hp]. exfalso. apply Nik. apply (proj1 (NoDup_nth_error dirs) Hd); [apply nth_error_Some; congruence|congruence].
Qed.

Lemma partial_ext : forall k f f' h h', (k < dim)%nat -> (forall x, length x = dim -> f x = f' x) -> (forall x, length x = dim -> h x = h' x) -> partial dim k f h -> partial dim k f' h'.
Proof using.
  intros k f f' h h' Hk H1 H2 P x Hx. rewrite <- H2 by exact Hx. eapply derivable_pt_lim_ext; [|apply P; exact Hx]. intros t. apply H1. rewrite with_entry_length; [exact Hx|rewrite Hx; exact Hk].
Qed.

Lemma value_partial : forall l (D : list nat -> list R -> R) k, (k < dim)%nat ->
  (forall c n, In (c, n) l -> fine c /\ incl (free_vars c) dirs /\ partial dim k (D n) (D (bump k n))) ->
  partial dim k (fun x => rv l (fun n => D n x) (env x)) (fun x => rv (op_diff E e_diff (dir k) dirs l) (fun n => D n x) (env x)).
Proof using HA HF Hd He.
  intros l D k Hk. induction l as [|[c n] l IH]; intros H.
  - intros x Hx. cbn. apply derivable_pt_lim_const.
  - destruct (H c n (or_introl eq_refl)) as (F & I & P). specialize (IH (fun c' n' Q => H c' n' (or_intror Q))).
    intros x Hx. unfold op_diff. cbn [flat_map]. rewrite (place_nth _ _ _ Hd (dir_error k Hk)). cbn [app rv].
    pose proof (derivable_pt_lim_plus _ _ _ _ _ (derivable_pt_lim_mult _ _ _ _ _ (coef_partial c k F I Hk x Hx) (P x Hx)) (IH x Hx)) as G.
    cbv beta in G. rewrite with_entry_same in G by (rewrite Hx; exact Hk). unfold op_diff in G. rewrite (place_nth _ _ _ Hd (dir_error k Hk)) in G. rewrite <- Rplus_assoc. exact G.
Qed.

(** the coefficients of the derivatives *)
Lemma op_diff_terms : forall d args l c n, In (c, n) (op_diff E e_diff d args l) -> exists c' n', In (c', n') l /\ ((c = e_diff d c' /\ n = n') \/ exists k, place d args = Some k /\ c = c' /\ n = bump k n').
Proof using.
  intros d args l c n H. unfold op_diff in H. apply in_flat_map in H as ([c' n'] & H1 & H2). exists c', n'. split; [exact H1|]. destruct H2 as [H2|H2]; [injection H2 as <- <-; left; auto|].
  destruct (place d args) as [k|]; [|destruct H2]. destruct H2 as [H2|[]]. injection H2 as <- <-. right. exists k. auto.
Qed.
Lemma op_diffs_inv : forall (P : E -> Prop) (Q : list nat -> Prop) ks l, Forall (fun k => k < dim)%nat ks -> (forall c d, P c -> P (e_diff d c)) -> (forall n k, In k ks -> Q n -> Q (bump k n)) ->
  (forall c n, In (c, n) l -> P c /\ Q n) -> forall c n, In (c, n) (op_diffs E e_diff (map dir ks) dirs l) -> P c /\ Q n.
Proof using Hd.
  induction ks as [|k ks IH]; intros l Hk HP HQ Hl c n H; [exact (Hl c n H)|]. cbn [map] in H. apply op_diff_terms in H as (c' & n' & H & K).
  inversion Hk as [|? ? K1 K2]; subst. apply IH in H; [|assumption|assumption|intros; apply HQ; [right; assumption|assumption]|assumption]. destruct H as [H1 H2].
  destruct K as [[-> ->]|(k' & K & -> & ->)]; [auto|]. rewrite (place_nth _ _ _ Hd (dir_error k K1)) in K. injection K as <-. split; [exact H1|]. apply HQ; [left; reflexivity|exact H2].
Qed.
Lemma op_diffs_order : forall ks l m, Forall (fun k => k < dim)%nat ks -> (forall c n, In (c, n) l -> (order n <= m)%nat) -> forall c n, In (c, n) (op_diffs E e_diff (map dir ks) dirs l) -> (order n <= length ks + m)%nat.
Proof using Hd.
  induction ks as [|k ks IH]; intros l m Hk Hl c n H; [exact (Hl c n H)|]. cbn [map] in H. apply op_diff_terms in H as (c' & n' & H & K).
  inversion Hk as [|? ? K1 K2]; subst. apply (IH l m K2 Hl) in H. cbn [length]. destruct K as [[-> ->]|(k' & K & -> & ->)]; [lia|]. pose proof (bump_order n' k'). lia.
Qed.

(** the derivatives of an operator applied to a function *)
Lemma diffs_deriv : forall ks l (D : list nat -> list R -> R), Forall (fun k => k < dim)%nat ks -> (forall c n, In (c, n) l -> fine c /\ incl (free_vars c) dirs) ->
  (forall pre k ks', ks = pre ++ k :: ks' -> forall c n, In (c, n) (op_diffs E e_diff (map dir ks') dirs l) -> partial dim k (D n) (D (bump k n))) ->
  deriv_along dim ks (fun x => rv l (fun n => D n x) (env x)) (fun x => rv (op_diffs E e_diff (map dir ks) dirs l) (fun n => D n x) (env x)).
Proof using HA HV HF Hd He.
  induction ks as [|k ks IH]; intros l D Hk Hl H; cbn [deriv_along]; [reflexivity|]. inversion Hk as [|? ? K1 K2]; subst.
  exists (fun x => rv (op_diffs E e_diff (map dir ks) dirs l) (fun n => D n x) (env x)). split.
  - apply IH; [exact K2|exact Hl|]. intros pre k' ks' -> c n Hi. apply (H (k :: pre) k' ks' eq_refl c n Hi).
  - cbn [map op_diffs fold_right]. apply value_partial; [exact K1|]. intros c n Hi.
    destruct (op_diffs_inv (fun c => fine c /\ incl (free_vars c) dirs) (fun _ => True) ks l K2) with (c := c) (n := n) as [[G1 G2] _].
    + intros c' d [F I]. split; [apply (arith_fine_diff _ _ _ _ _ _ _ _ HA); exact F|]. intros v Hv. apply I. apply (arith_vars_diff _ _ _ _ _ _ _ HV d). exact Hv.
    + auto.
    + intros c' n' Hi'. split; [apply (Hl c' n' Hi')|exact Logic.I].
    + exact Hi.
    + split; [exact G1|]. split; [exact G2|]. apply (H [] k ks eq_refl c n Hi).
Qed.

Lemma coordinates_dim : forall n, length n = dim -> Forall (fun k => k < dim)%nat (coordinates n).
Proof using. intros n Hn. apply Forall_forall. intros k Hk. apply coordinates_lt in Hk. rewrite Hn in Hk. exact Hk. Qed.

(** composition *)
Lemma smooth_diffs : forall l f D n, smooth dim f D -> length n = dim -> (forall c n, In (c, n) l -> length n = dim /\ fine c /\ incl (free_vars c) dirs) ->
  deriv_along dim (coordinates n) (fun x => rv l (fun n => D n x) (env x)) (fun x => rv (op_diffs E e_diff (along dirs n) dirs l) (fun n => D n x) (env x)).
Proof using HA HV HF Hd He.
  intros l f D n [S1 S2] Hn Hl. rewrite (along_coordinates n dirs Hn). pose proof (coordinates_dim n Hn) as Hc. apply diffs_deriv; [exact Hc|intros c m Hi; destruct (Hl c m Hi) as (A & B & C); auto|].
  intros pre k ks' Hk c m Hi. rewrite Hk in Hc. apply Forall_app in Hc as [_ Hc]. inversion Hc as [|? ? C1 C2]; subst.
  destruct (op_diffs_inv (fun _ => True) (fun n => length n = dim) ks' l C2) with (c := c) (n := m) as [_ G]; [auto|intros; rewrite bump_length; assumption|intros c' n' Hi'; split; [exact Logic.I|apply (Hl c' n' Hi')]|exact Hi|].
  rewrite bump_with_entry by (rewrite G; exact C1). apply S2; assumption.
Qed.

Lemma rv_compose : forall l l' dv e, rv (compose E e_mul e_diff l dirs l' dirs) dv e = rv l (fun n => rv (op_diffs E e_diff (along dirs n) dirs l') dv e) e.
Proof using HA. intros l l' dv e. unfold compose. induction l as [|[c n] l IH]; cbn [flat_map rv]; [reflexivity|]. rewrite rv_app, rv_map_mul, IH. reflexivity. Qed.

Lemma compose_value : forall l l' f D D' x, smooth dim f D -> (forall c n, In (c, n) l -> length n = dim) -> (forall c n, In (c, n) l' -> length n = dim /\ fine c /\ incl (free_vars c) dirs) ->
  all_derivatives dim (fun x => rv l' (fun n => D n x) (env x)) D' -> length x = dim ->
  rv (compose E e_mul e_diff l dirs l' dirs) (fun n => D n x) (env x) = rv l (fun n => D' n x) (env x).
Proof using HA HV HF Hd He.
  intros l l' f D D' x Hs Hl Hl' HD Hx. rewrite rv_compose. apply rv_ext. intros c n Hi. pose proof (Hl c n Hi) as Hn.
  exact (deriv_same dim (coordinates n) _ _ _ (coordinates_dim n Hn) (smooth_diffs l' f D n Hs Hn Hl') (HD n Hn) x Hx).
Qed.
(** the factor of Operator.map *)
Lemma deriv_along_ext : forall ks f f' g, Forall (fun k => k < dim)%nat ks -> (forall x, length x = dim -> f x = f' x) -> deriv_along dim ks f g -> deriv_along dim ks f' g.
Proof using.
  induction ks as [|k ks IH]; intros f f' g Hk H G; cbn [deriv_along] in *; [intros x Hx; rewrite G by exact Hx; apply H; exact Hx|]. inversion Hk; subst. destruct G as (h & G1 & G2). exists h. split; [apply (IH f f' h); assumption|exact G2].
Qed.

Lemma sorted_suffix : forall pre k ks, StronglySorted le (pre ++ k :: ks) -> Forall (le k) ks.
Proof using. induction pre as [|a pre IH]; intros k ks H; inversion H; subst; [assumption|]. apply IH. assumption. Qed.

Lemma factor_diffs : forall w f D n, fine w -> incl (free_vars w) dirs -> derivatives dim f D -> length n = dim -> (order n <= 5)%nat ->
  deriv_along dim (coordinates n) (fun x => eval w (env x) * f x) (fun x => rv (op_diffs E e_diff (along dirs n) dirs [(w, repeat 0%nat dim)]) (fun n => D n x) (env x)).
Proof using HA HV HF Hd He.
  intros w f D n Hw Iw HD Hn Ho. rewrite (along_coordinates n dirs Hn). pose proof (coordinates_dim n Hn) as Hc.
  apply (deriv_along_ext _ (fun x => rv [(w, repeat 0%nat dim)] (fun n => D n x) (env x))); [exact Hc| |].
  - intros x Hx. cbn [rv]. assert (G := HD (repeat 0%nat dim) (repeat_length _ _)). unfold coordinates in G. fold (coords_from 0 (repeat 0%nat dim)) in G. rewrite coords_zero in G. cbn [deriv_along] in G.
    rewrite G; [ring| |exact Hx]. rewrite order_zero. lia.
  - apply diffs_deriv; [exact Hc|intros c m [H|[]]; injection H as <- <-; auto|]. intros pre k ks' Hk c m Hi. rewrite Hk in Hc. apply Forall_app in Hc as [_ Hc]. inversion Hc as [|? ? C1 C2]; subst.
    assert (Hs : Forall (le k) ks') by (apply (sorted_suffix pre); rewrite <- Hk; apply (coords_sorted n 0)).
    assert (Ho' : (order m <= length ks' + 0)%nat). { eapply op_diffs_order; [exact C2| |exact Hi]. intros c' n' [H|[]]. injection H as <- <-. rewrite order_zero. lia. }
    assert (Lk : (length ks' + 1 <= 5)%nat). { pose proof (coords_length n 0) as L. change (coords_from 0 n) with (coordinates n) in L. rewrite Hk, app_length in L. cbn [length] in L. lia. }
    destruct (op_diffs_inv (fun _ => True) (fun n => length n = dim /\ forall i, (i < k)%nat -> nth i n 0%nat = 0%nat) ks' [(w, repeat 0%nat dim)] C2) with (c := c) (n := m) as [_ [G1 G2]].
    + auto.
    + intros n' k' Hk' [Q1 Q2]. split; [rewrite bump_length; exact Q1|]. intros i Hi'. rewrite bump_nth; [apply Q2; exact Hi'|]. rewrite Forall_forall in Hs. specialize (Hs k' Hk'). lia.
    + intros c' n' [H|[]]. injection H as <- <-. split; [exact Logic.I|]. split; [apply repeat_length|]. intros i _. apply nth_repeat.
    + exact Hi.
    + assert (Lb : length (bump k m) = dim) by (rewrite bump_length; exact G1). pose proof (bump_order m k) as Ob. assert (Q := HD (bump k m) Lb ltac:(lia)).
      unfold coordinates in Q. change (deriv_along dim (coords_from 0 (bump k m)) f (D (bump k m))) in Q. rewrite coords_bump in Q; [|rewrite G1; exact C1|exact G2]. cbn [deriv_along Nat.add] in Q. destruct Q as (h & Q1 & Q2).
      assert (Q3 := HD m G1 ltac:(lia)). pose proof (deriv_same dim (coordinates m) f h (D m) (coordinates_dim m G1) Q1 Q3) as Q4.
      apply (partial_ext k h (D m) (D (bump k m)) (D (bump k m)) C1 Q4 (fun x _ => eq_refl) Q2).
Qed.

Lemma compose_terms : forall l l' c n, In (c, n) (compose E e_mul e_diff l dirs l' dirs) -> exists c1 n1 c2, In (c1, n1) l /\ In (c2, n) (op_diffs E e_diff (along dirs n1) dirs l') /\ c = e_mul c1 c2.
Proof using.
  intros l l' c n H. unfold compose in H. apply in_flat_map in H as ([c1 n1] & H1 & H2). apply in_map_iff in H2 as ([c2 n2] & H2 & H3). injection H2 as <- <-. exists c1, n1, c2. auto.
Qed.
Lemma compose_on : forall l l', (forall c n, In (c, n) l -> length n = dim /\ incl (free_vars c) dirs) -> (forall c n, In (c, n) l' -> length n = dim /\ incl (free_vars c) dirs) ->
  forall c n, In (c, n) (compose E e_mul e_diff l dirs l' dirs) -> length n = dim /\ incl (free_vars c) dirs.
Proof using HV Hd.
  intros l l' Hl Hl' c n H. apply compose_terms in H as (c1 & n1 & c2 & H1 & H2 & ->). destruct (Hl c1 n1 H1) as [L1 I1]. rewrite (along_coordinates n1 dirs L1) in H2.
  destruct (op_diffs_inv (fun c => incl (free_vars c) dirs) (fun n => length n = dim) (coordinates n1) l' (coordinates_dim n1 L1)) with (c := c2) (n := n) as [G1 G2].
  - intros c' d H v Hv. apply H. apply (arith_vars_diff _ _ _ _ _ _ _ HV d). exact Hv.
  - intros n' k _ Hn'. rewrite bump_length. exact Hn'.
  - intros c' n' H'. destruct (Hl' c' n' H'). auto.
  - exact H2.
  - split; [exact G2|]. intros v Hv. apply (arith_vars_mul _ _ _ _ _ _ _ HV) in Hv. apply in_app_or in Hv as [Hv|Hv]; [apply I1|apply G1]; exact Hv.
Qed.
Lemma compose_fine : forall l l', (forall c n, In (c, n) l -> length n = dim /\ fine c) -> (forall c n, In (c, n) l' -> fine c) ->
  forall c n, In (c, n) (compose E e_mul e_diff l dirs l' dirs) -> fine c.
Proof using HA Hd.
  intros l l' Hl Hl' c n H. apply compose_terms in H as (c1 & n1 & c2 & H1 & H2 & ->). destruct (Hl c1 n1 H1) as [L1 F1]. rewrite (along_coordinates n1 dirs L1) in H2.
  apply (arith_fine_mul _ _ _ _ _ _ _ _ HA); [exact F1|].
  apply (op_diffs_inv fine (fun _ => True) (coordinates n1) l' (coordinates_dim n1 L1)) with (n := n) in H2; [apply H2|apply (arith_fine_diff _ _ _ _ _ _ _ _ HA)|auto|]. intros c' n' H'. split; [apply (Hl' c' n' H')|exact Logic.I].
Qed.

Theorem map_maps : forall op factor, f_dirs factor = dirs -> incl (free_vars (f_sym factor)) dirs -> fine (f_sym factor) ->
  (forall c n, In (c, n) op -> length n = dim /\ (order n <= 5)%nat /\ incl (free_vars c) dirs) -> maps eval free_vars dirs env op factor (map_terms E e_mul e_div e_diff dirs op (f_sym factor)).
Proof using HA HV HF Hd He.
  intros op factor Hfd Hi Hf Hop. set (w := f_sym factor) in *. split.
  - intros c n H. unfold map_terms in H. apply in_map_iff in H as ([c' n'] & H & H'). injection H as <- <-.
    assert (Hop' : forall c n, In (c, n) op -> length n = dim /\ incl (free_vars c) dirs) by (intros c n H; destruct (Hop c n H) as (A & _ & B); auto).
    destruct (compose_on op [(w, repeat 0%nat (length dirs))] Hop') with (c := c') (n := n') as [G1 G2]; [intros c n [H|[]]; injection H as <- <-; split; [apply repeat_length|exact Hi]|exact H'|].
    split; [exact G1|]. split.
    + apply compose_terms in H' as (c1 & n1 & c2 & H1 & H2 & _). destruct (Hop c1 n1 H1) as (L1 & O1 & _). rewrite (along_coordinates n1 dirs L1) in H2.
      apply (op_diffs_order (coordinates n1) _ 0) in H2; [|apply coordinates_dim; exact L1|intros c n [H|[]]; injection H as <- <-; rewrite order_zero; lia].
      pose proof (coords_length n1 0) as L. change (coords_from 0 n1) with (coordinates n1) in L. lia.
    + intros v Hv. apply (arith_vars_div _ _ _ _ _ _ _ HV) in Hv. apply in_app_or in Hv as [Hv|Hv]; [apply G2|apply Hi]; exact Hv.
  - intros f D D' x HD HD' Hx Hw. rewrite !op_value_rv. unfold map_terms. fold w in Hw. rewrite rv_map_div by exact Hw. f_equal. rewrite rv_compose. apply rv_ext. intros c n Hc.
    destruct (Hop c n Hc) as (L & O & _). exact (deriv_same dim (coordinates n) _ _ _ (coordinates_dim n L) (factor_diffs w f D n Hf Hi HD L O) (HD' n L O) x Hx).
Qed.

(** an operator applied to a function *)
Lemma e_diffs_deriv : forall ks e, Forall (fun k => k < dim)%nat ks -> fine e -> incl (free_vars e) dirs ->
  deriv_along dim ks (fun x => eval e (env x)) (fun x => eval (e_diffs E e_diff (map dir ks) e) (env x)) /\ fine (e_diffs E e_diff (map dir ks) e) /\ incl (free_vars (e_diffs E e_diff (map dir ks) e)) dirs.
Proof using HA HV HF Hd He.
  induction ks as [|k ks IH]; intros e Hk Hf Hi; cbn [deriv_along map e_diffs fold_right]; [auto|]. inversion Hk as [|? ? K1 K2]; subst. destruct (IH e K2 Hf Hi) as (G1 & G2 & G3). split; [|split].
  - exists (fun x => eval (e_diffs E e_diff (map dir ks) e) (env x)). split; [exact G1|]. apply coef_partial; assumption.
  - apply (arith_fine_diff _ _ _ _ _ _ _ _ HA). exact G2.
  - intros v Hv. apply G3. apply (arith_vars_diff _ _ _ _ _ _ _ HV) in Hv. exact Hv.
Qed.
Lemma applied_value : forall l e env', eval (applied E e_add e_mul e_0 e_diff l dirs e) env' = rv l (fun n => eval (e_diffs E e_diff (along dirs n) e) env') env'.
Proof using HA. intros l e env'. induction l as [|[c n] l IH]; cbn [applied fold_right rv]; [apply (arith_0 _ _ _ _ _ _ _ _ HA)|]. rewrite (arith_add _ _ _ _ _ _ _ _ HA), (arith_mul _ _ _ _ _ _ _ _ HA). f_equal. exact IH. Qed.
Lemma applied_vars : forall l e, (forall c n, In (c, n) l -> length n = dim /\ incl (free_vars c) dirs) -> fine e -> incl (free_vars e) dirs -> incl (free_vars (applied E e_add e_mul e_0 e_diff l dirs e)) dirs.
Proof using HA HV HF Hd He.
  intros l e Hl Hf Hi. induction l as [|[c n] l IH]; cbn [applied fold_right]; [rewrite (arith_vars_0 _ _ _ _ _ _ _ HV); intros v []|].
  intros v Hv. apply (arith_vars_add _ _ _ _ _ _ _ HV) in Hv. apply in_app_or in Hv as [Hv|Hv].
  - apply (arith_vars_mul _ _ _ _ _ _ _ HV) in Hv. destruct (Hl c n (or_introl eq_refl)) as [L I]. apply in_app_or in Hv as [Hv|Hv]; [apply I; exact Hv|].
    rewrite (along_coordinates n dirs L) in Hv. destruct (e_diffs_deriv (coordinates n) e (coordinates_dim n L) Hf Hi) as (_ & _ & G). apply G. exact Hv.
  - apply IH; [|exact Hv]. intros c' n' H'. apply (Hl c' n' (or_intror H')).
Qed.
Lemma applied_deriv : forall l e D x, (forall c n, In (c, n) l -> length n = dim) -> fine e -> incl (free_vars e) dirs -> all_derivatives dim (fun x => eval e (env x)) D -> length x = dim ->
  eval (applied E e_add e_mul e_0 e_diff l dirs e) (env x) = rv l (fun n => D n x) (env x).
Proof using HA HV HF Hd He.
  intros l e D x Hl Hf Hi HD Hx. rewrite applied_value. apply rv_ext. intros c n Hc. pose proof (Hl c n Hc) as L. destruct (e_diffs_deriv (coordinates n) e (coordinates_dim n L) Hf Hi) as (G & _).
  fold dim in L. rewrite (along_coordinates n dirs L). exact (deriv_same dim (coordinates n) _ _ _ (coordinates_dim n L) G (HD n L) x Hx).
Qed.
End Value.
