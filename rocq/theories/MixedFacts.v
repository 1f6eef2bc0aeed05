(** Proofs about expressions of series, forms and numbers. *)
From Coq Require Import String List Bool Arith Reals Lia Lra.
From Verif Require Import Base IndexModel Num PyBase PosModel PartModel SplitModel SeriesModel MulModel TensVarfModel MixedModel MixedSpec.
Import ListNotations.
Local Open Scope string_scope. Local Open Scope list_scope. Local Open Scope nat_scope.

Lemma nats_refl : forall l, nats_eqb l l = true.
Proof. induction l as [|x l IH]; [reflexivity|]. cbn. rewrite Nat.eqb_refl. exact IH. Qed.
Lemma iset_refl : forall s, iset_eqb s s = true.
Proof. destruct s; reflexivity. Qed.
Lemma nth_map2 : forall (h : R -> R) l i, i < length l -> nth i (map h l) 0%R = h (nth i l 0%R).
Proof. intros h l i Hi. rewrite (nth_indep _ 0%R (h 0%R)) by (rewrite map_length; exact Hi). apply map_nth. Qed.
Lemma nth_map_mat : forall (h : R -> R) m i j, i < length m -> j < length (nth i m []) -> nth j (nth i (map (map h) m) []) 0%R = h (nth j (nth i m []) 0%R).
Proof. intros h m i j Hi Hj. rewrite (nth_indep _ [] (map h [])) by (rewrite map_length; exact Hi). rewrite map_nth. apply nth_map2. exact Hj. Qed.
Lemma nth_sum : forall l l' i, length l = length l' -> i < length l -> nth i (map (fun '(x, y) => (x + y)%R) (combine l l')) 0%R = (nth i l 0 + nth i l' 0)%R.
Proof.
  induction l as [|x l IH]; intros [|y l'] i Hl Hi; cbn in Hl, Hi; try lia. destruct i as [|i]; [reflexivity|]. cbn. apply IH; lia.
Qed.
Lemma add_rows : forall (A B : list (list R)) n, length A = length B -> Forall (fun r => length r = n) A -> Forall (fun r => length r = n) B ->
  exists C, mapM (fun '(r, s) => np_add num_R r s) (combine A B) = Ok C /\ length C = length A /\ Forall (fun r => length r = n) C /\
    forall i j, i < length A -> j < n -> nth j (nth i C []) 0%R = (nth j (nth i A []) 0 + nth j (nth i B []) 0)%R.
Proof.
  induction A as [|r A IH]; intros [|s B] n Hl HA HB; cbn in Hl; try lia.
  - exists []. repeat split; [constructor|]. intros i j Hi. cbn in Hi. lia.
  - inversion_clear HA as [|? ? Hr HA']. inversion_clear HB as [|? ? Hs HB']. destruct (IH B n) as (C & HC & HlC & HfC & HnC); [lia|assumption..|].
    exists (map (fun '(x, y) => (x + y)%R) (combine r s) :: C). cbn [combine mapM]. unfold np_add at 1. change (@length (num_R) r) with (@length R r). change (@length (num_R) s) with (@length R s).
    rewrite Hr, Hs, Nat.eqb_refl. cbn [bind]. rewrite HC. cbn [bind]. split; [reflexivity|]. split; [cbn [length]; f_equal; exact HlC|].
    split; [constructor; [rewrite map_length, combine_length; transitivity (Nat.min n n); [f_equal; assumption|apply Nat.min_id]|exact HfC]|].
    intros [|i] j Hi Hj; cbn [nth]; [apply nth_sum; [transitivity n; [exact Hr|symmetry; exact Hs]|rewrite Hr; exact Hj]|]. apply HnC; [cbn in Hi; lia|exact Hj].
Qed.

Section Facts.
Variable E : Type.
Variable e_mul e_div : E -> E -> E.
Variable e_1 : E.
Variable add_args mul_args : E -> list E.
Variable free_vars : E -> fset.
Variable sym_eqb : E -> E -> bool.
Variable far_from_diag : list (list R) -> bool.
Variable pos_eqb : position num_R -> position num_R -> bool.
Variable p : position num_R.
Variable s : iset.
Variable factor : func E.
Variable n : nat.
Hypothesis pos_same : pos_eqb p p = true.
Hypothesis sym_same : sym_eqb (f_sym factor) (f_sym factor) = true.
Notation fits := (fits E e_1 p s factor n).
Notation py_add := (py_add E e_1 sym_eqb pos_eqb).
Notation py_mul := (py_mul E e_mul e_div e_1 add_args mul_args free_vars sym_eqb far_from_diag).
Notation py_sub := (py_sub E e_mul e_div e_1 add_args mul_args free_vars sym_eqb far_from_diag pos_eqb).
Notation py_div := (py_div E e_1).
Notation py_neg := (py_neg E e_mul e_div e_1 add_args mul_args free_vars sym_eqb far_from_diag).
Notation eval := (eval E e_mul e_div e_1 add_args mul_args free_vars sym_eqb far_from_diag pos_eqb).
Notation kind_of := (kind_of E).
Notation entry_of := (entry_of E).
Notation denote := (denote E).

Lemma func_same : func_eqb E sym_eqb factor factor = true.
Proof. unfold func_eqb. rewrite nats_refl, sym_same. reflexivity. Qed.

Lemma ser_made : forall f c, fits (OSer f) -> length c = n -> exists h, series_init num_R E e_1 c p (Some factor) s = Ok h /\ s_coeffs h = c /\ fits (OSer h).
Proof.
  intros f c [Hf Hn] Hc.
  assert (HH : exists h, series_init num_R E e_1 c p (Some factor) s = Ok h /\ s_coeffs h = c).
  { unfold series_init in *. cbn [carrier num_R] in *. rewrite Hn in Hf. rewrite Hc. destruct (match p_dirs p with [] => Ok 0 | _ => _ end) as [d| | | |] eqn:Hd; try discriminate Hf. eexists. split; reflexivity. }
  destruct HH as (h & H1 & H2). exists h. split; [exact H1|]. split; [exact H2|]. cbn [MixedSpec.fits]. rewrite H2. split; [exact H1|exact Hc].
Qed.
Lemma ser_fields : forall f, fits (OSer f) -> s_pos f = p /\ s_set f = s /\ s_factor f = factor /\ length (s_coeffs f) = n.
Proof.
  intros f [Hf Hn]. unfold series_init in Hf. destruct (match p_dirs p with [] => Ok 0 | _ => _ end) as [d| | | |] eqn:Hd; try discriminate Hf. cbn [bind factor_init] in Hf. injection Hf as Hf. rewrite <- Hf at 1 2 3. repeat split. exact Hn.
Qed.
Lemma form_made : forall v m, fits (OVarf v) -> length m = n -> Forall (fun row => length row = n) m -> exists h, varf_init num_R E e_1 m p (Some factor) s = Ok h /\ v_mat h = m /\ fits (OVarf h).
Proof.
  intros v m (Hv & Hn & _) Hm Hr.
  assert (HH : exists h, varf_init num_R E e_1 m p (Some factor) s = Ok h /\ v_mat h = m).
  { unfold varf_init in *. cbn [carrier num_R] in *. rewrite Hn in Hv. rewrite Hm. destruct (py_get_degree _ _ _) as [d| | | |]; try discriminate Hv. cbn [bind] in *. destruct (s_list _ _ _) as [l| | | |]; try discriminate Hv. cbn [bind] in *.
    destruct (require _ _) as [u| | | |]; try discriminate Hv. eexists. split; reflexivity. }
  destruct HH as (h & H1 & H2). exists h. split; [exact H1|]. split; [exact H2|]. cbn [MixedSpec.fits]. rewrite H2. repeat split; assumption.
Qed.
Lemma form_fields : forall v, fits (OVarf v) -> v_pos v = p /\ v_set v = s /\ v_factor v = factor /\ length (v_mat v) = n /\ Forall (fun row => length row = n) (v_mat v).
Proof.
  intros v (Hv & Hn & Hr). unfold varf_init in Hv. destruct (py_get_degree _ _ _) as [d| | | |]; try discriminate Hv. cbn [bind] in *. destruct (s_list _ _ _) as [l| | | |]; try discriminate Hv. cbn [bind] in *.
  destruct (require _ _) as [u| | | |]; try discriminate Hv. cbn [bind factor_init] in Hv. injection Hv as Hv. rewrite <- Hv at 1 2 3. repeat split; assumption.
Qed.

(** A result of kind k with the entries that [value] says. *)
Definition gives (r : res (object E)) (k : kind) (value : nat -> nat -> R) : Prop :=
  exists x, r = Ok x /\ kind_of x = k /\ fits x /\ forall i j, k = KNum \/ i < n /\ j < n -> entry_of i j x = value i j.

Lemma ser_gives : forall f c value, fits (OSer f) -> length c = n -> (forall i j, i < n /\ j < n -> nth i c 0%R = value i j) ->
  gives (bind (series_init num_R E e_1 c p (Some factor) s) (fun h => Ok (OSer h))) KSer value.
Proof.
  intros f c value Hf Hc Hv. destruct (ser_made f c Hf Hc) as (h & H1 & H2 & H3). rewrite H1. exists (OSer h). repeat split; try exact (proj1 H3); try exact (proj2 H3). intros i j [D|Hij]; [discriminate D|]. cbn. rewrite H2. apply Hv. exact Hij.
Qed.
Lemma form_gives : forall v m value, fits (OVarf v) -> length m = n -> Forall (fun row => length row = n) m -> (forall i j, i < n /\ j < n -> nth j (nth i m []) 0%R = value i j) ->
  gives (bind (varf_init num_R E e_1 m p (Some factor) s) (fun h => Ok (OVarf h))) KForm value.
Proof.
  intros v m value Hf Hm Hr Hv. destruct (form_made v m Hf Hm Hr) as (h & H1 & H2 & H3). rewrite H1. exists (OVarf h). split; [reflexivity|]. split; [reflexivity|]. split; [exact H3|]. intros i j [D|Hij]; [discriminate D|]. cbn. rewrite H2. apply Hv. exact Hij.
Qed.
Lemma num_gives : forall x value, (forall i j, x = value i j) -> gives (Ok (ONum x)) KNum value.
Proof. intros x value H. exists (ONum x). repeat split. intros i j _. apply H. Qed.

Lemma row_len : forall m i, length m = n -> Forall (fun row : list R => length row = n) m -> i < n -> length (nth i m []) = n.
Proof. intros m i Hm Hr Hi. rewrite Forall_forall in Hr. apply Hr, nth_In. lia. Qed.
Lemma map_rows : forall (h : R -> R) m, Forall (fun row : list R => length row = n) m -> Forall (fun row : list R => length row = n) (map (map h) m).
Proof. intros h m Hr. apply Forall_map. revert Hr. apply Forall_impl. intros row Hrow. rewrite map_length. exact Hrow. Qed.

Lemma ser_map : forall f (h : R -> R) value, fits (OSer f) -> (forall i j, i < n /\ j < n -> h (nth i (s_coeffs f) 0%R) = value i j) ->
  gives (bind (series_init num_R E e_1 (map h (s_coeffs f)) p (Some factor) s) (fun h => Ok (OSer h))) KSer value.
Proof.
  intros f h value Hf Hv. destruct (ser_fields f Hf) as (_ & _ & _ & Hn). apply (ser_gives f); [exact Hf|rewrite map_length; exact Hn|].
  intros i j Hij. rewrite nth_map2 by (cbn [carrier num_R] in *; lia). apply Hv. exact Hij.
Qed.
Lemma form_map : forall v (h : R -> R) value, fits (OVarf v) -> (forall i j, i < n /\ j < n -> h (nth j (nth i (v_mat v) []) 0%R) = value i j) ->
  gives (bind (varf_init num_R E e_1 (map (map h) (v_mat v)) p (Some factor) s) (fun h => Ok (OVarf h))) KForm value.
Proof.
  intros v h value Hf Hv. destruct (form_fields v Hf) as (_ & _ & _ & Hn & Hr). apply (form_gives v); [exact Hf|rewrite map_length; exact Hn|apply map_rows; exact Hr|].
  intros i j Hij. rewrite nth_map_mat; [apply Hv; exact Hij|cbn [carrier num_R] in *; lia|]. rewrite (row_len (v_mat v) i Hn Hr); lia.
Qed.

Lemma add_gives : forall x y, fits x -> fits y -> match on_add (kind_of x) (kind_of y) with
  | Gives k => gives (py_add x y) k (fun i j => (entry_of i j x + entry_of i j y)%R) | Raises e => py_add x y = Throw e | Product => True end.
Proof.
  intros x y Hx Hy. destruct x as [x|f|v|], y as [y|g|w|]; cbn [MixedSpec.kind_of on_add MixedModel.py_add ser_add form_add]; try reflexivity.
  - apply num_gives. reflexivity.
  - destruct (form_fields w Hy) as (-> & -> & -> & _). apply form_map; [exact Hy|]. intros i j Hij. cbn. apply Rplus_comm.
  - destruct (ser_fields f Hx) as (-> & -> & -> & _). apply ser_map; [exact Hx|]. intros i j Hij. reflexivity.
  - unfold series_add. destruct (ser_fields f Hx) as (-> & -> & -> & Hn). destruct (ser_fields g Hy) as (-> & -> & -> & Hn'). rewrite pos_same, iset_refl, func_same. cbn [andb require bind].
    unfold np_add. cbn [carrier num_R] in *. rewrite Hn, Hn', Nat.eqb_refl. cbn [bind]. apply (ser_gives f); [exact Hx|rewrite map_length, combine_length; lia|].
    intros i j Hij. apply nth_sum; lia.
  - destruct (form_fields v Hx) as (-> & -> & -> & _). apply form_map; [exact Hx|]. intros i j Hij. reflexivity.
  - unfold varf_add. destruct (form_fields v Hx) as (-> & -> & -> & Hn & Hr). destruct (form_fields w Hy) as (-> & -> & -> & Hn' & Hr'). rewrite pos_same, iset_refl, func_same. cbn [andb require bind].
    unfold np_add_mat. cbn [carrier num_R] in *. rewrite Hn, Hn', Nat.eqb_refl. destruct (add_rows (v_mat v) (v_mat w) n) as (C & HC & HlC & HfC & HnC); [lia|assumption..|]. match goal with |- context [mapM ?F ?L] => replace (mapM F L) with (Ok C) by (symmetry; exact HC) end. cbn [bind].
    apply (form_gives v); [exact Hx|transitivity (length (v_mat v)); [exact HlC|exact Hn]|exact HfC|]. intros i j Hij. cbn. apply HnC; [cbn [carrier num_R] in *; lia|lia].
Qed.
Lemma mul_gives : forall x y, fits x -> fits y -> match on_mul (kind_of x) (kind_of y) with
  | Gives k => gives (py_mul x y) k (fun i j => (entry_of i j x * entry_of i j y)%R) | Raises e => py_mul x y = Throw e | Product => True end.
Proof.
  intros x y Hx Hy. destruct x as [x|f|v|], y as [y|g|w|]; cbn [MixedSpec.kind_of on_mul MixedModel.py_mul ser_mul form_mul]; try reflexivity; try exact I.
  - apply num_gives. reflexivity.
  - unfold series_scale. destruct (ser_fields g Hy) as (-> & -> & -> & _). apply ser_map; [exact Hy|]. intros i j Hij. cbn. apply Rmult_comm.
  - unfold varf_scale. destruct (form_fields w Hy) as (-> & -> & -> & _). apply form_map; [exact Hy|]. intros i j Hij. cbn. apply Rmult_comm.
  - unfold series_scale. destruct (ser_fields f Hx) as (-> & -> & -> & _). apply ser_map; [exact Hx|]. intros i j Hij. reflexivity.
  - unfold varf_scale. destruct (form_fields v Hx) as (-> & -> & -> & _). apply form_map; [exact Hx|]. intros i j Hij. reflexivity.
Qed.
Lemma div_gives : forall x y, fits x -> fits y -> (kind_of y = KNum -> entry_of 0 0 y <> 0%R) -> match on_div (kind_of x) (kind_of y) with
  | Gives k => gives (py_div x y) k (fun i j => (entry_of i j x / entry_of i j y)%R) | Raises e => py_div x y = Throw e | Product => True end.
Proof.
  intros x y Hx Hy Hz. destruct x as [x|f|v|], y as [y|g|w|]; cbn [MixedSpec.kind_of on_div MixedModel.py_div ser_div]; try reflexivity; specialize (Hz eq_refl); cbn in Hz; destruct (Req_EM_T y 0) as [D|_]; try contradiction.
  - apply num_gives. reflexivity.
  - destruct (ser_fields f Hx) as (-> & -> & -> & _). apply ser_map; [exact Hx|]. intros i j Hij. reflexivity.
Qed.
Lemma neg_gives : forall x, fits x -> match on_neg (kind_of x) with
  | Gives k => gives (py_neg x) k (fun i j => (- entry_of i j x)%R) | Raises e => py_neg x = Throw e | Product => True end.
Proof.
  intros x Hx. destruct x as [x|f|v|]; cbn [MixedSpec.kind_of on_neg MixedModel.py_neg]; try reflexivity.
  - apply num_gives. reflexivity.
  - destruct (mul_gives (OSer f) (ONum (-1)) Hx I) as (z & H1 & H2 & H3 & H4). exists z. repeat split; try assumption. intros i j Hij. rewrite (H4 i j Hij). cbn. lra.
  - destruct (mul_gives (OVarf v) (ONum (-1)) Hx I) as (z & H1 & H2 & H3 & H4). exists z. repeat split; try assumption. intros i j Hij. rewrite (H4 i j Hij). cbn. lra.
Qed.
Lemma sub_gives : forall x y, fits x -> fits y -> match on_sub (kind_of x) (kind_of y) with
  | Gives k => gives (py_sub x y) k (fun i j => (entry_of i j x - entry_of i j y)%R) | Raises e => py_sub x y = Throw e | Product => True end.
Proof.
  intros x y Hx Hy. pose proof (mul_gives y (ONum (-1)) Hy I) as Hm.
  assert (Hs : forall k, on_mul (kind_of y) KNum = Gives k -> exists z, py_mul y (ONum (-1)) = Ok z /\ kind_of z = k /\ fits z /\ forall i j, k = KNum \/ i < n /\ j < n -> entry_of i j z = (- entry_of i j y)%R).
  { intros k Hk. change (kind_of (ONum (-1))) with KNum in Hm. rewrite Hk in Hm. destruct Hm as (z & H1 & H2 & H3 & H4). exists z. repeat split; try assumption. intros i j Hij. rewrite (H4 i j Hij). cbn. lra. }
  destruct x as [x|f|v|], y as [y|g|w|]; cbn [MixedSpec.kind_of on_sub]; try reflexivity; try (apply num_gives; reflexivity);
    try (destruct (Hs _ eq_refl) as (z & H1 & H2 & H3 & H4); unfold MixedModel.py_sub; rewrite H1; cbn [bind]; destruct z as [z|z|z|]; try discriminate H2;
      match goal with |- gives (py_add ?a ?b) _ _ => destruct (add_gives a b Hx H3) as (t & T1 & T2 & T3 & T4); exists t; repeat split; try assumption; intros i j Hij; rewrite (T4 i j Hij); rewrite (H4 i j); [cbn; lra|tauto] | _ => reflexivity end).
Qed.

Theorem eval_infer : forall e, safe E e -> Forall fits (leaves E e) -> match infer E e with
  | Gives k => gives (eval e) k (fun i j => denote i j e) | Raises what => eval e = Throw what | Product => True end.
Proof.
  assert (Hbin : forall (op : object E -> object E -> res (object E)) (on : kind -> kind -> verdict) (val : R -> R -> R) a b,
    (forall k k', on k k' = Gives KNum -> k = KNum /\ k' = KNum) ->
    (forall x y, fits x -> fits y -> (forall k, infer E a = Gives k -> kind_of x = k) -> (infer E b = Gives KNum -> kind_of y = KNum -> entry_of 0 0 y = denote 0 0 b) -> infer E b = Gives (kind_of y) -> match on (kind_of x) (kind_of y) with
      | Gives k => gives (op x y) k (fun i j => val (entry_of i j x) (entry_of i j y)) | Raises e => op x y = Throw e | Product => True end) ->
    match infer E a with Gives k => gives (eval a) k (fun i j => denote i j a) | Raises what => eval a = Throw what | Product => True end ->
    match infer E b with Gives k => gives (eval b) k (fun i j => denote i j b) | Raises what => eval b = Throw what | Product => True end ->
    match both on (infer E a) (infer E b) with
    | Gives k => gives (bind (eval a) (fun x => bind (eval b) (fun y => op x y))) k (fun i j => val (denote i j a) (denote i j b)) | Raises what => bind (eval a) (fun x => bind (eval b) (fun y => op x y)) = Throw what | Product => True end).
  { intros op on val a b Hk Hop Ha Hb. destruct (infer E a) as [ka|wa|] eqn:Ia; cbn [both]; [|rewrite Ha; reflexivity|exact I]. destruct Ha as (x & A1 & A2 & A3 & A4). rewrite A1. cbn [bind].
    destruct (infer E b) as [kb|wb|] eqn:Ib; [|rewrite Hb; reflexivity|exact I]. destruct Hb as (y & B1 & B2 & B3 & B4). rewrite B1. cbn [bind].
    specialize (Hop x y A3 B3 (fun k H => ltac:(congruence)) (fun H1 H2 => ltac:(rewrite B4; [reflexivity|left; congruence])) ltac:(congruence)). rewrite A2, B2 in Hop.
    destruct (on ka kb) as [k|w|] eqn:Hon; [|exact Hop|exact I]. destruct Hop as (z & Z1 & Z2 & Z3 & Z4). exists z. repeat split; try assumption.
    intros i j Hij. rewrite (Z4 i j Hij), A4, B4; [reflexivity|..]; (destruct Hij as [->|Hij]; [|right; exact Hij]); left; destruct (Hk _ _ Hon); assumption. }
  induction e as [a|a IHa b IHb|a IHa b IHb|a IHa b IHb|a IHa b IHb|a IHa]; cbn [safe leaves infer MixedModel.eval MixedSpec.denote]; intros Hs Hl.
  - inversion_clear Hl as [|? ? Ha _]. exists a. split; [reflexivity|]. split; [reflexivity|]. split; [exact Ha|]. intros. reflexivity.
  - apply Forall_app in Hl. destruct Hs, Hl. apply (Hbin py_add on_add Rplus a b); [intros [] []; cbn; intros; split; congruence| |apply IHa; assumption|apply IHb; assumption]. intros x y Hx Hy _ _ _. apply add_gives; assumption.
  - apply Forall_app in Hl. destruct Hs, Hl. apply (Hbin py_sub on_sub Rminus a b); [intros [] []; cbn; intros; split; congruence| |apply IHa; assumption|apply IHb; assumption]. intros x y Hx Hy _ _ _. apply sub_gives; assumption.
  - apply Forall_app in Hl. destruct Hs, Hl. apply (Hbin py_mul on_mul Rmult a b); [intros [] []; cbn; intros; split; congruence| |apply IHa; assumption|apply IHb; assumption]. intros x y Hx Hy _ _ _. apply mul_gives; assumption.
  - apply Forall_app in Hl. destruct Hs as (Hsa & Hsb & Hz), Hl. apply (Hbin py_div on_div Rdiv a b); [intros [] []; cbn; intros; split; congruence| |apply IHa; assumption|apply IHb; assumption]. intros x y Hx Hy _ Hd Hi. apply div_gives; [assumption..|].
    intros Hk. rewrite Hk in Hi. rewrite (Hd Hi Hk). exact (Hz Hi).
  - specialize (IHa Hs Hl). destruct (infer E a) as [k|w|]; [|rewrite IHa; reflexivity|exact I]. destruct IHa as (x & A1 & A2 & A3 & A4). rewrite A1. cbn [bind]. pose proof (neg_gives x A3) as Hn. rewrite A2 in Hn.
    destruct k; cbn [on_neg] in *; try exact Hn; destruct Hn as (z & Z1 & Z2 & Z3 & Z4); exists z; repeat split; try assumption; intros i j Hij; rewrite (Z4 i j Hij), (A4 i j Hij); reflexivity.
Qed.
End Facts.

Section Sums.
Variable E : Type.
Variable e_mul e_div : E -> E -> E.
Variable e_1 : E.
Variable add_args mul_args : E -> list E.
Variable free_vars : E -> fset.
Variable sym_eqb : E -> E -> bool.
Variable far_from_diag : list (list R) -> bool.
Variable pos_eqb : position num_R -> position num_R -> bool.
Notation py_sum := (py_sum E e_1 sym_eqb pos_eqb).

Lemma sum_tail : forall p s factor n, pos_eqb p p = true -> sym_eqb (f_sym factor) (f_sym factor) = true ->
  forall vs t, Forall (fun v => fits E e_1 p s factor n (OVarf v)) vs -> fits E e_1 p s factor n (OVarf t) ->
  exists h, for_in (fun a total => py_add E e_1 sym_eqb pos_eqb total a) (map OVarf vs) (OVarf t) = Ok (OVarf h) /\ fits E e_1 p s factor n (OVarf h) /\
    forall i j, i < n -> j < n -> entry_of E i j (OVarf h) = (entry_of E i j (OVarf t) + fold_right Rplus 0 (map (fun v => entry_of E i j (OVarf v)) vs))%R.
Proof.
  intros p s factor n Hp Hf. induction vs as [|v vs IH]; intros t Hvs Ht.
  - exists t. split; [reflexivity|]. split; [exact Ht|]. intros i j _ _. cbn [map fold_right]. ring.
  - inversion_clear Hvs as [|? ? Hv Hvs']. pose proof (add_gives E e_1 sym_eqb pos_eqb p s factor n Hp Hf (OVarf t) (OVarf v) Ht Hv) as (x & H1 & H2 & H3 & H4). destruct x as [x|x|t'|]; try discriminate H2.
    destruct (IH t' Hvs' H3) as (h & G1 & G2 & G3). exists h. cbn [map for_in]. rewrite H1. split; [exact G1|]. split; [exact G2|]. intros i j Hi Hj. rewrite (G3 i j Hi Hj), (H4 i j) by (right; lia). cbn [map fold_right]. ring.
Qed.
Lemma sum_forms : forall p s factor n, pos_eqb p p = true -> sym_eqb (f_sym factor) (f_sym factor) = true ->
  forall vs, vs <> [] -> Forall (fun v => fits E e_1 p s factor n (OVarf v)) vs ->
  exists h, py_sum (map OVarf vs) = Ok (OVarf h) /\ fits E e_1 p s factor n (OVarf h) /\
    forall i j, i < n -> j < n -> nth j (nth i (v_mat h) []) 0%R = fold_right Rplus 0%R (map (fun v : varf num_R E => nth j (nth i (v_mat v) []) 0%R) vs).
Proof.
  intros p s factor n Hp Hf [|v vs] Hne Hvs; [contradiction|]. inversion_clear Hvs as [|? ? Hv Hvs']. unfold MixedModel.py_sum. cbn [map for_in].
  pose proof (add_gives E e_1 sym_eqb pos_eqb p s factor n Hp Hf (ONum 0) (OVarf v) I Hv) as (x & H1 & H2 & H3 & H4). destruct x as [x|x|t'|]; try discriminate H2.
  destruct (sum_tail p s factor n Hp Hf vs t' Hvs' H3) as (h & G1 & G2 & G3). exists h. rewrite H1. split; [exact G1|]. split; [exact G2|]. intros i j Hi Hj. pose proof (G3 i j Hi Hj) as G. pose proof (H4 i j (or_intror (conj Hi Hj))) as T. cbn [entry_of] in G, T. rewrite G, T. cbn [map fold_right carrier num_R]. ring.
Qed.
End Sums.
