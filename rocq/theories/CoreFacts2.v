(** Proofs about tensorize, project and inner of hermipy/core.py. *)
From Coq Require Import String List Bool Arith ZArith Lia Sorted Permutation.
From Verif Require Import Base Lists IndexModel Spec Num LinModel LinSpec LinBase MatBase Project Tensorize Dirs Sparse TensorMat Inner InnerSum Facts2 Facts3 Facts4 Facts5 PyBase CoreModel CoreSpec CoreFacts.
Import ListNotations.
Local Open Scope string_scope. Local Open Scope list_scope. Local Open Scope nat_scope.

Section CoreFacts2.
Variable N : num.
Hypothesis L : num_laws N.

Lemma points_pos : forall s dim degree, usable s dim degree -> 0 < length (points s dim degree).
Proof using. intros s dim degree H. destruct (points_hd s dim degree H) as [t E]. rewrite E. cbn [length]. lia. Qed.

(** * Conversions of the arguments *)
Lemma densify_ok : forall s dim degree (a : parr N), matrix_for s dim degree a -> densify N a = PMat (contents a) /\ mat_for s dim degree (contents a).
Proof using.
  intros s dim degree [x|v|A|c] H; try contradiction; [split; [reflexivity|exact H]|]. destruct H as (H1 & H2 & H3). split; [reflexivity|]. cbn [contents]. unfold mat_for. rewrite <- H2 at 1. rewrite <- H3.
  split; [rewrite map_length, seq_length; reflexivity|]. apply Forall_forall. intros r Hr. apply in_map_iff in Hr as (i & <- & _). rewrite map_length, seq_length. reflexivity.
Qed.
Lemma mat_to_cpp : forall s dim degree (A : list (list N)), usable s dim degree -> mat_for s dim degree A -> to_cpp_array N (PMat A) = Ok (CMat N A).
Proof using.
  intros s dim degree A Hu [H1 H2]. pose proof (points_pos _ _ _ Hu) as Hp. destruct A as [|r A]; [cbn in H1; lia|]. inversion H2 as [|? ? H3 H4]; subst. destruct r as [|x r]; [cbn in H3; lia|]. reflexivity.
Qed.
Lemma vec_to_cpp : forall s dim degree (v : list N), usable s dim degree -> vec_for s dim degree v -> to_cpp_array N (PVec v) = Ok (CVec N v).
Proof using. intros s dim degree v Hu H. pose proof (points_pos _ _ _ Hu) as Hp. unfold vec_for in H. destruct v as [|x v]; [cbn in H; lia|]. reflexivity. Qed.

Lemma to_spmats_ok : forall s degree dims (inputs : list (list (list N))), Forall2 (fun k A => usable s k degree /\ mat_for s k degree A) dims inputs ->
  exists Bs, mapM (to_spmat N) inputs = Ok Bs /\ map (@dense N) Bs = inputs /\ Forall2 (fun k B => sp_for s k degree B) dims Bs.
Proof using L.
  intros s degree dims inputs H2. induction H2 as [|k A dims inputs [HU HA] H2 IH]; [exists []; repeat split; constructor|].
  destruct (to_spmat_ok N (law_eqb _ L) _ _ A HA (points_pos _ _ _ HU)) as (B & E1 & (E2 & E2' & E2'') & E3). destruct IH as (Bs & F1 & F2 & F3). exists (B :: Bs). cbn [mapM map]. rewrite E1. cbn [bind]. rewrite F1. cbn [bind].
  split; [reflexivity|]. split; [rewrite E3, F2; reflexivity|]. constructor; [|exact F3]. split; [exact E2|]. split; assumption.
Qed.

(** The result, sparse or dense, of a computation on sparse matrices. *)
Lemma to_numpy_sp : forall s dim degree (C : spmat N), sp_for s dim degree C -> exists out, to_numpy N (CSp N C) = Ok out /\ is_csr out = true /\ matrix_for s dim degree out /\ no_duplicates out /\ contents out = dense C.
Proof using L.
  intros s dim degree C (H1 & H2 & H3). destruct (to_csr_ok N L C H1) as (A1 & A2 & A3 & A4 & A5). exists (PCsr (to_csr N C)). split; [reflexivity|]. split; [reflexivity|]. split; [|split; assumption]. cbn [matrix_for]. rewrite A3, A4. rewrite A3, A4 in A1. split; [exact A1|]. split; assumption.
Qed.
Lemma dense_for : forall s dim degree (C : spmat N), sp_for s dim degree C -> mat_for s dim degree (dense C).
Proof using. intros s dim degree C (H1 & H2 & H3). pose proof (dense_wf N C H1) as G. rewrite H2, H3 in G. exact G. Qed.
Lemma sparse_or_dense : forall s dim degree (C : spmat N) (sparse : bool), sp_for s dim degree C ->
  exists out, (if sparse then to_numpy N (CSp N C) else A <- full N C ;; to_numpy N (CMat N A)) = Ok out /\ is_csr out = sparse /\ matrix_for s dim degree out /\ no_duplicates out /\ contents out = dense C.
Proof using L.
  intros s dim degree C [] H; [apply to_numpy_sp; exact H|]. rewrite full_ok by apply H. cbn [bind to_numpy]. exists (PMat (dense C)). split; [reflexivity|]. split; [reflexivity|]. split; [apply dense_for; exact H|]. split; [exact I|reflexivity].
Qed.

Lemma sub_usable : forall s degree d (dirs : list (list nat)) dj, Permutation d (concat dirs) -> usable s (length d) degree -> In dj dirs -> dj <> [] -> usable s (length dj) degree.
Proof using. intros s degree d dirs dj Hp Hu Hj Hne. eapply usable_sub; [exact Hu|]. split; [apply length_ge1, Hne|]. rewrite (Permutation_length Hp). apply sub_length, Hj. Qed.

(** Matrices with directions. *)
Lemma mats_finish : forall s degree dirs (inputs : list (list (list N))) d sparse, increasing d -> Permutation d (concat dirs) ->
  usable s (length d) degree -> Forall (fun dj => increasing dj /\ dj <> []) dirs -> Forall2 (fun dj A => mat_for s (length dj) degree A) dirs inputs ->
  exists out, finish N sparse (WithDirs N (CCube N inputs) dirs) (set_name s) = Ok out /\ is_csr out = sparse /\ matrix_for s (length d) degree out /\ no_duplicates out /\
    forall r c, index_of s (length d) degree r -> index_of s (length d) degree c -> entry s (length d) degree (contents out) r c = mproduct s degree d dirs inputs r c.
Proof using L.
  intros s degree dirs inputs d sparse Hd Hp Hu Hdirs H2. rewrite Forall_forall in Hdirs.
  destruct (to_spmats_ok s degree (map (@length nat) dirs) inputs) as (Bs & F1 & F2 & F3).
  { assert (G : forall dj, In dj dirs -> usable s (length dj) degree) by (intros dj Hj; eapply sub_usable; try eassumption; apply (Hdirs dj Hj)). clear - H2 G. induction H2 as [|dj A dirs inputs HA H2 IH]; constructor; [split; [apply G; left; reflexivity|exact HA]|]. apply IH. intros e He. apply G. right. exact He. }
  assert (F3' : Forall2 (fun dj B => sp_for s (length dj) degree B) dirs Bs) by (clear - F3; revert Bs F3; induction dirs as [|dj dirs IH]; intros Bs F3; inversion F3; subst; constructor; [assumption|apply IH; assumption]).
  destruct (tensorize_sp_entry N L s degree dirs Bs d Hd Hp Hu) as (C & E1 & E2 & E3); [apply Forall_forall; exact Hdirs|exact F3'|]. rewrite F2 in E3.
  destruct (sparse_or_dense s (length d) degree C sparse E2) as (out & O1 & O2 & O3 & O4 & O5). exists out. split; [|repeat split; try assumption; intros; rewrite O5; apply E3; assumption].
  unfold finish. destruct sparse; cbn [hm_tensorize hm_tensorize_sp]; rewrite named_name; cbn [bind]; unfold tensorize_mats; rewrite F1; cbn [bind]; rewrite E1; cbn [bind]; [exact O1|]. destruct (full N C); cbn [bind] in *; try discriminate O1; exact O1.
Qed.

(** * Dicts *)
Lemma Forall2_map : forall A B C (P : A -> B -> Prop) (f : C -> A) (g : C -> B) l, (forall z, In z l -> P (f z) (g z)) -> Forall2 P (map f l) (map g l).
Proof using. intros A B C P f g. induction l as [|z l IH]; intros H; cbn [map]; constructor; [apply H; left; reflexivity|]. apply IH. intros y Hy. apply H. right. exact Hy. Qed.
Lemma mapM_ok' : forall A B (f : A -> res B) (g : A -> B) l, (forall a, In a l -> f a = Ok (g a)) -> mapM f l = Ok (map g l).
Proof using. intros A B f g. induction l as [|a l IH]; intros H; [reflexivity|]. cbn [mapM map]. rewrite H by (left; reflexivity). cbn [bind]. rewrite IH by (intros b Hb; apply H; right; exact Hb). reflexivity. Qed.

Lemma dict_matrices : forall s degree (l : list (list nat * parr N)) d dim direction sparse, increasing d -> Permutation d (concat (map fst l)) -> usable s (length d) degree ->
  Forall (fun z => increasing (fst z) /\ fst z <> [] /\ matrix_for s (length (fst z)) degree (snd z)) l ->
  exists out, tensorize N (IDict l) dim direction sparse (set_name s) = Ok out /\ is_csr out = sparse /\ matrix_for s (length d) degree out /\ no_duplicates out /\
    forall r c, index_of s (length d) degree r -> index_of s (length d) degree c ->
      entry s (length d) degree (contents out) r c = mproduct s degree d (map fst l) (map (fun z => contents (snd z)) l) r c.
Proof using L.
  intros s degree l d dim direction sparse Hd Hp Hu Hl. rewrite Forall_forall in Hl.
  destruct (mats_finish s degree (map fst l) (map (fun z => contents (snd z)) l) d sparse Hd Hp Hu) as (out & O1 & O2).
  - apply Forall_forall. intros dj Hj. apply in_map_iff in Hj as (z & <- & Hz). destruct (Hl z Hz) as (A & B & _). split; assumption.
  - apply Forall2_map. intros z Hz. destruct (Hl z Hz) as (_ & _ & A). apply (densify_ok _ _ _ _ A).
  - exists out. split; [|exact O2]. assert (G : dict_mats N l = Ok (map (fun z => contents (snd z)) l)).
    { apply mapM_ok'. intros z Hz. destruct (Hl z Hz) as (A1 & A2 & A). destruct (densify_ok _ _ _ _ A) as [B1 B2]. rewrite B1, (mat_to_cpp s (length (fst z)) degree); [reflexivity| |exact B2]. apply (sub_usable s degree d (map fst l)); try assumption. apply in_map, Hz. }
    unfold tensorize. destruct l as [|[dj [x|v|A|c]] l].
    + apply Permutation_length in Hp. cbn in Hp. destruct Hu as [Hu _]. lia.
    + destruct (Hl (dj, PNum x) (or_introl eq_refl)) as (_ & _ & []).
    + destruct (Hl (dj, PVec v) (or_introl eq_refl)) as (_ & _ & []).
    + rewrite G. cbn [bind]. exact O1.
    + rewrite G. cbn [bind]. exact O1.
Qed.

Lemma dict_vectors : forall s degree (l : list (list nat * list N)) n dim direction, n = length (concat (map fst l)) -> usable s n degree -> dirs_ok n (map fst l) ->
  Forall (fun z => vec_for s (length (fst z)) degree (snd z)) l ->
  exists out, tensorize N (IDict (map (fun z => (fst z, PVec (snd z))) l)) dim direction false (set_name s) = Ok (PVec out) /\ vec_for s n degree out /\
    forall m, index_of s n degree m -> coef s n degree out m = vproduct s n degree (map fst l) (map snd l) m.
Proof using.
  intros s degree l n dim direction Hn Hu Hd Hl. rewrite Forall_forall in Hl. destruct (tensorize_vec_coef N s degree (map fst l) (map snd l) n Hn Hu Hd) as (out & O1 & O2); [apply Forall2_map; exact Hl|]. exists out. split; [|exact O2].
  assert (G : dict_vecs N (map (fun z => (fst z, PVec (snd z))) l) = Ok (map snd l)).
  { unfold dict_vecs. rewrite (mapM_ok' _ _ _ (fun z => match snd z with PVec v => v | _ => [] end)).
    - rewrite map_map. reflexivity.
    - intros a Ha. apply in_map_iff in Ha as (z & <- & Hz). cbn [snd densify]. rewrite (vec_to_cpp s (length (fst z)) degree); [reflexivity| |apply Hl, Hz]. eapply usable_sub; [exact Hu|]. unfold dirs_ok in Hd. rewrite Forall_forall in Hd. destruct (Hd (fst z) (in_map _ _ _ Hz)) as (_ & A & _). split; [apply length_ge1, A|]. rewrite Hn. apply sub_length, in_map, Hz. }
  assert (E : map fst (map (fun z : list nat * list N => (fst z, PVec (snd z))) l) = map fst l) by (rewrite map_map; reflexivity).
  unfold tensorize. destruct l as [|z l]; [cbn in Hn; destruct Hu; lia|]. cbn [map]. cbn [map] in G, E. rewrite G. cbn [bind]. unfold finish. cbn [hm_tensorize]. rewrite named_name. cbn [bind]. cbn [map fst]. injection E as E. rewrite E. cbn [map] in O1. rewrite O1. reflexivity.
Qed.

(** * Numbers *)
Lemma dict_numbers : forall (l : list (list nat * N)) dim direction sparse name, l <> [] -> tensorize N (IDict (map (fun z => (fst z, PNum (snd z))) l)) dim direction sparse name = Ok (PNum (nprod (map snd l))).
Proof using.
  intros l dim direction sparse name Hl. unfold tensorize. destruct l as [|z l]; [contradiction|]. cbn [map]. unfold np_prod. cbn [map]. rewrite (mapM_ok' _ _ _ (fun a => match a with PNum x => x | _ => n0 end)).
  - cbn [bind map]. rewrite !map_map. reflexivity.
  - intros a [<-|Ha]; [reflexivity|]. apply in_map_iff in Ha as (y & <- & Hy). apply in_map_iff in Hy as (w & <- & _). reflexivity.
Qed.
Lemma list_numbers : forall (l : list N) sparse name, l <> [] -> tensorize N (IList (map PNum l)) None None sparse name = Ok (PNum (nprod l)).
Proof using.
  intros l sparse name Hl. unfold tensorize. destruct l as [|x l]; [contradiction|]. cbn [map]. unfold np_prod. rewrite (mapM_ok' _ _ _ (fun a => match a with PNum x => x | _ => n0 end)).
  - cbn [bind map]. rewrite map_map, map_id. reflexivity.
  - intros a [<-|Ha]; [reflexivity|]. apply in_map_iff in Ha as (y & <- & _). reflexivity.
Qed.

(** * Lists *)
Lemma list_vectors : forall s degree (l : list (list N)), usable s (length l) degree -> Forall (fun v => vec_for s 1 degree v) l ->
  exists out, tensorize N (IList (map PVec l)) None None false (set_name s) = Ok (PVec out) /\ vec_for s (length l) degree out /\
    forall m, index_of s (length l) degree m -> coef s (length l) degree out m = nprod (map (fun '(k, v) => coef s 1 degree v [k]) (combine m l)).
Proof using.
  intros s degree l Hu Hl. destruct (tensorize_axes_coef N s degree l Hu Hl) as (out & O1 & O2). exists out. split; [|exact O2].
  assert (U1 : usable s 1 degree) by (eapply usable_sub; [exact Hu|]; split; [lia|apply Hu]). pose proof (points_pos _ _ _ U1) as Hp.
  unfold tensorize. destruct l as [|v l]; [exfalso; destruct Hu as [Hu _]; try unfold n in Hu; cbn in Hu; lia|]. cbn [map]. assert (G : mapM (as_vec N) (PVec v :: map PVec l) = Ok (v :: l)).
  { rewrite (mapM_ok' _ _ _ (fun a => match a with PVec v => v | _ => [] end)); [cbn [map]; rewrite map_map, map_id; reflexivity|]. intros a [<-|Ha]; [reflexivity|]. apply in_map_iff in Ha as (y & <- & _). reflexivity. }
  unfold list_to_cpp. inversion Hl as [|? ? H1 H2]; subst. unfold vec_for in H1. destruct v as [|x v]; [cbn [length] in H1; lia|]. rewrite G. cbn [bind]. unfold finish. cbn [hm_tensorize]. rewrite named_name. cbn [bind]. rewrite O1. reflexivity.
Qed.

Lemma list_matrices : forall s degree (l : list (parr N)) sparse kind, usable s (length l) degree -> Forall (fun a => matrix_for s 1 degree a /\ is_csr a = kind) l ->
  exists out, tensorize N (IList l) None None sparse (set_name s) = Ok out /\ is_csr out = sparse /\ matrix_for s (length l) degree out /\ no_duplicates out /\
    forall r c, index_of s (length l) degree r -> index_of s (length l) degree c ->
      entry s (length l) degree (contents out) r c = nprod (map (fun i => entry s 1 degree (contents (nth i l (PNum n0))) [nth i r 0] [nth i c 0]) (seq 0 (length l))).
Proof using L.
  intros s degree l sparse kind Hu Hl. rewrite Forall_forall in Hl. assert (U1 : usable s 1 degree) by (eapply usable_sub; [exact Hu|]; split; [lia|apply Hu]). pose proof (points_pos _ _ _ U1) as Hp. set (n := length l) in *.
  assert (Hn : length (map contents l) = n) by apply map_length.
  destruct (mats_finish s degree (map (fun i => [i]) (seq 0 n)) (map contents l) (seq 0 n) sparse) as (out & O1 & O2 & O3 & O4 & O5).
  - apply seq_increasing.
  - rewrite concat_axes. apply Permutation_refl.
  - rewrite seq_length. exact Hu.
  - apply axes_inc.
  - rewrite <- Hn. apply (Forall2_axes _ (fun k A => mat_for s k degree A)). intros x Hx. apply in_map_iff in Hx as (a & <- & Ha). apply (densify_ok s 1 degree a), Hl, Ha.
  - rewrite seq_length in *. exists out. split; [|split; [exact O2|]; split; [exact O3|]; split; [exact O4|]].
    + assert (Ef : finish N sparse (Alone N (CCube N (map contents l))) (set_name s) = Ok out).
      { rewrite <- O1. unfold finish. destruct sparse; cbn [hm_tensorize hm_tensorize_sp]; rewrite named_name; cbn [bind].
        - destruct (mapM (to_spmat N) (map contents l)) as [Bs| | | |] eqn:EB; cbn [bind]; try reflexivity. unfold tensorize_sps_axes. apply mapM_length in EB. rewrite Hn in EB. rewrite EB. reflexivity.
        - rewrite Hn. reflexivity. }
      assert (G : mapM (as_mat N) (map (fun a => PMat (contents a)) l) = Ok (map contents l)).
      { rewrite (mapM_ok' _ _ _ contents); [rewrite map_map; reflexivity|]. intros a Ha. apply in_map_iff in Ha as (b & <- & _). reflexivity. }
      assert (G' : list_to_cpp N (map (fun a => PMat (contents a)) l) = Ok (CCube N (map contents l))).
      { unfold list_to_cpp. destruct l as [|a l']; [exfalso; destruct Hu as [Hu _]; try unfold n in Hu; cbn in Hu; lia|]. destruct (densify_ok s 1 degree a) as [_ [B1 _]]; [apply Hl; left; reflexivity|]. cbn [map] in *. destruct (contents a) as [|r A]; [cbn [length] in B1; lia|]. rewrite G. reflexivity. }
      unfold tensorize. destruct l as [|a l']; [exfalso; destruct Hu as [Hu _]; try unfold n in Hu; cbn in Hu; lia|]. destruct kind.
      * assert (GC : mapM (only_csr N) (a :: l') = Ok (map (fun a => PMat (contents a)) (a :: l'))).
        { apply mapM_ok'. intros b Hb. destruct (Hl b Hb) as [B1 B2]. destruct b; try discriminate B2. reflexivity. }
        destruct (Hl a (or_introl eq_refl)) as [B1 B2]. destruct a; try discriminate B2. rewrite GC. cbn [bind]. rewrite G'. cbn [bind]. exact Ef.
      * assert (GD : map (fun a => PMat (contents a)) (a :: l') = a :: l').
        { rewrite <- (map_id (a :: l')) at 2. apply map_ext_in. intros b Hb. destruct (Hl b Hb) as [B1 B2]. destruct b; try contradiction; try discriminate B2. reflexivity. }
        rewrite GD in G'. destruct (Hl a (or_introl eq_refl)) as [B1 B2]. destruct a; try contradiction; try discriminate B2. rewrite G'. cbn [bind]. exact Ef.
    + intros r c Hr Hc. rewrite O5 by assumption. unfold mproduct. f_equal. rewrite <- Hn. rewrite (combine_axes _ (map contents l) []), map_map, Hn. apply map_ext_in. intros i Hi. apply in_seq in Hi. cbn [length].
      destruct Hr as [Hr _]. destruct Hc as [Hc _]. unfold reindex. cbn [map]. rewrite <- Hr at 1. rewrite lookup_seq by lia. rewrite <- Hc at 1. rewrite lookup_seq by lia. rewrite (nth_map_lt _ _ _ _ _ _ (PNum n0)) by (fold n; lia). reflexivity.
Qed.

(** * One array, with constants or identities in the other directions *)
Lemma one_vector : forall s dim degree dir (v : list N), usable s dim degree -> dir < dim -> vec_for s 1 degree v ->
  exists out, tensorize N (IOne (PVec v)) (Some dim) (Some dir) false (set_name s) = Ok (PVec out) /\ vec_for s dim degree out /\
    forall m, index_of s dim degree m ->
      ((forall i, i < dim -> i <> dir -> nth i m 0 = 0) -> coef s dim degree out m = coef s 1 degree v [nth dir m 0]) /\
      (forall i, i < dim -> i <> dir -> nth i m 0 <> 0 -> coef s dim degree out m = n0).
Proof using L.
  intros s dim degree dir v Hu Hd Hv. assert (U1 : usable s 1 degree) by (eapply usable_sub; [exact Hu|]; split; [lia|apply Hu]). destruct (tensorize_vec_id_coef N L s dim degree dir v Hu Hd Hv) as (out & O1 & O2). exists out. split; [|exact O2].
  unfold tensorize. cbn [densify]. rewrite (vec_to_cpp s 1 degree) by assumption. cbn [bind]. unfold finish. cbn [hm_tensorize]. rewrite named_name. cbn [bind]. rewrite O1. reflexivity.
Qed.
Lemma one_matrix : forall s dim degree dir (a : parr N) sparse, usable s dim degree -> dir < dim -> matrix_for s 1 degree a ->
  exists out, tensorize N (IOne a) (Some dim) (Some dir) sparse (set_name s) = Ok out /\ is_csr out = sparse /\ matrix_for s dim degree out /\ no_duplicates out /\
    forall r c, index_of s dim degree r -> index_of s dim degree c ->
      ((forall i, i < dim -> i <> dir -> nth i r 0 = nth i c 0) -> entry s dim degree (contents out) r c = entry s 1 degree (contents a) [nth dir r 0] [nth dir c 0]) /\
      (forall i, i < dim -> i <> dir -> nth i r 0 <> nth i c 0 -> entry s dim degree (contents out) r c = n0).
Proof using L.
  intros s dim degree dir a sparse Hu Hd Ha. assert (U1 : usable s 1 degree) by (eapply usable_sub; [exact Hu|]; split; [lia|apply Hu]). destruct (densify_ok _ _ _ _ Ha) as [A1 A2].
  destruct (to_spmat_ok N (law_eqb _ L) _ _ _ A2 (points_pos _ _ _ U1)) as (B & B1 & B2 & B3). destruct (tensorize_sp_id_entry N L s dim degree dir B Hu Hd B2) as (C & C1 & C2 & C3).
  destruct (sparse_or_dense s dim degree C sparse C2) as (out & O1 & O2 & O3 & O4 & O5). exists out. split; [|split; [exact O2|]; split; [exact O3|]; split; [exact O4|]; rewrite O5, <- B3; exact C3].
  unfold tensorize. rewrite A1, (mat_to_cpp s 1 degree) by assumption. cbn [bind]. unfold finish. destruct sparse; cbn [hm_tensorize hm_tensorize_sp]; rewrite named_name; cbn [bind]; rewrite B1; cbn [bind]; rewrite C1; cbn [bind]; [exact O1|]. destruct (full N C); cbn [bind] in *; try discriminate O1; exact O1.
Qed.

(** * project *)
Lemma project_vector : forall s dim degree dirs (v : list N), usable s dim degree -> vec_for s dim degree v -> increasing dirs -> dirs <> [] -> Forall (fun x => x < dim) dirs ->
  exists out, project N (PVec v) dim (inr dirs) (set_name s) = Ok (PVec out) /\ vec_for s (length dirs) degree out /\
    forall m, index_of s (length dirs) degree m -> coef s (length dirs) degree out m = coef s dim degree v (reindex dirs (seq 0 dim) m).
Proof using.
  intros s dim degree dirs v Hu Hv H1 H2 H3. destruct (project_vec_coef N s dim degree dirs v Hu Hv H1 H2 H3) as (out & O1 & O2). exists out. split; [|exact O2].
  unfold project. cbn [to_cpp]. rewrite (vec_to_cpp s dim degree) by assumption. cbn [bind hm_project]. rewrite named_name. cbn [bind]. rewrite O1. reflexivity.
Qed.
Lemma project_matrix : forall s dim degree dirs (a : parr N), usable s dim degree -> matrix_for s dim degree a -> no_duplicates a -> increasing dirs -> dirs <> [] -> Forall (fun x => x < dim) dirs ->
  exists out, project N a dim (inr dirs) (set_name s) = Ok out /\ is_csr out = is_csr a /\ matrix_for s (length dirs) degree out /\ no_duplicates out /\
    forall r c, index_of s (length dirs) degree r -> index_of s (length dirs) degree c ->
      entry s (length dirs) degree (contents out) r c = entry s dim degree (contents a) (reindex dirs (seq 0 dim) r) (reindex dirs (seq 0 dim) c).
Proof using L.
  intros s dim degree dirs a Hu Ha Hnd H1 H2 H3. destruct a as [x|v|A|c]; try contradiction.
  - destruct (project_mat_entry N s dim degree dirs A Hu Ha H1 H2 H3) as (out & O1 & O2 & O3). exists (PMat out). split; [|split; [reflexivity|]; split; [exact O2|]; split; [exact I|exact O3]].
    unfold project. cbn [to_cpp]. rewrite (mat_to_cpp s dim degree) by assumption. cbn [bind hm_project]. rewrite named_name. cbn [bind]. rewrite O1. reflexivity.
  - destruct Ha as (A1 & A2 & A3). destruct (csr_faithful N L _ _ _ _ _ A1 Hnd) as (B & B1 & B2 & B3 & B4 & B5).
    assert (HB : sp_for s dim degree B) by (split; [exact B2|]; split; congruence).
    assert (EB : contents (PCsr c) = dense B).
    { pose proof (dense_wf N B B2) as [D1 D2]. cbn [contents]. apply (list_ext_nth _ _ _ []); [rewrite map_length, seq_length, D1; symmetry; exact B3|]. intros i Hi. rewrite map_length, seq_length in Hi. rewrite (nth_map_lt _ _ _ _ _ _ 0) by (rewrite seq_length; exact Hi). rewrite seq_nth by exact Hi. cbn [Nat.add].
      assert (Hr : length (nth i (dense B) []) = c_cols c) by (rewrite Forall_forall in D2; rewrite D2; [exact B4|apply nth_In; rewrite D1, B3; exact Hi]).
      apply (list_ext_nth _ _ _ n0); [rewrite map_length, seq_length; symmetry; exact Hr|]. intros j Hj. rewrite map_length, seq_length in Hj. rewrite (nth_map_lt _ _ _ _ _ _ 0) by (rewrite seq_length; exact Hj). rewrite seq_nth by exact Hj. symmetry. apply B5; assumption. }
    destruct (project_sp_entry N s dim degree dirs B Hu HB H1 H2 H3) as (C & C1 & C2 & C3). destruct (to_numpy_sp s (length dirs) degree C C2) as (out & O1 & O2 & O3 & O4 & O5).
    exists out. split; [|split; [exact O2|]; split; [exact O3|]; split; [exact O4|]; rewrite O5, EB; exact C3].
    unfold project. cbn [to_cpp]. unfold convert_to_cpp_sparse. rewrite B1. cbn [bind hm_project]. rewrite named_name. cbn [bind]. rewrite C1. cbn [bind]. exact O1.
Qed.

(** * What raises and what ends the process *)
Lemma sparse_vectors : forall (l : list (list nat * list N)) (v : list N) dim direction name, l <> [] -> Forall (fun z => snd z <> []) l -> v <> [] ->
  tensorize N (IDict (map (fun z => (fst z, PVec (snd z))) l)) dim direction true name = Throw "ArgumentError" /\
  tensorize N (IList (map (fun z => PVec (snd z)) l)) None None true name = Throw "ArgumentError" /\
  forall d i, tensorize N (IOne (PVec v)) (Some d) (Some i) true name = Throw "ArgumentError".
Proof using.
  intros l v dim direction name Hl Hne Hv. rewrite Forall_forall in Hne. destruct l as [|z l]; [contradiction|]. split; [|split].
  - unfold tensorize. cbn [map]. assert (G : exists o, dict_vecs N ((fst z, PVec (snd z)) :: map (fun z => (fst z, PVec (snd z))) l) = Ok o).
    { eexists. apply (mapM_ok' _ _ _ (fun z => match snd z with PVec v => v | _ => [] end)). intros a Ha. change (In a (map (fun z => (fst z, PVec (snd z))) (z :: l))) in Ha. apply in_map_iff in Ha as (y & <- & Hy). cbn [snd densify]. specialize (Hne y Hy). destruct (snd y); [contradiction|]. reflexivity. }
    destruct G as [o G]. rewrite G. reflexivity.
  - unfold tensorize. cbn [map]. unfold list_to_cpp. assert (Hz := Hne z (or_introl eq_refl)). destruct (snd z) as [|x w] eqn:Ez; [contradiction|].
    assert (G : exists o, mapM (as_vec N) (PVec (x :: w) :: map (fun z => PVec (snd z)) l) = Ok o).
    { eexists. apply (mapM_ok' _ _ _ (fun a => match a with PVec v => v | _ => [] end)). intros a [<-|Ha]; [reflexivity|]. apply in_map_iff in Ha as (y & <- & _). reflexivity. }
    destruct G as [o G]. rewrite G. reflexivity.
  - intros d i. unfold tensorize. destruct v; [contradiction|]. reflexivity.
Qed.
End CoreFacts2.

Lemma inner_vectors : forall (N : num), num_laws N -> forall s degree d1 d2 dres dinn (v1 v2 : list N), increasing d1 -> increasing d2 -> d1 <> [] -> d2 <> [] ->
  inner_dirs d1 d2 dres dinn -> usable s (length d1) degree -> usable s (length d2) degree -> (dres <> [] -> usable s (length dres) degree) ->
  vec_for s (length d1) degree v1 -> vec_for s (length d2) degree v2 ->
  exists out, core_inner N (PVec v1) (PVec v2) d1 d2 (set_name s) = Ok (PVec out) /\ vec_for s (length dres) degree out /\
    forall r, index_of s (length dres) degree r -> coef s (length dres) degree out r = contraction s degree d1 d2 dres dinn v1 v2 r.
Proof.
  intros N L s degree d1 d2 dres dinn v1 v2 H1 H2 H3 H4 H5 H6 H7 H8 H9 H10. destruct (inner_coef N L s degree d1 d2 dres dinn v1 v2 H1 H2 H3 H4 H5 H6 H7 H8 H9 H10) as (out & O1 & O2). exists out. split; [|exact O2].
  unfold core_inner. rewrite (vec_to_cpp N s (length d1) degree), (vec_to_cpp N s (length d2) degree) by assumption. cbn [bind]. rewrite named_name. cbn [bind]. rewrite O1. reflexivity.
Qed.

(** A name that is not that of an index set. *)
Lemma named_known : forall name s, named name = Some s -> name = set_name s.
Proof.
  intros name s. unfold named. repeat match goal with |- context [String.eqb name ?k] => destruct (String.eqb_spec name k) as [->|]; [intros H; injection H as <-; reflexivity|] end. discriminate.
Qed.
Lemma unknown_name : forall (N : num) name, (forall s, name <> set_name s) -> forall (v : list N) dims dirs dim direction, v <> [] ->
  tensorize N (IOne (PVec v)) (Some dim) (Some direction) false name = Exit 1 /\ project N (PVec v) dims dirs name = Exit 1 /\ forall degree, iterator_list_indices dims degree name = Throw "ValueError".
Proof.
  intros N name H v dims dirs dim direction Hv. assert (E : named name = None) by (destruct (named name) as [s|] eqn:E; [exfalso; exact (H s (named_known _ _ E))|reflexivity]).
  destruct v as [|x v]; [contradiction|]. repeat split.
  - unfold tensorize, finish. cbn [densify to_cpp_array bind hm_tensorize]. unfold cpp_set. rewrite E. reflexivity.
  - unfold project. cbn [to_cpp to_cpp_array bind hm_project]. unfold cpp_set. rewrite E. reflexivity.
  - intros degree. unfold iterator_list_indices. rewrite E. reflexivity.
Qed.

(** * The order in which a set lists its elements *)
Lemma flat_map_in : forall A B (f g : A -> list B) l, (forall a, In a l -> f a = g a) -> flat_map f l = flat_map g l.
Proof. intros A B f g. induction l as [|a l IH]; intros H; [reflexivity|]. cbn [flat_map]. rewrite H by (left; reflexivity). f_equal. apply IH. intros b Hb. apply H. right. exact Hb. Qed.
Lemma slots_small : forall k n l, increasing l -> Forall (fun x => k <= x < k + n) l -> flat_map (fun slot => filter (fun x => x =? slot) l) (seq k n) = l.
Proof.
  intros k n. revert k. induction n as [|n IH]; intros k l Hi Hl.
  - destruct l as [|x l]; [reflexivity|]. inversion Hl; subst. lia.
  - cbn [seq flat_map]. destruct l as [|x l]; [cbn [filter app]; apply (IH (S k) []); constructor|]. inversion Hi as [|? ? I1 I2]; subst. inversion Hl as [|? ? L1 L2]; subst. rewrite Forall_forall in I2, L2.
    assert (Hz : forall y, In y l -> S k <= y < S k + n) by (intros y Hy; specialize (I2 y Hy); specialize (L2 y Hy); lia).
    assert (F0 : filter (fun y => y =? k) l = []). { clear - Hz. induction l as [|y l IH]; [reflexivity|]. cbn [filter]. destruct (Nat.eqb_spec y k) as [->|]; [specialize (Hz k (or_introl eq_refl)); lia|]. apply IH. intros z Hy. apply Hz. right. exact Hy. }
    cbn [filter]. rewrite F0. destruct (Nat.eqb_spec x k) as [->|Hn].
    + cbn [app]. f_equal. etransitivity; [|apply (IH (S k) l); [exact I1|apply Forall_forall; exact Hz]]. apply flat_map_in. intros a Ha. apply in_seq in Ha. cbn [filter]. destruct (Nat.eqb_spec k a); [lia|reflexivity].
    + cbn [app]. apply (IH (S k) (x :: l)); [exact Hi|]. constructor; [lia|]. apply Forall_forall. exact Hz.
Qed.

Lemma frozenset_small : forall l, increasing l -> Forall (fun x => x < 8) l -> frozenset_list l = l.
Proof.
  intros l Hi Hl. etransitivity; [|apply (slots_small 0 8 l Hi); eapply Forall_impl; [|exact Hl]; cbn; intros; lia]. unfold frozenset_list. apply flat_map_in. intros slot _. rewrite Forall_forall in Hl. apply filter_ext_in. intros x Hx. rewrite Nat.mod_small by (apply Hl; exact Hx). reflexivity.
Qed.
