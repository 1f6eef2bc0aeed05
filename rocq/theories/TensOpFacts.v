(** Derivatives of basis functions, group of directions by group of directions. *)
From Coq Require Import List Bool Arith ZArith Lia Sorted Permutation Reals Lra.
From Verif Require Import Base Lists IndexModel Spec Grid Num LinSpec LinBase MatBase Facts2 Fnum CalcModel CalcSpec CalcReal CalcTensor PosModel PyQuadModel PyQuadSpec OpQuadSpec OpQuadFacts PartModel PyQuadFacts2 TensQuadFacts3.
Import ListNotations.
Local Open Scope nat_scope.

(** The positions in [dirs] of those of [directions] that are in it. *)
Definition ks_of (dirs directions : list nat) : list nat := map (fun d => place d dirs) (filter (fun d => existsb (Nat.eqb d) dirs) directions).

Lemma existsb_in : forall d l, existsb (Nat.eqb d) l = true <-> In d l.
Proof. intros d l. rewrite existsb_exists. split; [intros (x & Hx & E); apply Nat.eqb_eq in E; subst; exact Hx|intros H; exists d; split; [exact H|apply Nat.eqb_refl]]. Qed.
Lemma ks_of_coordinates : forall dirs directions, coordinates_of dirs directions (ks_of dirs directions).
Proof.
  intros dirs directions. unfold coordinates_of, ks_of. rewrite map_map. apply map_ext_in. intros d Hd. apply filter_In in Hd as [_ Hd]. apply place_nth. apply existsb_in. exact Hd.
Qed.
Lemma with_entry_nth : forall A (z : A) l k x i, k < length l -> nth i (with_entry l k x) z = if i =? k then x else nth i l z.
Proof.
  intros A z l. induction l as [|a l IH]; intros k x i Hk; [cbn in Hk; lia|]. destruct k as [|k]; [destruct i; reflexivity|]. change (with_entry (a :: l) (S k) x) with (a :: with_entry l k x).
  destruct i as [|i]; [reflexivity|]. cbn [nth Nat.eqb]. apply IH. cbn in Hk. lia.
Qed.
Lemma pick_with_out : forall A (z : A) l k x ix, k < length l -> ~ In k ix -> pick z (with_entry l k x) ix = pick z l ix.
Proof.
  intros A z l k x ix Hk Hn. unfold pick. apply map_ext_in. intros i Hi. rewrite with_entry_nth by exact Hk. destruct (i =? k) eqn:E; [|reflexivity]. apply Nat.eqb_eq in E. subst. contradiction.
Qed.
Lemma pick_with_in : forall A (z : A) l k x ix k', k < length l -> NoDup ix -> nth_error ix k' = Some k -> pick z (with_entry l k x) ix = with_entry (pick z l ix) k' x.
Proof.
  intros A z l k x ix k' Hk. revert k'. induction ix as [|i ix IH]; intros k' HN Hi; [destruct k'; discriminate Hi|]. inversion HN as [|? ? H1 H2]; subst. destruct k' as [|k'].
  - injection Hi as ->. cbn [pick map]. rewrite with_entry_nth, Nat.eqb_refl by exact Hk. change (x :: pick z (with_entry l k x) ix = x :: pick z l ix). f_equal. apply pick_with_out; assumption.
  - cbn [nth_error] in Hi. change (nth i (with_entry l k x) z :: pick z (with_entry l k x) ix = nth i l z :: with_entry (pick z l ix) k' x). f_equal; [|apply IH; assumption]. rewrite with_entry_nth by exact Hk.
    destruct (i =? k) eqn:E; [|reflexivity]. apply Nat.eqb_eq in E. subst. exfalso. apply H1. eapply nth_error_In. exact Hi.
Qed.
Lemma idx_NoDup : forall D g, NoDup g -> incl g D -> NoDup (idx D g).
Proof.
  intros D g HN Hi. unfold idx. induction HN as [|x g Hx HN IH]; cbn [map]; constructor; [|apply IH; intros y Hy; apply Hi; right; exact Hy].
  intros H. apply in_map_iff in H as (y & E & Hy). assert (Ey : nth_error D (place y D) = Some y) by (apply place_nth, Hi; right; exact Hy). assert (Ex : nth_error D (place x D) = Some x) by (apply place_nth, Hi; left; reflexivity).
  rewrite E in Ey. rewrite Ex in Ey. injection Ey as ->. contradiction.
Qed.
Lemma nth_error_pick : forall A (z : A) l ix k' k, nth_error ix k' = Some k -> nth k' (pick z l ix) z = nth k l z.
Proof. intros A z l ix k' k H. unfold pick. apply (nth_error_nth (map (fun i => nth i l z) ix)). rewrite nth_error_map, H. reflexivity. Qed.

Lemma NoDup_split : forall A (l l' : list A), NoDup (l ++ l') -> NoDup l /\ NoDup l' /\ forall x, In x l -> ~ In x l'.
Proof.
  intros A l l'. induction l as [|x l IH]; cbn [app]; intros H; [split; [constructor|split; [exact H|intros x []]]|]. inversion H as [|? ? H1 H2]; subst. destruct (IH H2) as (I1 & I2 & I3).
  split; [constructor; [intros G; apply H1, in_or_app; left; exact G|exact I1]|]. split; [exact I2|]. intros y [<-|Hy]; [intros G; apply H1, in_or_app; right; exact G|exact (I3 y Hy)].
Qed.
Section Groups.
Variables (vars : list R) (flags D : list nat).
Hypothesis HD : NoDup D.
Hypothesis HV : length vars = length D.
Hypothesis HF : length flags = length D.
Notation part g ds c := (dpsi (pick 0%R vars (idx D g)) (pick 0 flags (idx D g)) (ks_of g ds) (pick 0 c (idx D g))).
Notation full ds c := (dpsi vars flags (ks_of D ds) c).

Lemma full_length : forall ds c, length c = length D -> length (snd (full ds c)) = length D.
Proof using HV.
  intros ds c Hc. rewrite <- HV. apply dpsi_length; [|rewrite HV; exact Hc]. rewrite HV. apply (coordinates_bound D ds). apply ks_of_coordinates.
Qed.
(** One more direction in front. *)
Lemma part_in : forall g d ds c, NoDup g -> incl g D -> length c = length D -> snd (part g ds c) = pick 0 (snd (full ds c)) (idx D g) -> In d g ->
  snd (part g (d :: ds) c) = pick 0 (snd (full (d :: ds) c)) (idx D g) /\ fst (part g (d :: ds) c) = (fst (part g ds c) * fst (pterm vars flags (place d D) (snd (full ds c))))%R.
Proof using HD HV.
  intros g d ds c Hg Hi Hc IH Hd. assert (Hd' : In d D) by (apply Hi; exact Hd). unfold ks_of. cbn [filter]. rewrite (proj2 (existsb_in d g) Hd), (proj2 (existsb_in d D) Hd'). cbn [map dpsi fst snd].
  fold (ks_of g ds). fold (ks_of D ds). rewrite IH. set (e := snd (full ds c)).
  assert (Le : length e = length D) by (apply full_length; exact Hc).
  assert (Hk : nth_error (idx D g) (place d g) = Some (place d D)) by (unfold idx; rewrite nth_error_map, (place_nth g d Hd); reflexivity).
  assert (Hlt : place d D < length e) by (rewrite Le; apply place_lt; exact Hd').
  unfold pterm. cbn [fst snd]. rewrite !(nth_error_pick _ _ _ _ _ _ Hk). split; [|reflexivity]. symmetry. apply pick_with_in; [exact Hlt|apply idx_NoDup; assumption|exact Hk].
Qed.
Lemma part_out : forall g d ds c, NoDup g -> incl g D -> length c = length D -> snd (part g ds c) = pick 0 (snd (full ds c)) (idx D g) -> ~ In d g ->
  snd (part g (d :: ds) c) = pick 0 (snd (full (d :: ds) c)) (idx D g) /\ fst (part g (d :: ds) c) = fst (part g ds c).
Proof using HD HV.
  intros g d ds c Hg Hi Hc IH Hd. unfold ks_of. cbn [filter]. destruct (existsb (Nat.eqb d) g) eqn:E; [apply existsb_in in E; contradiction|]. fold (ks_of g ds).
  destruct (existsb (Nat.eqb d) D) eqn:E'; fold (ks_of D ds); [|split; [exact IH|reflexivity]]. cbn [map dpsi fst snd]. fold (ks_of D ds). split; [|reflexivity]. rewrite IH. unfold pterm. cbn [snd]. symmetry.
  apply existsb_in in E'. apply pick_with_out; [rewrite full_length by exact Hc; apply place_lt; exact E'|].
  intros H. apply in_map_iff in H as (x & Ex & Hx). assert (G1 : nth_error D (place x D) = Some x) by (apply place_nth, Hi; exact Hx). rewrite Ex, place_nth in G1 by exact E'. injection G1 as ->. contradiction.
Qed.
Lemma part_snd : forall g ds c, NoDup g -> incl g D -> length c = length D -> snd (part g ds c) = pick 0 (snd (full ds c)) (idx D g).
Proof using HD HV.
  intros g ds c Hg Hi Hc. induction ds as [|d ds IH]; [reflexivity|]. destruct (in_dec Nat.eq_dec d g) as [Hd|Hd]; [apply part_in; assumption|apply part_out; assumption].
Qed.
Lemma parts_fst : forall gs ds c, Permutation D (concat gs) -> length c = length D -> fst (full ds c) = rprod (map (fun g => fst (part g ds c)) gs).
Proof using HD HV.
  intros gs ds c HP Hc. assert (HN : NoDup (concat gs)) by (eapply Permutation_NoDup; [exact HP|exact HD]).
  assert (Hin : incl (concat gs) D) by (intros x Hx; eapply Permutation_in; [symmetry; exact HP|exact Hx]).
  induction ds as [|d ds IH].
  - cbn. clear. induction gs as [|g gs IH]; cbn [map rprod fold_right]; [reflexivity|]. cbn in IH. unfold rprod in IH. rewrite <- IH. cbn. lra.
  - assert (One : forall l, NoDup (concat l) -> incl (concat l) D ->
        rprod (map (fun g => fst (part g (d :: ds) c)) l) = (rprod (map (fun g => fst (part g ds c)) l) * (if existsb (Nat.eqb d) (concat l) then fst (pterm vars flags (place d D) (snd (full ds c))) else 1))%R).
    { induction l as [|g l IHl]; intros Hn Hi; cbn [concat map rprod fold_right].
      - cbn. lra.
      - cbn [concat] in Hn, Hi. destruct (NoDup_split _ _ _ Hn) as (Hg & Hl & Hgl).
        assert (Hgi : incl g D) by (intros x Hx; apply Hi, in_or_app; left; exact Hx).
        pose proof (IHl Hl (fun x Hx => Hi x (in_or_app _ _ _ (or_intror Hx)))) as E0. unfold rprod in E0 |- *. rewrite E0. rewrite existsb_app.
        destruct (in_dec Nat.eq_dec d g) as [Hd|Hd].
        + rewrite (proj2 (existsb_in d g) Hd). cbn [orb]. assert (Ho : existsb (Nat.eqb d) (concat l) = false).
          { destruct (existsb (Nat.eqb d) (concat l)) eqn:E; [|reflexivity]. apply existsb_in in E. contradiction (Hgl d Hd E). }
          rewrite Ho. destruct (part_in g d ds c Hg Hgi Hc (part_snd g ds c Hg Hgi Hc) Hd) as [_ ->]. lra.
        + assert (Ho : existsb (Nat.eqb d) g = false) by (destruct (existsb (Nat.eqb d) g) eqn:E; [apply existsb_in in E; contradiction|reflexivity]). rewrite Ho. cbn [orb].
          destruct (part_out g d ds c Hg Hgi Hc (part_snd g ds c Hg Hgi Hc) Hd) as [_ ->]. lra. }
    rewrite (One gs HN Hin), <- IH. unfold ks_of. cbn [filter].
    assert (Eq : existsb (Nat.eqb d) (concat gs) = existsb (Nat.eqb d) D). { apply eq_true_iff_eq. rewrite !existsb_in. split; [apply Hin|intros H; eapply Permutation_in; [exact HP|exact H]]. }
    rewrite Eq. destruct (existsb (Nat.eqb d) D); fold (ks_of D ds); [|lra]. cbn [map dpsi fst]. fold (ks_of D ds). reflexivity.
Qed.
End Groups.
