(** Facts on the table of statistics, and a trail that misleads. *)
From Coq Require Import String Ascii List Bool Arith ZArith Lia.
From Verif Require Import TrailModel TrailSpec TrailFacts.
Import ListNotations.
Local Open Scope list_scope. Local Open Scope nat_scope.

Notation add_key := (fun acc k => if existsb (String.eqb k) acc then acc else acc ++ [k]).
Lemma keys_tick : forall k d stats, map fst (tick k d stats) = add_key (map fst stats) k.
Proof.
  intros k d stats. induction stats as [|[k' [n t]] stats IH]; [reflexivity|]. cbn [tick map fst existsb]. rewrite (String.eqb_sym k k'). destruct (String.eqb k' k); cbn [map fst orb]; [reflexivity|].
  rewrite IH. destruct (existsb _ _); reflexivity.
Qed.

Section Run.
Variables (str_int : nat -> string) (str_time : Z -> string).
Lemma run_keys : forall trails threshold c l ok, ends c l ok -> forall g, map fst (g_stats (fst (run str_int str_time trails threshold c g))) = fold_left add_key (map fst l) (map fst (g_stats g)).
Proof.
  intros trails threshold c l ok H. induction H as [| |key force start stop caught body rest l l' ok H1 IH1 H2 IH2|key force start stop body rest l H IH|key force start stop body rest l l' ok H1 IH1 H2 IH2]; intros g; cbn [run].
  - reflexivity.
  - reflexivity.
  - match goal with |- context [run _ _ _ _ body ?g0] => specialize (IH1 g0); destruct (run_times str_int str_time trails threshold body l true H1 g0) as (g1 & E1 & _) end. rewrite E1 in *. cbn [fst g_stats] in IH1.
    rewrite IH2. cbn [g_stats]. rewrite keys_tick, IH1, map_app, fold_left_app. cbn [map fst fold_left]. reflexivity.
  - match goal with |- context [run _ _ _ _ body ?g0] => specialize (IH g0); destruct (run_times str_int str_time trails threshold body l false H g0) as (g1 & E1 & _) end. rewrite E1 in *. exact IH.
  - match goal with |- context [run _ _ _ _ body ?g0] => specialize (IH1 g0); destruct (run_times str_int str_time trails threshold body l false H1 g0) as (g1 & E1 & _) end. rewrite E1 in *. cbn [fst g_stats] in IH1.
    rewrite IH2, IH1, map_app, fold_left_app. reflexivity.
Qed.

Lemma firsts_spec : forall l acc, NoDup acc -> NoDup (fold_left add_key l acc) /\ forall k, In k (fold_left add_key l acc) <-> In k acc \/ In k l.
Proof.
  induction l as [|x l IH]; intros acc H; cbn [fold_left]; [split; [exact H|intros k; cbn; tauto]|].
  destruct (existsb (String.eqb x) acc) eqn:E.
  - destruct (IH acc H) as [I1 I2]. split; [exact I1|]. intros k. rewrite I2. apply existsb_exists in E. destruct E as (y & Hy & E). apply String.eqb_eq in E. subst y. cbn. intuition congruence.
  - assert (Hx : ~ In x acc) by (intros Hx; apply not_true_iff_false in E; apply E, existsb_exists; exists x; split; [exact Hx|apply String.eqb_refl]).
    destruct (IH (acc ++ [x])) as [I1 I2].
    + clear - H Hx. induction acc as [|a acc IHa]; cbn; [repeat constructor; intros []|]. apply NoDup_cons_iff in H. destruct H as [Ha H]. apply NoDup_cons; [|apply IHa; [exact H|intros Hx'; apply Hx; now right]].
      intros Hi. apply in_app_or in Hi. destruct Hi as [Hi|[Hi|[]]]; [exact (Ha Hi)|]. apply Hx. left. congruence.
    + split; [exact I1|]. intros k. rewrite I2. rewrite in_app_iff. cbn. tauto.
Qed.

Lemma recorded_in : forall stats, NoDup (map fst stats) -> forall k x, In (k, x) stats -> recorded k stats = x.
Proof.
  induction stats as [|[k' x'] stats IH]; intros H k x Hi; [destruct Hi|]. cbn [map fst] in H. apply NoDup_cons_iff in H. destruct H as [H1 H2]. cbn [recorded]. destruct (String.eqb_spec k' k) as [->|D].
  - destruct Hi as [Hi|Hi]; [congruence|]. exfalso. apply H1. apply in_map_iff. exists (k, x). split; [reflexivity|exact Hi].
  - destruct Hi as [Hi|Hi]; [congruence|]. apply IH; assumption.
Qed.

Lemma run_print : forall trails threshold c l ok indent out, ends c l ok ->
  print_stats str_int str_time (g_stats (fst (run str_int str_time trails threshold c (Glob [] indent out)))) =
  [""; "-- [statistics] --"]%string ++ map (fun key => String.concat "" ["| '"; key; "': Calls: "; str_int (length (times key l)); ", Time: "; str_time (zsum (times key l))]%string) (firsts (map fst l)) ++ ["--"%string].
Proof.
  intros trails threshold c l ok indent out H. unfold print_stats. f_equal. f_equal.
  pose proof (run_keys trails threshold c l ok H (Glob [] indent out)) as K. destruct (run_times str_int str_time trails threshold c l ok H (Glob [] indent out)) as (g' & E & R). rewrite E in *. cbn [fst g_stats map] in *.
  unfold firsts. rewrite <- K. destruct (firsts_spec (map fst l) [] (NoDup_nil _)) as [ND _]. rewrite <- K in ND.
  rewrite map_map. apply map_ext_in. intros [k [n t]] Hi. pose proof (recorded_in _ ND k (n, t) Hi) as Hr. rewrite R in Hr. cbn [recorded fst snd] in Hr. rewrite Nat.add_0_l, Z.add_0_l in Hr. injection Hr as <- <-. reflexivity.
Qed.
End Run.

(** A caught exception in a, then b: the trail shows b inside a. *)
Definition misleading : code := Call "a" false 0 1 true Raise (Call "b" false 1 2 false Return Return).
Lemma misled : forall str_int str_time ch rest, str_int 0 = String ch rest -> ch <> " "%char ->
  ~ exists lines, g_out (fst (run str_int str_time true 0 misleading (Glob [] 0 []))) = map (shown str_int str_time) lines /\ entered lines = begins 0 misleading.
Proof.
  intros str_int str_time ch rest H0 Hc (lines & E & B). cbn in E. destruct lines as [|x [|y [|z [|w lines]]]]; try discriminate E. cbn [map] in E. injection E as E1 E2 E3.
  assert (Hd : forall w k s, String " " s = shown str_int str_time w -> w <> Entering 0 k).
  { intros w k s Ew ->. unfold shown in Ew. cbn [repeat app] in Ew. rewrite concat_cons, H0 in Ew. cbn in Ew. injection Ew as Ew _. congruence. }
  destruct x as [dx kx|dx kx tx]; destruct y as [dy ky|dy ky ty]; destruct z as [dz kz|dz kz tz]; cbn in B; try discriminate B; injection B; intros; subst; (eapply Hd; [exact E2|reflexivity]) || (eapply Hd; [exact E3|reflexivity]).
Qed.
