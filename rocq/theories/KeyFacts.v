(** Cache keys *)
From Coq Require Import String List Bool Arith ZArith DecimalString DecimalZ Lia.
From Verif Require Import CacheFacts KeyModel KeySpec.
Import ListNotations.
Local Open Scope string_scope. Local Open Scope list_scope. Local Open Scope nat_scope.

Lemma str_int_inj : forall a b, str_int a = str_int b -> a = b.
Proof.
  intros a b H. unfold str_int in H. assert (G : NilEmpty.int_of_string (NilEmpty.string_of_int (Z.to_int a)) = NilEmpty.int_of_string (NilEmpty.string_of_int (Z.to_int b))) by (rewrite H; reflexivity).
  rewrite !NilEmpty.isi in G. injection G as G. rewrite <- (DecimalZ.of_to a), <- (DecimalZ.of_to b), G. reflexivity.
Qed.
Lemma int_hash_inj : forall a b, (- modulus < a < modulus)%Z -> (- modulus < b < modulus)%Z -> a <> (-1)%Z -> b <> (-1)%Z -> int_hash a = int_hash b -> a = b.
Proof.
  assert (R : forall a, (- modulus < a < modulus)%Z -> Z.rem a modulus = a). { intros a H. unfold modulus in *. pose proof (Z.rem_small (Z.abs a) (2 ^ 61 - 1)) as G. destruct (Z_lt_le_dec a 0) as [Ha|Ha].
    - rewrite <- (Z.opp_involutive a) at 1. rewrite Z.rem_opp_l by lia. rewrite Z.rem_small by lia. lia.
    - apply Z.rem_small. lia. }
  intros a b Ha Hb Na Nb. unfold int_hash. rewrite !R by assumption. rewrite (proj2 (Z.eqb_neq a (-1)) Na), (proj2 (Z.eqb_neq b (-1)) Nb). auto.
Qed.

Lemma pyval_rect' : forall P : pyval -> Prop, (forall s, P (VStr s)) -> (forall z, P (VInt z)) -> P VNone -> (forall b s, P (VArr b s)) -> (forall l, Forall P l -> P (VList l)) -> forall x, P x.
Proof.
  intros P H1 H2 H3 H4 H5. fix IH 1. intros [s|z| |b s|l]; [apply H1|apply H2|exact H3|apply H4|]. apply H5. induction l as [|x l IHl]; constructor; [apply IH|exact IHl].
Qed.

Section Key.
Variable md5 : string -> string.
Hypothesis md5_len : forall s, String.length (md5 s) = 32.
Notation the_hash := (the_hash md5).

Lemma hash_len : forall x, String.length (the_hash x) = 32. Proof. intros [s|z| |b s|l]; apply md5_len. Qed.
Lemma join_cons : forall x y l, join (x :: y :: l) = (x ++ "-" ++ join (y :: l))%string. Proof. reflexivity. Qed.
Lemma append_inj_l : forall x y s t : string, String.length x = String.length y -> (x ++ s = y ++ t)%string -> x = y /\ s = t.
Proof.
  induction x as [|c x IH]; intros [|c' y] s t H E; try discriminate; [auto|]. cbn in E, H. injection E as -> E. injection H as H. destruct (IH y s t H E) as [-> ->]. auto.
Qed.
Lemma join_inj : forall l m, Forall (fun s => String.length s = 32) l -> Forall (fun s => String.length s = 32) m -> join l = join m -> l = m.
Proof.
  induction l as [|x l IH]; intros [|y m] Hl Hm E.
  - reflexivity.
  - exfalso. inversion Hm as [|? ? M1 M2]; subst. assert (G : String.length (join []) = String.length (join (y :: m))) by (rewrite E; reflexivity). destruct m as [|z m]; [cbn in G; lia|]. rewrite join_cons, length_append in G. cbn [join String.concat String.length] in G. lia.
  - exfalso. inversion Hl as [|? ? M1 M2]; subst. assert (G : String.length (join (x :: l)) = String.length (join [])) by (rewrite E; reflexivity). destruct l as [|z l]; [cbn in G; lia|]. rewrite join_cons, length_append in G. cbn [join String.concat String.length] in G. lia.
  - inversion Hl as [|? ? L1 L2]; inversion Hm as [|? ? M1 M2]; subst. destruct l as [|x' l]; destruct m as [|y' m].
    + cbn in E. subst. reflexivity.
    + exfalso. assert (G : String.length (join [x]) = String.length (join (y :: y' :: m))) by (rewrite E; reflexivity). rewrite join_cons, !length_append in G. cbn [join String.concat] in G. cbn [String.length] in G. lia.
    + exfalso. assert (G : String.length (join (x :: x' :: l)) = String.length (join [y])) by (rewrite E; reflexivity). rewrite join_cons, !length_append in G. cbn [join String.concat] in G. cbn [String.length] in G. lia.
    + rewrite !join_cons in E. apply append_inj_l in E as [-> E]; [|congruence]. apply append_inj_l in E as [_ E]; [|reflexivity]. f_equal. apply IH; assumption.
Qed.
Lemma hashes_len : forall l, Forall (fun s => String.length s = 32) (map the_hash l). Proof. intros l. apply Forall_forall. intros s Hs. apply in_map_iff in Hs as (x & <- & _). apply hash_len. Qed.

Lemma alike_list : forall l m, alike (VList l) (VList m) <-> all_alike l m. Proof. induction l as [|x l IH]; intros [|y m]; cbn; tauto. Qed.
Notation hashed := (hashed md5). Notation collision_free := (collision_free md5).
Lemma free_incl : forall l m, collision_free m -> incl l m -> collision_free l. Proof. intros l m H Hi s t Hs Ht. apply H; apply Hi; assumption. Qed.
Lemma hashes_inj : forall l m, Forall (fun x => forall y, collision_free (hashed x ++ hashed y) -> alike x y -> the_hash x = the_hash y -> x = y) l ->
  collision_free (flat_map hashed l ++ flat_map hashed m) -> all_alike l m -> map the_hash l = map the_hash m -> l = m.
Proof.
  induction l as [|x l IH]; intros [|y m] Hl Hf Ha E; try discriminate; [reflexivity|]. inversion Hl; subst. cbn in Ha. cbn [map] in E. injection E as E1 E2. cbn [flat_map] in Hf. f_equal.
  - apply H1; try tauto. apply (free_incl _ _ Hf). intros s Hs. apply in_app_or in Hs as [Hs|Hs]; apply in_or_app; [left|right]; apply in_or_app; left; exact Hs.
  - apply IH; try tauto. apply (free_incl _ _ Hf). intros s Hs. apply in_app_or in Hs as [Hs|Hs]; apply in_or_app; [left|right]; apply in_or_app; right; exact Hs.
Qed.
Theorem hash_inj : forall x y, collision_free (hashed x ++ hashed y) -> alike x y -> the_hash x = the_hash y -> x = y.
Proof.
  induction x as [s|z| |b s|l IH] using pyval_rect'; intros [s'|z'| |b' s'|l'] Hf Ha E; try (cbn in Ha; contradiction).
  - f_equal. apply Hf; [left|right; left|exact E]; reflexivity.
  - f_equal. cbn in Ha. apply int_hash_inj; try tauto. apply str_int_inj. apply Hf; [left|right; left|exact E]; reflexivity.
  - reflexivity.
  - cbn in Ha. subst s'. f_equal. apply Hf; [left|right; left|exact E]; reflexivity.
  - f_equal. cbn [KeyModel.the_hash] in E. apply Hf in E; [|left; reflexivity|apply in_or_app; right; left; reflexivity]. apply append_inj_l in E as [_ E]; [|reflexivity]. apply join_inj in E; [|apply hashes_len|apply hashes_len].
    apply hashes_inj; [exact IH| |apply alike_list; exact Ha|exact E]. apply (free_incl _ _ Hf). intros s Hs. cbn [KeySpec.hashed]. apply in_app_or in Hs as [Hs|Hs]; apply in_or_app; [left|right]; right; exact Hs.
Qed.

Theorem key_inj : forall prefix args kwargs args' kwargs', collision_free (key_hashed md5 args kwargs ++ key_hashed md5 args' kwargs') -> length kwargs = length kwargs' -> all_alike args args' -> all_alike (map snd kwargs) (map snd kwargs') ->
  key md5 prefix args kwargs = key md5 prefix args' kwargs' -> args = args' /\ kwargs = kwargs'.
Proof.
  intros prefix args kwargs args' kwargs' Hf Hk Ha Hka E. unfold key in E. apply append_inj_l in E as [_ E]; [|reflexivity]. apply append_inj_l in E as [_ E]; [|reflexivity]. apply Hf in E; [|left; reflexivity|apply in_or_app; right; left; reflexivity].
  assert (Hlen : forall a k, Forall (fun s => String.length s = 32) (key_hashes md5 a k)). { intros a k. apply Forall_app. split; [apply hashes_len|]. apply Forall_forall. intros s Hs. apply in_flat_map in Hs as ([kw x] & _ & [<-|[<-|[]]]); [apply md5_len|apply hash_len]. }
  apply join_inj in E; [|apply Hlen|apply Hlen]. unfold key_hashes in E.
  assert (Hfl : forall k : list (string * pyval), length (flat_map (fun '(kw, x) => [md5 kw; the_hash x]) k) = 2 * length k) by (induction k as [|[kw x] k IHk]; cbn in *; lia).
  assert (Hal : length (map the_hash args) = length (map the_hash args')). { assert (G : length (map the_hash args ++ flat_map (fun '(kw, x) => [md5 kw; the_hash x]) kwargs) = length (map the_hash args' ++ flat_map (fun '(kw, x) => [md5 kw; the_hash x]) kwargs')) by (rewrite E; reflexivity). rewrite !app_length, !Hfl in G. lia. }
  assert (map the_hash args = map the_hash args' /\ flat_map (fun '(kw, x) => [md5 kw; the_hash x]) kwargs = flat_map (fun '(kw, x) => [md5 kw; the_hash x]) kwargs') as [E1 E2].
  { revert E Hal. generalize (map the_hash args'). induction (map the_hash args) as [|h l IH]; intros [|h' l'] E Hal; try discriminate; [split; [reflexivity|exact E]|]. cbn [app] in E. injection E as -> E. cbn in Hal. injection Hal as Hal. destruct (IH l' E Hal) as [-> ->]. auto. }
  split.
  - apply hashes_inj; [apply Forall_forall; intros x _; apply hash_inj| |exact Ha|exact E1]. apply (free_incl _ _ Hf). intros s Hs. unfold key_hashed. apply in_app_or in Hs as [Hs|Hs]; apply in_or_app; [left|right]; right; apply in_or_app; left; exact Hs.
  - assert (Hf2 : collision_free (flat_map (fun '(kw, x) => kw :: hashed x) kwargs ++ flat_map (fun '(kw, x) => kw :: hashed x) kwargs')).
    { apply (free_incl _ _ Hf). intros s Hs. unfold key_hashed. apply in_app_or in Hs as [Hs|Hs]; apply in_or_app; [left|right]; right; apply in_or_app; right; exact Hs. }
    clear - md5_len E2 Hka Hk Hf2. revert kwargs' E2 Hka Hk Hf2. induction kwargs as [|[kw x] k IH]; intros [|[kw' x'] k'] E Ha Hk Hf2; try discriminate; [reflexivity|]. cbn [flat_map app] in E. injection E as E1 E2 E3. cbn [map snd] in Ha. destruct Ha as [Ha1 Ha2]. cbn [flat_map app] in Hf2. f_equal; [f_equal|].
    + apply Hf2; [left; reflexivity|right; apply in_or_app; right; left; reflexivity|exact E1].
    + apply hash_inj; [|exact Ha1|exact E2]. apply (free_incl _ _ Hf2). intros s Hs. apply in_app_or in Hs as [Hs|Hs]; [right; apply in_or_app; left; apply in_or_app; left; exact Hs|]. right. apply in_or_app. right. right. apply in_or_app. left. exact Hs.
    + apply IH; [exact E3|exact Ha2|injection Hk; auto|]. apply (free_incl _ _ Hf2). intros s Hs. apply in_app_or in Hs as [Hs|Hs]; [right; apply in_or_app; left; apply in_or_app; right; exact Hs|]. right. apply in_or_app. right. right. apply in_or_app. right. exact Hs.
Qed.
End Key.

Theorem collisions : forall md5 prefix,
  key md5 prefix [VInt (-1)] [] = key md5 prefix [VInt (-2)] [] /\
  key md5 prefix [VInt 0] [] = key md5 prefix [VInt (2 ^ 61 - 1)] [] /\
  (forall bytes shape shape', key md5 prefix [VArr bytes shape] [] = key md5 prefix [VArr bytes shape'] []) /\
  key md5 prefix [VNone] [] = key md5 prefix [VStr ""] [] /\
  key md5 prefix [VInt 5] [] = key md5 prefix [VStr "5"] [] /\
  (forall kw x, key md5 prefix [VStr kw; x] [] = key md5 prefix [] [(kw, x)]).
Proof. intros md5 prefix. repeat split; intros; reflexivity. Qed.

(** For examples: absence of collisions is decidable; padded strings. *)
Lemma same_hash : forall md5 l, forallb (fun s => forallb (fun t => negb (String.eqb (md5 s) (md5 t)) || String.eqb s t) l) l = true -> forall s t, In s l -> In t l -> md5 s = md5 t -> s = t.
Proof.
  intros md5 l H s t Hs Ht E. rewrite forallb_forall in H. specialize (H s Hs). rewrite forallb_forall in H. specialize (H t Ht). rewrite E, String.eqb_refl in H. apply String.eqb_eq. exact H.
Qed.
Lemma padded_length : forall t, String.length (String.substring 0 32 (t ++ "--------------------------------")) = 32.
Proof.
  assert (H : forall n s, n <= String.length s -> String.length (String.substring 0 n s) = n). { induction n as [|n IH]; intros [|c s] Hs; cbn in *; try lia; reflexivity || (rewrite IH; lia). }
  intros t. apply H. induction t; cbn in *; lia.
Qed.
