(** Property C74: the C++ code of a function reads the right coordinates. *)
From Coq Require Import String Ascii List Arith Lia.
From Verif Require Import IndexModel CcodeModel CcodeSpec CcodeFacts.
Import ListNotations.
Local Open Scope string_scope. Local Open Scope list_scope. Local Open Scope nat_scope.

(** C74: Function.ccode replaces, in the text printed by sympy, each name that is the variable x_d of a direction d of the function by the coordinate
    v[i], where i is the place of d in the list of directions, and changes nothing else, provided that no other name begins with such a variable. *)
Theorem C74_ccode : forall dirs s ts, parts_of s ts -> (forall t d, In t ts -> In d dirs -> String.prefix (variable d) t = true -> t = variable d) ->
  exists us, Forall2 (rewritten dirs) ts us /\ ccode dirs s = joined us.
Proof. exact ccode_ok. Qed.
Print Assumptions C74_ccode.
Example C74_ccode_example : let ts := ["exp"; "("; "-"; "x2"; ")"; "*"; "x0"; "+"; "max"; "("; "x1"; ","; "x2"; ")"] in
  parts_of "exp(-x2)*x0+max(x1,x2)" ts /\ (forall t d, In t ts -> In d [0; 2] -> String.prefix (variable d) t = true -> t = variable d) /\
  ccode [0; 2] "exp(-x2)*x0+max(x1,x2)" = "exp(-v[1])*v[0]+max(x1,v[1])".
Proof.
  split; [split; [reflexivity|]; split|split; [|vm_compute; reflexivity]].
  - repeat apply Forall_cons; try apply Forall_nil;
      match goal with |- name ?t \/ sign ?t => first [right; eexists; split; [reflexivity|vm_compute; reflexivity]|left; split; [discriminate|repeat constructor]] end.
  - intros a t u b H [Ht Hu].
    do 15 (destruct a as [|? a]; cbn [app] in H; [try discriminate H; injection H as <- <- _;
      first [(eapply sign_not_name; [|exact Ht]; eexists; split; [reflexivity|vm_compute; reflexivity])|(eapply sign_not_name; [|exact Hu]; eexists; split; [reflexivity|vm_compute; reflexivity])]|try discriminate H; injection H as _ H]).
    all: try (destruct a; discriminate H).
  - intros t d Ht Hd Hp. repeat (destruct Ht as [<-|Ht]; [destruct Hd as [<-|[<-|[]]]; first [reflexivity|vm_compute in Hp; discriminate Hp]|]). destruct Ht.
Qed.

(** Every text has such parts. *)
Theorem C74_parts : forall s, exists ts, parts_of s ts.
Proof. exact parts_exist. Qed.
Print Assumptions C74_parts.
Example C74_parts_example : exists ts, parts_of "2*x1" ts.
Proof. exact (C74_parts "2*x1"). Qed.

(** Without the condition this is false: in a function with a parameter x10, this name is changed too, to text that is not C++. *)
Theorem C74_prefix_refuted : ~ forall dirs s ts, parts_of s ts -> exists us, Forall2 (rewritten dirs) ts us /\ ccode dirs s = joined us.
Proof. exact ccode_prefix_refuted. Qed.
Print Assumptions C74_prefix_refuted.
Example C74_prefix_example : ccode [1] "x1*x10" = "v[0]*v[0]0".
Proof. vm_compute. reflexivity. Qed.
