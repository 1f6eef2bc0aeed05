(** Property C121: subscripts of series and variational forms.  Model: GetModel.  Specification: GetSpec ([named L i m]: the subscript i names the element m of L, from the start or from the end), SeriesSpec. *)
From Coq Require Import String List Bool Arith ZArith Lia.
From Verif Require Import Base IndexModel Spec Num LinModel LinSpec LinBase PyBase PosModel PosSpec SeriesModel SeriesSpec GetModel GetSpec GetFacts.
Import ListNotations.

(** C121: series[i] is the coefficient of the multi-index that i names in the list of the multi-indices, and every other int raises IndexError. *)
Theorem C121_series : forall (N : num) E (f : series N E) dim i, series_ok f dim -> let L := points (s_set f) dim (s_degree f) in
  (forall m, named L i m -> series_get N E f i = Ok (series_at f m)) /\ ((forall m, ~ named L i m) -> series_get N E f i = Throw "IndexError"%string).
Proof. exact series_subscript. Qed.
Print Assumptions C121_series.
Notation ser_sample := (@Ser num_Z nat [4; 5; 6]%Z (Pos (N := num_Z) [0; 1] [0; 0]%Z [[1; 0]; [0; 1]]%Z ["hermite"; "hermite"]%string true) Triangle 1 (Fn 7 [0; 1])).
Example C121_series_example : series_ok ser_sample 2 /\ named (points Triangle 2 1) (-1) [1; 0] /\ series_get num_Z nat ser_sample (-1) = Ok 6%Z /\ series_get num_Z nat ser_sample 3 = Throw "IndexError"%string /\ series_get num_Z nat ser_sample (-4) = Throw "IndexError"%string.
Proof.
  split; [split; [split; [reflexivity|split; [reflexivity|apply usable_dim4; cbn; lia]]|vm_compute; reflexivity]|]. split; [exists 2; split; [vm_compute; reflexivity|right; reflexivity]|]. repeat split; vm_compute; reflexivity.
Qed.

(** C121: varf[i] is the row of the multi-index that i names, varf[i, j] its entry in the column that j names, and every other int raises IndexError. *)
Theorem C121_varf : forall (N : num) E (v : varf N E) dim i, varf_ok v dim -> let L := points (v_set v) dim (v_degree v) in
  (forall r, named L i r -> exists row, varf_get_row N E v i = Ok row /\ length row = length L /\ (forall k c, nth_error L k = Some c -> nth_error row k = Some (varf_at v r c)) /\
    forall j, (forall c, named L j c -> varf_get N E v i j = Ok (varf_at v r c)) /\ ((forall c, ~ named L j c) -> varf_get N E v i j = Throw "IndexError"%string)) /\
  ((forall r, ~ named L i r) -> varf_get_row N E v i = Throw "IndexError"%string /\ forall j, varf_get N E v i j = Throw "IndexError"%string).
Proof. exact varf_subscript. Qed.
Print Assumptions C121_varf.
Notation varf_sample := (@Vf num_Z nat [[1; 2; 3]; [4; 5; 6]; [7; 8; 9]]%Z (Pos (N := num_Z) [0; 1] [0; 0]%Z [[1; 0]; [0; 1]]%Z ["hermite"; "hermite"]%string true) Triangle 1 (Fn 7 [0; 1])).
Example C121_varf_example : varf_ok varf_sample 2 /\ named (points Triangle 2 1) (-2) [0; 1] /\ varf_get_row num_Z nat varf_sample (-2) = Ok [4; 5; 6]%Z /\ varf_get num_Z nat varf_sample (-2) 2 = Ok 6%Z /\ varf_get num_Z nat varf_sample 0 3 = Throw "IndexError"%string.
Proof.
  split; [split; [split; [reflexivity|split; [reflexivity|apply usable_dim4; cbn; lia]]|split; [vm_compute; reflexivity|repeat constructor]]|]. split; [exists 1; split; [vm_compute; reflexivity|right; reflexivity]|]. repeat split; vm_compute; reflexivity.
Qed.
