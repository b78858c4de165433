(** Properties of separable convolution: C95. *)
From Verif Require Import BaseFacts M_Image S_Image L_Image M_Border S_Border M_Convolve S_Convolve S_Separable L_Separable.
Open Scope Z_scope.

Theorem C95_rows_first : forall t r kh kv b (g tmp out out2 : gray Z) M,
  signed_type t = S32 -> wf g -> wf tmp -> wf out -> wf out2 -> 0 < g_width g <= 1073741824 -> 0 < g_height g <= 1073741824 ->
  g_sub tmp = false \/ (g_width tmp = g_width g /\ g_height tmp = g_height g) ->
  g_sub out = false \/ (g_width out = g_width g /\ g_height out = g_height g) ->
  g_sub out2 = false \/ (g_width out2 = g_width g /\ g_height out2 = g_height g) ->
  kernel1_ok kh -> kernel1_ok kv -> k_width kv = k_width kh -> k_offset kv = k_offset kh -> k_width kh < 65536 ->
  border_by_lines b -> fits b (g_width g) kh -> fits b (g_height g) kv ->
  0 <= M -> (forall x y v, pixel g x y = Some v -> Z.abs v <= M) ->
  zabs_sum (k_data kh) * M <= 2147483647 -> zabs_sum (k_data kv) * (zabs_sum (k_data kh) * M) <= 2147483647 ->
  exists tmp' out' out2', convolve_h (int_arith t S32) 0 kh b g tmp = Ok tmp' /\
    convolve_v (int_arith S32 r) 0 kv b tmp' out = Ok out' /\
    convolve_2 (int_arith t r) 0 (product_kernel kh kv) b g out2 = Ok out2' /\
    g_width out' = g_width g /\ g_height out' = g_height g /\ g_width out2' = g_width g /\ g_height out2' = g_height g /\
    forall x y, inside g x y -> exists v, pixel out' x y = Some v /\ pixel out2' x y = Some v.
Proof. exact separable. Qed.
Print Assumptions C95_rows_first.

Theorem C95_columns_first : forall t r kh kv b (g tmp out out2 : gray Z) M,
  signed_type t = S32 -> wf g -> wf tmp -> wf out -> wf out2 -> 0 < g_width g <= 1073741824 -> 0 < g_height g <= 1073741824 ->
  g_sub tmp = false \/ (g_width tmp = g_width g /\ g_height tmp = g_height g) ->
  g_sub out = false \/ (g_width out = g_width g /\ g_height out = g_height g) ->
  g_sub out2 = false \/ (g_width out2 = g_width g /\ g_height out2 = g_height g) ->
  kernel1_ok kh -> kernel1_ok kv -> k_width kv = k_width kh -> k_offset kv = k_offset kh -> k_width kh < 65536 ->
  border_by_lines b -> fits b (g_width g) kh -> fits b (g_height g) kv ->
  0 <= M -> (forall x y v, pixel g x y = Some v -> Z.abs v <= M) ->
  zabs_sum (k_data kv) * M <= 2147483647 -> zabs_sum (k_data kh) * (zabs_sum (k_data kv) * M) <= 2147483647 ->
  exists tmp' out' out2', convolve_v (int_arith t S32) 0 kv b g tmp = Ok tmp' /\
    convolve_h (int_arith S32 r) 0 kh b tmp' out = Ok out' /\
    convolve_2 (int_arith t r) 0 (product_kernel kh kv) b g out2 = Ok out2' /\
    g_width out' = g_width g /\ g_height out' = g_height g /\ g_width out2' = g_width g /\ g_height out2' = g_height g /\
    forall x y, inside g x y -> exists v, pixel out' x y = Some v /\ pixel out2' x y = Some v.
Proof. exact separable_columns. Qed.
Print Assumptions C95_columns_first.

Definition simg : gray Z := mkGray 4 3 1 5 true [9; 1;2;3;4; 9; 5;200;7;8; 9; 255;10;11;12].
Definition skh : kernel Z := mkKernel 3 0 [1; 10; -3].
Definition skv : kernel Z := mkKernel 3 0 [2; 0; 5].
Definition sout : gray Z := gray_new 0 1 1.
Example C95_ex :
  wf simg /\ wf sout /\ signed_type U8 = S32 /\ kernel1_ok skh /\ kernel1_ok skv /\ fits (@BReflect Z) 4 skh /\ fits (@BReflect Z) 3 skv /\
  border_by_lines BReflect /\ (forall x y v, pixel simg x y = Some v -> Z.abs v <= 255) /\
  zabs_sum (k_data skh) * 255 <= 2147483647 /\ zabs_sum (k_data skv) * (zabs_sum (k_data skh) * 255) <= 2147483647 /\
  zabs_sum (k_data skh) * (zabs_sum (k_data skv) * 255) <= 2147483647 /\
  k_data (product_kernel skh skv) = [2; 20; -6; 0; 0; 0; 5; 50; -15] /\
  exists tmp' out' out2', convolve_h (int_arith U8 S32) 0 skh BReflect simg sout = Ok tmp' /\
    convolve_v (int_arith S32 S32) 0 skv BReflect tmp' sout = Ok out' /\
    convolve_2 (int_arith U8 S32) 0 (product_kernel skh skv) BReflect simg sout = Ok out2' /\
    pixel out' 3 2 = pixel out2' 3 2 /\ pixel out' 1 0 = Some (2 * (2 + 30 - 12) + 5 * (10 + 110 - 36)).
Proof.
  split; [unfold wf; cbn; repeat split; try lia; intros; discriminate|]. split; [apply wf_new; lia|]. split; [reflexivity|].
  split; [unfold kernel1_ok; cbn; unfold zlen; cbn; lia|]. split; [unfold kernel1_ok; cbn; unfold zlen; cbn; lia|].
  split; [cbn; lia|]. split; [cbn; lia|]. split; [exact I|]. split.
  { intros x y v H. unfold pixel in H. destruct (_ && _ && _ && _); [|discriminate]. apply znth_In in H. cbn in H. lia. }
  split; [cbn; lia|]. split; [cbn; lia|]. split; [cbn; lia|]. split; [reflexivity|].
  do 3 eexists. do 3 (split; [vm_compute; reflexivity|]). split; vm_compute; reflexivity.
Qed.

(** A constant border other than 0 is the exception: the second pass pads the sums of the first with the constant itself. *)
Theorem C95_constant_refuted : exists v kh kv (g tmp out : gray Z) tmp' out' out2', v <> 0 /\
  wf g /\ wf tmp /\ wf out /\ kernel1_ok kh /\ kernel1_ok kv /\ k_width kv = k_width kh /\ k_offset kv = k_offset kh /\
  convolve_h (int_arith U8 S32) 0 kh (BValue v) g tmp = Ok tmp' /\
  convolve_v (int_arith S32 S32) 0 kv (BValue v) tmp' out = Ok out' /\
  convolve_2 (int_arith U8 S32) 0 (product_kernel kh kv) (BValue v) g out = Ok out2' /\
  pixel out' 0 2 <> pixel out2' 0 2.
Proof.
  exists 7, skh, skv, simg, sout, sout. do 3 eexists. split; [lia|].
  split; [unfold wf; cbn; repeat split; try lia; intros; discriminate|]. split; [apply wf_new; lia|]. split; [apply wf_new; lia|].
  split; [unfold kernel1_ok; cbn; unfold zlen; cbn; lia|]. split; [unfold kernel1_ok; cbn; unfold zlen; cbn; lia|].
  split; [reflexivity|]. split; [reflexivity|]. do 3 (split; [vm_compute; reflexivity|]). vm_compute. discriminate.
Qed.
Print Assumptions C95_constant_refuted.
