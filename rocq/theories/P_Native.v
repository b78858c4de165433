(** Properties of the calls from Java: C82 to C88. *)
From Coq Require Import QArith Qround Floats.SpecFloat Lia.
From Verif Require Import BaseFacts M_Image S_Image L_Image M_Border M_Convolve S_Convolve M_Normalized M_Blur S_Blur M_Float M_Otsu S_Otsu
  M_Config S_Config M_Block S_Block M_Local S_Local M_Binary M_PackedSet M_Contour S_Contour M_Jni S_Jni M_Native S_Native L_Native
  L_Local L_NativeFilt L_NativeConv L_NativeCon L_NativeLife.
Open Scope Z_scope.

(** ** C82: threshold filters *)

(** Fixed threshold: any double from 0 to below 256, compared exactly. *)
Theorem C82_fixed : forall x q down J inp out after, jargs JByte JByte J inp out ->
  float_value x = Some q -> (0 <= q)%Q -> (q < 256)%Q ->
  exists s J' out', fixed_new double x down = Ok s /\ java_filter fixed_process after s J inp out = Ok (s, J', out') /\
    jeffect JByte J inp out J' out' (fun x y => match jpixel JByte J inp x y with
      | Some v => Some (side down (Qle_bool (inject_Z v) q)) | None => None end).
Proof. exact fixed_exact. Qed.
Print Assumptions C82_fixed.

(** Otsu's threshold with a range that starts at 0 and covers all pixels. *)
Theorem C82_otsu : forall x y a b down J inp out after, jargs JByte JByte J inp out -> float_value x = Some a -> float_value y = Some b ->
  (0 <= a < 1)%Q -> (0 <= b < 256)%Q -> (forall i j v, jpixel JByte J inp i j = Some v -> v <= Qfloor b) ->
  exists s J' out' g th, otsu_new double x y down = Ok s /\ java_filter (otsu_process exact) after s J inp out = Ok (s, J', out') /\
    shows JByte J inp g /\ best_split (value_counts g 0 (Qfloor b)) th /\
    jeffect JByte J inp out J' out' (fun x y => match jpixel JByte J inp x y with
      | Some v => Some (side down (v <=? th)) | None => None end).
Proof. exact otsu_call. Qed.
Print Assumptions C82_otsu.

(** Local mean, in any arithmetic.  The state does not matter. *)
Theorem C82_local : forall D (O : dops D) L width down n s J inp out after, jargs JByte JByte J inp out ->
  clen_computeI O width (d_of O (Z.min (ji_width inp) (ji_height inp))) = Ok n -> 2 <= n <= 8388606 ->
  0 < ji_width inp -> 0 < ji_height inp <= 1073741824 -> ji_width inp * (ji_height inp + 1) <= 2147483647 ->
  ji_width inp < 2 * (n / 2) + 1 \/ 2 * (n / 2) + 1 <= ji_height inp -> storage_ok s ->
  exists s' J' out' g, java_filter (local_process O L width down) after s J inp out = Ok (s', J', out') /\ storage_ok s' /\
    shows JByte J inp g /\
    jeffect JByte J inp out J' out' (fun x y => match jpixel JByte J inp x y with
      | Some v => Some (if (if down then lc_le L v (mean_box g (n / 2) x y) else lc_gt L v (mean_box g (n / 2) x y)) then 1 else 0)
      | None => None end).
Proof. exact @local_call. Qed.
Print Assumptions C82_local.

(** The filters by blocks. *)
Theorem C82_block_mean : forall J inp out, jargs JByte JByte J inp out -> forall c req,
  clen_computeI exact c (inject_Z (Z.min (ji_width inp) (ji_height inp))) = Ok req ->
  1 <= req <= ji_width inp -> 1 <= req <= ji_height inp ->
  forall scale local down st after, (0 <= scale <= 1)%Q -> ji_width inp * ji_height inp * 255 < 4294967296 ->
  ready (block_mean (int_bmean exact U8 scale) 0 local down) st ->
  exists st' J' out' g,
    java_filter (block_process (block_mean (int_bmean exact U8 scale) 0 local down) exact c) after st J inp out = Ok (st', J', out') /\
    ready (block_mean (int_bmean exact U8 scale) 0 local down) st' /\ shows JByte J inp g /\
    jeffect JByte J inp out J' out' (fun x y => match jpixel JByte J inp x y with
      | Some v => Some (side down (v <=? mean_level scale g req local (home g req x y))) | None => None end).
Proof. exact mean_call. Qed.
Print Assumptions C82_block_mean.

Theorem C82_block_minmax : forall J inp out, jargs JByte JByte J inp out -> forall c req,
  clen_computeI exact c (inject_Z (Z.min (ji_width inp) (ji_height inp))) = Ok req ->
  1 <= req <= ji_width inp -> 1 <= req <= ji_height inp ->
  forall spread scale local down st after, (0 <= scale)%Q -> (scale * inject_Z 255 < inject_Z 4294967296)%Q ->
  (0 <= spread)%Q -> (spread < inject_Z 4294967296)%Q ->
  ready (block_minmax (int_bminmax exact U8 spread scale) 0 local down) st ->
  exists st' J' out' g,
    java_filter (block_process (block_minmax (int_bminmax exact U8 spread scale) 0 local down) exact c) after st J inp out
      = Ok (st', J', out') /\
    ready (block_minmax (int_bminmax exact U8 spread scale) 0 local down) st' /\ shows JByte J inp g /\
    jeffect JByte J inp out J' out' (fun x y => match jpixel JByte J inp x y with
      | Some v => Some (range_value spread scale down (near_pixels g req local (home g req x y)) v) | None => None end).
Proof. exact minmax_call. Qed.
Print Assumptions C82_block_minmax.

Theorem C82_block_otsu : forall J inp out, jargs JByte JByte J inp out -> forall c req,
  clen_computeI exact c (inject_Z (Z.min (ji_width inp) (ji_height inp))) = Ok req ->
  1 <= req <= ji_width inp -> 1 <= req <= ji_height inp ->
  forall two local down st after, (ji_width inp / req) * (ji_height inp / req) * 256 < 4294967296 ->
  ready (block_otsu exact int_u8 two 0%Q 1%Q local down) st ->
  exists st' J' out' g (th : Z * Z -> Z),
    java_filter (block_process (block_otsu exact int_u8 two 0%Q 1%Q local down) exact c) after st J inp out = Ok (st', J', out') /\
    ready (block_otsu exact int_u8 two 0%Q 1%Q local down) st' /\ shows JByte J inp g /\
    (forall b, is_block g req b -> let l := byte_counts (near_pixels g req local b) in
       if two then exists s, best_split l s /\ ((0 < separation l s)%Q -> nearest ((low_mean l s + high_mean l s) / 2) (th b)) /\
                     (~ (0 < separation l s)%Q -> th b = 0)
       else best_split l (th b)) /\
    jeffect JByte J inp out J' out' (fun x y => match jpixel JByte J inp x y with
      | Some v => Some (side down (v <=? th (home g req x y))) | None => None end).
Proof. exact otsu_block_call. Qed.
Print Assumptions C82_block_otsu.

(** Any filter that does its work on a sub-image of the right size. *)
Theorem C82_any : forall S (f : S -> gray Z -> gray Z -> outcome (S * gray Z)) (after : S * list Z) (s : S) (Q : S -> Prop) J inp out F,
  jargs JByte JByte J inp out ->
  (forall g o, shows JByte J inp g -> wf o -> g_sub o = true -> g_width o = g_width g -> g_height o = g_height g ->
     exists s' o', f s g o = Ok (s', o') /\ Q s' /\ holds g o o' F) ->
  (forall x y v, jinside inp x y -> F x y = Some v -> 0 <= v <= 255) ->
  exists s' J' out', java_filter f after s J inp out = Ok (s', J', out') /\ Q s' /\ jeffect JByte J inp out J' out' F.
Proof. exact @filter_call. Qed.
Print Assumptions C82_any.

(** A 3 x 3 image with the values 10, 200, 255, ... as Java bytes; the output is a window of a larger image. *)
Definition nj : jvm := mkJvm [[10; -56; -1; 0; 20; 30; 90; 100; 110]; [7;7;7;7;7;7;7;7;7;7;7;7;7]] [].
Definition nin : jimage := mkJimage 3 3 0 3 false 0.
Definition nout : jimage := mkJimage 3 3 1 4 true 1.
Definition nown : jimage := mkJimage 1 1 0 1 false 1.
Ltac jarray := eexists; split; [reflexivity|]; split; [vm_compute; discriminate|];
  split; [repeat apply Forall_cons; try apply Forall_nil; cbn; lia|intros _ _; vm_compute; discriminate].
Ltac jvalid_tac := split; [cbn; lia|cbn; lia|cbn; lia|cbn; try discriminate; auto|jarray].
Ltac jargs_tac := split; [jvalid_tac|jvalid_tac|reflexivity|discriminate|cbn; tauto|cbn; lia].
Lemma nargs : jargs JByte JByte nj nin nout /\ jargs JByte JByte nj nin nown.
Proof. split; jargs_tac. Qed.
Example C82_ex : jargs JByte JByte nj nin nout /\ jargs JByte JByte nj nin nown /\
  (exists q, float_value (d_div double (d_of double 41) (d_of double 2)) = Some q /\ (q == 41 # 2)%Q /\
     fixed_new double (d_div double (d_of double 41) (d_of double 2)) true = Ok (20, true)) /\
  (forall after, exists J', java_filter fixed_process after (20, true) nj nin nout = Ok (20, true, J', nout) /\
     jv_arrays J' = [[10; -56; -1; 0; 20; 30; 90; 100; 110]; [7; 1;0;0; 7; 1;1;0; 7; 0;0;0; 7]]) /\
  (forall after, exists J', java_filter fixed_process after (20, false) nj nin nown = Ok (20, false, J', mkJimage 3 3 0 3 false 1) /\
     jv_arrays J' = [[10; -56; -1; 0; 20; 30; 90; 100; 110]; [0;1;1; 0;0;1; 1;1;1; 7;7;7;7]]).
Proof.
  split; [apply nargs|]. split; [apply nargs|]. split; [eexists; split; [vm_compute; reflexivity|split; reflexivity]|].
  split; intros after; eexists; (split; [vm_compute; reflexivity|reflexivity]).
Qed.
Example C82_local_ex : clen_computeI exact (clen_fixed exact 3%Q) (inject_Z (Z.min (ji_width nin) (ji_height nin))) = Ok 3 /\
  storage_ok (gray_new 0 0 0, gray_new 0 0 0) /\
  forall after, exists s' J', java_filter (local_process exact (int_lcmp exact 1%Q) (clen_fixed exact 3%Q) true) after (gray_new 0 0 0, gray_new 0 0 0)
    nj nin nout = Ok (s', J', nout) /\ znth (jv_arrays J') 1 = Some [7; 1;0;0; 7; 1;1;1; 7; 0;0;0; 7].
Proof.
  split; [reflexivity|]. split; [repeat split; try (apply wf_new; lia)|].
  intros after. do 2 eexists. split; [vm_compute; reflexivity|]. reflexivity.
Qed.
(** The same with values up to 3. *)
Definition nj3 : jvm := mkJvm [[0; 1; 0; 3; 2; 3; 0; 1; 3]; [7;7;7;7;7;7;7;7;7;7;7;7;7]] [].
Example C82_otsu_ex : jargs JByte JByte nj3 nin nout /\ exists b, float_value (d_of double 0) = Some 0%Q /\ float_value (d_of double 3) = Some b /\
  (0 <= b < 256)%Q /\ (forall i j v, jpixel JByte nj3 nin i j = Some v -> v <= Qfloor b) /\
  forall after, exists s J', otsu_new double (d_of double 0) (d_of double 3) false = Ok s /\
    java_filter (otsu_process exact) after s nj3 nin nout = Ok (s, J', nout) /\
    znth (jv_arrays J') 1 = Some [7; 0;0;0; 7; 1;1;1; 7; 0;0;1; 7].
Proof.
  split; [jargs_tac|]. eexists. split; [reflexivity|]. split; [vm_compute; reflexivity|]. split; [split; vm_compute; congruence|]. split.
  - intros i j v E. change (Qfloor _) with 3. unfold jpixel in E. cbn [ji_width ji_height nin ji_array] in E. destruct (_ && _) eqn:I; [|discriminate].
    assert (i = 0 \/ i = 1 \/ i = 2) as X by lia. assert (j = 0 \/ j = 1 \/ j = 2) as Y by lia.
    destruct X as [->|[->| ->]], Y as [->|[->| ->]]; cbn in E; injection E as <-; lia.
  - intros after. do 2 eexists. split; [vm_compute; reflexivity|]. split; [vm_compute; reflexivity|]. reflexivity.
Qed.
Example C82_block_ex : clen_computeI exact (clen_fixed exact 2%Q) (inject_Z (Z.min (ji_width nin) (ji_height nin))) = Ok 2 /\
  (exists st, block_init (block_mean (int_bmean exact U8 1%Q) 0 false true) = Ok st /\
     forall after, exists s J', java_filter (block_process (block_mean (int_bmean exact U8 1%Q) 0 false true) exact (clen_fixed exact 2%Q))
       after st nj nin nout = Ok (s, J', nout) /\ znth (jv_arrays J') 1 = Some [7; 1;0;0; 7; 1;1;1; 7; 1;0;0; 7]) /\
  (exists st, block_init (block_minmax (int_bminmax exact U8 10%Q 1%Q) 0 false true) = Ok st /\
     forall after, exists s J', java_filter (block_process (block_minmax (int_bminmax exact U8 10%Q 1%Q) 0 false true) exact (clen_fixed exact 2%Q))
       after st nj nin nout = Ok (s, J', nout) /\ znth (jv_arrays J') 1 = Some [7; 1;0;0; 7; 1;1;1; 7; 1;1;1; 7]) /\
  exists st, block_init (block_otsu exact int_u8 false 0%Q 1%Q false true) = Ok st /\ ready (block_otsu exact int_u8 false 0%Q 1%Q false true) st.
Proof.
  split; [reflexivity|].
  split; [|split]; [eexists; split; [vm_compute; reflexivity|]; intros after; do 2 eexists; split; [vm_compute; reflexivity|]; reflexivity..|].
  eexists. split; [reflexivity|now constructor].
Qed.

(** ** C83: other thresholds *)

(** Just below 0 no pixel is at most the threshold, but pixels with value 0 are marked.  -1 and 256 are undefined. *)
Theorem C83_refuted : exists x q J inp out, jargs JByte JByte J inp out /\ float_value x = Some q /\
  (exists s, fixed_new double x true = Ok s /\ forall after, exists J' out' i j v, java_filter fixed_process after s J inp out = Ok (s, J', out') /\
     jpixel JByte J inp i j = Some v /\ ~ (inject_Z v <= q)%Q /\ jpixel JByte J' out' i j = Some 1) /\
  fixed_new double (d_of double (-1)) true = Undef /\ fixed_new double (d_of double 256) true = Undef.
Proof.
  exists (d_div double (d_of double (-1)) (d_of double 2)). eexists. exists nj, nin, nout. split; [apply nargs|].
  split; [vm_compute; reflexivity|]. split; [|split; reflexivity].
  eexists. split; [reflexivity|]. intros after. do 2 eexists. exists 0, 1, 0. split; [vm_compute; reflexivity|]. split; [reflexivity|].
  split; [intros H; vm_compute in H; now apply H|reflexivity].
Qed.
Print Assumptions C83_refuted.

(** ** C84: failures *)

(** The filter refuses its arguments; Java is not told.  One array is not given back, and the next call is undefined. *)
Theorem C84_refuted : exists width J inp out s, jargs JByte JByte J inp out /\ storage_ok s /\ clen_checkValidity double width = Ok tt /\
  (forall g o, shows JByte J inp g -> wf o -> local_process double (int_lcmp single (d_of single 1)) width true s g o = Throw) /\
  forall after, exists J', java_filter (local_process double (int_lcmp single (d_of single 1)) width true) after s J inp out = Ok (fst after, J', out) /\
    jv_held J' <> [] /\
    forall after' s', java_filter (local_process double (int_lcmp single (d_of single 1)) width true) after' s' J' inp out = Undef.
Proof.
  exists (clen_fixed double (d_of double 1)), nj, nin, nout, (gray_new 0 0 0, gray_new 0 0 0).
  split; [apply nargs|]. split; [repeat split; try (apply wf_new; lia)|]. split; [reflexivity|]. split.
  - intros g o (Wg & Gw & Gh & _) Wo. unfold local_process. cbn [fst snd].
    assert (E : clen_computeI double (clen_fixed double (d_of double 1)) (d_of double (Z.min (g_width g) (g_height g))) = Ok 1)
      by (rewrite Gw, Gh; reflexivity).
    rewrite (local_mean_small double U8 (int_lcmp single (d_of single 1)) (clen_fixed double (d_of double 1)) true 1 g o (gray_new 0 0 0) (gray_new 0 0 0) E); auto; try (apply wf_new; lia).
    lia.
  - intros after. eexists. split; [vm_compute; reflexivity|]. split; [discriminate|]. intros after' s'. vm_compute. reflexivity.
Qed.
Print Assumptions C84_refuted.

(** ** C85: convolution *)

(** Along the rows, along the columns, and with a square kernel.  The kernel's elements times 255 add up to an int. *)
Theorem C85_horizontal : forall te J k bd inp out, te = JShort \/ te = JInt -> jargs JByte te J inp out -> passed_on bd ->
  0 < ji_width inp <= 1073741824 -> 0 < ji_height inp <= 1073741824 -> zabs_sum (jk_data k) * 255 <= 2147483647 ->
  jkernel1_ok k -> line_fits bd (ji_width inp) k -> exists J' out',
  java_horizontal (out_bits te) J k inp out bd = Ok (J', out') /\
  jeffect te J inp out J' out' (fun x y => Some (cast (out_type te)
    (zdot (jk_data k) (fun i => jsample bd J inp (x - jk_offset k + i) y) 0))).
Proof. exact horizontal_ok. Qed.
Print Assumptions C85_horizontal.

Theorem C85_vertical : forall te J k bd inp out, te = JShort \/ te = JInt -> jargs JByte te J inp out -> passed_on bd ->
  0 < ji_width inp <= 1073741824 -> 0 < ji_height inp <= 1073741824 -> zabs_sum (jk_data k) * 255 <= 2147483647 ->
  jkernel1_ok k -> line_fits bd (ji_height inp) k -> exists J' out',
  java_vertical (out_bits te) J k inp out bd = Ok (J', out') /\
  jeffect te J inp out J' out' (fun x y => Some (cast (out_type te)
    (zdot (jk_data k) (fun i => jsample bd J inp x (y - jk_offset k + i)) 0))).
Proof. exact vertical_ok. Qed.
Print Assumptions C85_vertical.

Theorem C85_square : forall te J k bd inp out, te = JShort \/ te = JInt -> jargs JByte te J inp out -> passed_on bd ->
  0 < ji_width inp <= 1073741824 -> 0 < ji_height inp <= 1073741824 -> zabs_sum (jk_data k) * 255 <= 2147483647 ->
  jkernel2_ok k -> line_fits bd (ji_width inp) k -> line_fits bd (ji_height inp) k -> exists J' out',
  java_convolve2 (out_bits te) J k inp out bd = Ok (J', out') /\
  jeffect te J inp out J' out' (fun x y => Some (cast (out_type te)
    (zdot (jk_data k) (fun i => jsample bd J inp (x - jk_offset k + i mod jk_width k) (y - jk_offset k + i / jk_width k)) 0))).
Proof. exact convolve2_ok. Qed.
Print Assumptions C85_square.

Definition cj : jvm := mkJvm [[10; -56; -1; 0; 20; 30]; [7;7;7;7;7;7;7;7]] [].
Definition cin : jimage := mkJimage 3 2 0 3 false 0.
Definition cout : jimage := mkJimage 3 2 1 4 true 1.
Definition ck : jkernel := mkJkernel 2 0 [2; -1].
Definition ck2 : jkernel := mkJkernel 2 1 [1; 0; 0; -1].
Example C85_ex : jargs JByte JShort cj cin cout /\ jargs JByte JInt cj cin cout /\ passed_on (JLines LReflect LReflect) /\
  zabs_sum (jk_data ck) * 255 <= 2147483647 /\ jkernel1_ok ck /\ jkernel2_ok ck2 /\
  line_fits (JLines LReflect LReflect) (ji_width cin) ck /\ line_fits (JLines LReflect LReflect) (ji_height cin) ck2 /\
  java_horizontal 16 cj ck cin cout (JLines LReflect LReflect)
    = Ok (mkJvm [[10; -56; -1; 0; 20; 30]; [7; -180;145;310; 7; -20;10;40]] [], cout) /\
  java_vertical 32 cj ck cin cout (JLines LReflect LReflect)
    = Ok (mkJvm [[10; -56; -1; 0; 20; 30]; [7; 20;380;480; 7; -10;-160;-195]] [], cout) /\
  java_convolve2 32 cj ck2 cin cout (JValue 0)
    = Ok (mkJvm [[10; -56; -1; 0; 20; 30]; [7; -10;-200;-255; 7; 0;-10;170]] [], cout).
Proof.
  split; [jargs_tac|]. split; [jargs_tac|]. split; [right; exists LReflect; split; [reflexivity|discriminate]|].
  split; [vm_compute; discriminate|]. split; [split; [cbn; lia|split; [cbn; lia|reflexivity]]|]. split; [split; [cbn; lia|split; [cbn; lia|reflexivity]]|].
  split; [cbn; lia|]. split; [cbn; lia|]. split; [vm_compute; reflexivity|]. split; vm_compute; reflexivity.
Qed.

(** Borders that cannot be passed on are refused. *)
Theorem C85_refused : forall extract conv bits J k inp out bd, jargs JByte JShort J inp out ->
  match bd with JValue v => v <> 0 | JLines row _ => row = LOther | JBorder => True end ->
  java_convolve extract conv bits J k inp out bd = Throw.
Proof. exact border_refused. Qed.
Print Assumptions C85_refused.
Example C85_refused_ex : java_horizontal 16 cj ck cin cout (JValue 3) = Throw.
Proof. reflexivity. Qed.

(** The native functions know four border codes; with any other code the exception is not caught. *)
Theorem C85_code : forall extract conv bits J k inp out code, code <> 1 -> code <> 3 -> code <> 4 -> code <> 5 ->
  native_convolve extract conv bits J k inp out code = Undef.
Proof. exact other_code. Qed.
Print Assumptions C85_code.
Example C85_code_ex : native_convolve j_kernel1 (fun _ _ _ _ o => Ok o) 16 cj ck cin cout 2 = Undef /\
  (exists J, native_convolve j_kernel1 (fun _ _ _ _ o => Ok o) 16 cj ck cin cout 4 = Ok J).
Proof. split; [reflexivity|]. eexists. vm_compute. reflexivity. Qed.

(** A kernel whose offset is outside it is not refused: the exception of the kernel's constructor is not caught.  A negative
    width is not refused either, it is taken as an unsigned number. *)
Theorem C85_offset : forall conv bits te J k inp out bd, jargs JByte te J inp out -> passed_on bd ->
  0 <= jk_width k < 2147483648 -> -2147483648 <= jk_offset k < 2147483648 -> ~ 0 <= jk_offset k < jk_width k ->
  java_convolve j_kernel1 conv bits J k inp out bd = Undef.
Proof. exact offset_undef. Qed.
Print Assumptions C85_offset.
Theorem C85_width : forall J k, jv_held J = [] -> -2147483648 <= jk_width k < 0 -> 0 <= jk_offset k < 2147483648 ->
  j_kernel1 J k = Ok (mkKernel (jk_width k + 4294967296) (jk_offset k) (jk_data k)).
Proof. exact width_kept. Qed.
Print Assumptions C85_width.
Example C85_offset_ex : jargs JByte JShort cj cin cout /\ passed_on (JValue 0) /\ jv_held cj = [] /\
  java_horizontal 16 cj (mkJkernel 2 (-1) [2; -1]) cin cout (JValue 0) = Undef /\
  java_horizontal 16 cj (mkJkernel 2 2 [2; -1]) cin cout (JValue 0) = Undef.
Proof. split; [jargs_tac|]. split; [left; reflexivity|]. repeat split. Qed.

(** The rule for columns is not used: with another rule for rows the result is that of the rule for rows. *)
Theorem C85_columns_refuted : exists te J k row column inp out J' out' x y, te = JShort /\ jargs JByte te J inp out /\
  row <> LOther /\ column <> LOther /\ jkernel1_ok k /\ line_fits (JLines column column) (ji_height inp) k /\
  java_vertical (out_bits te) J k inp out (JLines row column) = Ok (J', out') /\ jinside inp x y /\
  jpixel te J' out' x y <> Some (cast (out_type te)
    (zdot (jk_data k) (fun i => jsample (JLines row column) J inp x (y - jk_offset k + i)) 0)).
Proof.
  exists JShort, cj, ck, LExtend, LReflect, cin, cout. do 2 eexists. exists 0, 1.
  split; [reflexivity|]. split; [jargs_tac|]. split; [discriminate|]. split; [discriminate|].
  split; [split; [cbn; lia|split; [cbn; lia|reflexivity]]|]. split; [cbn; lia|]. split; [vm_compute; reflexivity|].
  split; [split; cbn; lia|]. vm_compute. discriminate.
Qed.
Print Assumptions C85_columns_refuted.

(** An output image with 8 bits ends in undefined behaviour, not in an exception for Java. *)
Theorem C85_bits_refuted : exists J k inp out, jargs JByte JByte J inp out /\ jkernel1_ok k /\
  java_horizontal 8 J k inp out (JValue 0) = Undef /\ java_vertical 8 J k inp out (JValue 0) = Undef.
Proof.
  exists cj, ck, cin, cout. split; [jargs_tac|]. split; [split; [cbn; lia|split; [cbn; lia|reflexivity]]|]. split; reflexivity.
Qed.
Print Assumptions C85_bits_refuted.

(** ** C86: contours *)

(** The labels that Java finds in its image. *)
Theorem C86_labels : forall grow q fuel F J binary labeled, jused F -> nc_args grow q fuel J binary labeled -> exists F' J' labeled' g,
  nc_process grow q fuel F J binary labeled = Ok (F', J', labeled') /\ jused F' /\ shows JByte J binary g /\
  jeffect JInt J binary labeled J' labeled' (fun x y => jpixel JInt J' labeled' x y) /\
  (forall p, inside g (fst p) (snd p) -> exists k, jpixel JInt J' labeled' (fst p) (snd p) = Some k /\
     0 <= k <= zlen (nc_contours F') /\ (k = 0 <-> bg g p)) /\
  (forall p q k k', fg g p -> fg g q -> jpixel JInt J' labeled' (fst p) (snd p) = Some k ->
     jpixel JInt J' labeled' (fst q) (snd q) = Some k' -> (k = k' <-> blob (jrule (settings (nc_lb F))) g p q)) /\
  (forall k, 1 <= k <= zlen (nc_contours F') -> exists p, first_of (adj (jrule (settings (nc_lb F)))) (fg g) p /\
     jpixel JInt J' labeled' (fst p) (snd p) = Some k) /\
  (forall p q k k', first_of (adj (jrule (settings (nc_lb F)))) (fg g) p -> first_of (adj (jrule (settings (nc_lb F)))) (fg g) q ->
     jpixel JInt J' labeled' (fst p) (snd p) = Some k -> jpixel JInt J' labeled' (fst q) (snd q) = Some k' -> (k < k' <-> before p q)).
Proof. exact java_labels. Qed.
Print Assumptions C86_labels.

(** The contours and the points that Java gets. *)
Theorem C86_contours : forall grow q fuel F J binary labeled F' J' labeled', jused F -> nc_args grow q fuel J binary labeled ->
  0 <= js_min (settings (nc_lb F)) -> 0 <= js_max (settings (nc_lb F)) ->
  nc_process grow q fuel F J binary labeled = Ok (F', J', labeled') ->
  let s := settings (nc_lb F) in exists g, shows JByte J binary g /\
  (forall k, 1 <= k <= zlen (nc_contours F') -> exists co p, znth (nc_contours F') (k - 1) = Some co /\ co_id co = k /\
    first_of (adj (jrule s)) (fg g) p /\ jpixel JInt J' labeled' (fst p) (snd p) = Some k /\
    (exists l, java_set (nc_points F') (co_ext co) (limited true (js_min s) (js_max s) l) /\
       traces (jrule s) l p (outer_edge (jrule s) g p)) /\
    exists qs, Forall2 (fun j q => hole (jrule s) g p q /\
        exists l, java_set (nc_points F') j (limited (js_inner s) (js_min s) (js_max s) l) /\
          traces (jrule s) l (fst q, snd q - 1) (hole_edge (jrule s) g p q)) (co_int co) qs /\
      forall q, hole (jrule s) g p q -> exists i q', znth qs i = Some q' /\ space (jrule s) g q q' /\
        forall i' q'', znth qs i' = Some q'' -> space (jrule s) g q q'' -> i' = i) /\
  (forall i, 0 <= i < zlen (jp_sets (nc_points F')) -> exists k co, znth (nc_contours F') (k - 1) = Some co /\
    (i = co_ext co \/ In i (co_int co)) /\ ~ (i = co_ext co /\ In i (co_int co)) /\
    forall k' co', znth (nc_contours F') (k' - 1) = Some co' -> i = co_ext co' \/ In i (co_int co') -> k' = k).
Proof. exact java_contours. Qed.
Print Assumptions C86_contours.

(** A pixel in a ring; the label image is replaced because it is too small. *)
Definition fj : jvm := mkJvm [[1;1;1;1;1; 1;0;0;0;1; 1;0;1;0;1; 1;0;0;0;1; 1;1;1;1;1]; [7]] [].
Definition fbin : jimage := mkJimage 5 5 0 5 false 0.
Definition flab : jimage := mkJimage 1 1 0 1 false 1.
Definition fqueue : jqueue := mkJq [[7; 7]] 0 1.
Lemma fargs : nc_args (fun n => n) fqueue 100 fj fbin flab.
Proof.
  split; [jargs_tac| |cbn; lia|cbn; lia|intros; lia|exists [7; 7]; vm_compute; intuition congruence|cbn; lia].
  intros x y v E. unfold jpixel in E. cbn [ji_width ji_height fbin ji_array] in E. destruct (_ && _) eqn:I; [|discriminate].
  assert (x = 0 \/ x = 1 \/ x = 2 \/ x = 3 \/ x = 4) as X by lia. assert (y = 0 \/ y = 1 \/ y = 2 \/ y = 3 \/ y = 4) as Y by lia.
  destruct X as [->|[->|[->|[->| ->]]]], Y as [->|[->|[->|[->| ->]]]]; cbn in E; injection E as <-; auto.
Qed.
Example C86_ex : jused nc_new /\ nc_args (fun n => n) fqueue 100 fj fbin flab /\ js_min (settings (nc_lb nc_new)) = 0 /\
  js_max (settings (nc_lb nc_new)) = 2147483647 /\
  exists F' J', nc_process (fun n => n) fqueue 100 nc_new fj fbin flab = Ok (F', J', mkJimage 5 5 0 5 false 2) /\
    nc_contours F' = [mkCo 1 0 [1]; mkCo 2 2 []] /\
    znth (jv_arrays J') 2 = Some [1;1;1;1;1; 1;0;0;0;1; 1;0;2;0;1; 1;0;0;0;1; 1;1;1;1;1] /\
    java_set (nc_points F') 2 [(2, 2)].
Proof.
  split; [constructor|]. split; [exact fargs|]. split; [reflexivity|]. split; [reflexivity|].
  do 2 eexists. split; [vm_compute; reflexivity|]. split; [reflexivity|]. split; [reflexivity|].
  exists 64, 1, 0. split; [reflexivity|]. split; [reflexivity|]. intros i Hi. assert (i = 0) as -> by lia. split; [lia|vm_compute; reflexivity].
Qed.

(** ** C87: settings *)
Theorem C87_defaults : settings (nc_lb nc_new) = mkSet true 0 2147483647 0.
Proof. reflexivity. Qed.
Print Assumptions C87_defaults.
Theorem C87_set : forall l lb, Forall nc_valid l -> exists lb', nc_sets lb l = Ok lb' /\ settings lb' = fold_left set_step l (settings lb) /\
  lb_contours lb' = lb_contours lb /\ lb_pts lb' = lb_pts lb.
Proof. exact set_steps. Qed.
Print Assumptions C87_set.
(** A rule that is neither of the two is not accepted silently: the exception leaves the native code. *)
Theorem C87_other_rule : forall lb o, o <> 0 -> o <> 1 -> nc_set lb (SetRule o) = Undef.
Proof. exact set_other_rule. Qed.
Print Assumptions C87_other_rule.
Example C87_other_rule_ex : nc_set (nc_lb nc_new) (SetRule (-1)) = Undef /\ nc_set (nc_lb nc_new) (SetRule 2) = Undef.
Proof. split; reflexivity. Qed.
Theorem C87_kept : forall grow q fuel F J b l F' J' l', nc_process grow q fuel F J b l = Ok (F', J', l') ->
  settings (nc_lb F') = settings (nc_lb F).
Proof. exact nc_settings. Qed.
Print Assumptions C87_kept.
Example C87_ex : Forall nc_valid [SetRule 1; SetMin 5; SetMax 40; SetInner false] /\
  fold_left set_step [SetRule 1; SetMin 5; SetMax 40; SetInner false] (settings (nc_lb nc_new)) = mkSet false 5 40 1.
Proof. split; [repeat apply Forall_cons; try apply Forall_nil; cbn; auto; lia|reflexivity]. Qed.

(** A negative minimum is read back as it was set, but all contours become empty although none is shorter. *)
Theorem C87_negative_refuted : exists lb J binary labeled F1 J1 l1 F2 J2 l2 co pts, nc_args (fun n => n) fqueue 100 J binary labeled /\
  nc_set (nc_lb nc_new) (SetMin (-1)) = Ok lb /\ js_min (settings lb) = -1 /\
  nc_process (fun n => n) fqueue 100 nc_new J binary labeled = Ok (F1, J1, l1) /\
  nc_process (fun n => n) fqueue 100 (mkJf lb [] (nc_points nc_new)) J binary labeled = Ok (F2, J2, l2) /\
  In co (nc_contours F1) /\ In co (nc_contours F2) /\ java_set (nc_points F1) (co_ext co) pts /\ -1 <= zlen pts /\ pts <> [] /\
  java_set (nc_points F2) (co_ext co) [].
Proof.
  destruct C86_ex as (_ & _ & _ & _ & F1 & J1 & E1 & C1 & _ & S1).
  eexists. exists fj, fbin, flab, F1, J1, (mkJimage 5 5 0 5 false 2). do 3 eexists. exists (mkCo 2 2 []), [(2, 2)].
  split; [exact fargs|]. split; [reflexivity|]. split; [reflexivity|]. split; [exact E1|]. split; [vm_compute; reflexivity|].
  split; [rewrite C1; cbn; auto|]. split; [cbn; auto|]. split; [exact S1|].
  split; [vm_compute; discriminate|]. split; [discriminate|]. do 3 eexists. split; [reflexivity|]. split; [reflexivity|]. intros i Hi. lia.
Qed.
Print Assumptions C87_negative_refuted.

(** ** C88: objects *)

(** Threshold filters that are not destroyed explicitly and contour finders that are not used after that: no operation is
    undefined, and what was released are exactly the objects of which Java got rid. *)
Theorem C88_filters : forall l, java_order 0 [] l -> no_retype l -> no_destroy l -> exists N, nt_run false (mkNat [] []) l = Ok N /\
  length (nt_cpp N) = objects l /\ forall i, (i < objects l)%nat -> (nth_error (nt_cpp N) i = Some None <-> In (JFinalize i) l).
Proof. exact filter_life. Qed.
Print Assumptions C88_filters.
Theorem C88_finders : forall l, java_order 0 [] l -> no_retype l -> unused_after_destroy [] l -> exists N,
  nt_run true (mkNat [] []) l = Ok N /\ length (nt_cpp N) = objects l /\
  forall i, (i < objects l)%nat -> (nth_error (nt_cpp N) i = Some None <-> In (JFinalize i) l \/ In (JDestroy i) l).
Proof. exact finder_life. Qed.
Print Assumptions C88_finders.
Definition nops : list jop := [JNew true; JUse 0; JNew false; JUse 1; JFinalize 0; JUse 1].
Example C88_ex : java_order 0 [] nops /\ no_retype nops /\ no_destroy nops /\ objects nops = 2%nat /\
  (exists N, nt_run false (mkNat [] []) nops = Ok N /\ nt_cpp N = [None; Some false]) /\
  (exists N, nt_run true (mkNat [] []) (nops ++ [JDestroy 1; JFinalize 1]) = Ok N /\ nt_cpp N = [None; None]).
Proof.
  split; [cbn; repeat split; try lia; intuition congruence|]. split; [intros i b H; cbn in H; intuition congruence|].
  split; [intros i H; cbn in H; intuition congruence|]. split; [reflexivity|]. split; eexists; (split; [vm_compute; reflexivity|reflexivity]).
Qed.

(** A threshold filter that was destroyed explicitly is deleted again by the garbage collector. *)
Theorem C88_destroy_refuted : exists l, java_order 0 [] l /\ no_retype l /\ unused_after_destroy [] l /\ nt_run false (mkNat [] []) l = Undef.
Proof.
  exists [JNew true; JUse 0; JDestroy 0; JFinalize 0]. split; [cbn; repeat split; try lia; tauto|].
  split; [intros i b H; cbn in H; intuition congruence|]. split; [cbn; tauto|]. reflexivity.
Qed.
Print Assumptions C88_destroy_refuted.

(** The image type can be changed at any time; the object is then used as one of the wrong type. *)
Theorem C88_type_refuted : exists l, java_order 0 [] l /\ no_destroy l /\ (forall z, nt_run z (mkNat [] []) l = Undef).
Proof.
  exists [JNew true; JType 0 false; JUse 0]. split; [cbn; repeat split; try lia; tauto|].
  split; [intros i H; cbn in H; intuition congruence|]. intros []; reflexivity.
Qed.
Print Assumptions C88_type_refuted.
