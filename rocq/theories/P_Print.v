(** The text written by [print] and [print_kernel]: C127 and C128. *)
From Coq Require Import Ascii String Reals Lia Lra Floats.SpecFloat.
From Flocq Require Import Core BinarySingleNaN.
From Verif Require Import Base BaseFacts M_Image S_Image L_Image M_GrowArray M_KernelObj S_KernelObj S_Block M_Float S_Ieee M_Print S_Print L_Print.
From Verif Require P_FBlur P_KernelObj.
Open Scope Z_scope.

(** ** C127: integers *)

(** An image is written as a line with its size, one line per row and an empty line.  A row has one word per pixel between brackets:
    the pixel in hexadecimal, at least two digits, negative pixels modulo 2^32. *)
Theorem C127_image : forall g, wf g -> g_width g < 2147483648 -> g_height g < 2147483648 ->
  exists t hdr rows tw th, print_int g = Ok t /\ lines t = hdr :: rows ++ [[]; []] /\
  words hdr = [word "image"; tw; word "x"; th] /\ read_decimal tw = Some (g_width g) /\ read_decimal th = Some (g_height g) /\
  zlen rows = g_height g /\ forall y row, znth rows y = Some row -> exists toks, words row = word "[" :: toks ++ [word "]"] /\ zlen toks = g_width g /\
    forall x tok, znth toks x = Some tok -> exists v, pixel g x y = Some v /\ read_base 16 tok = Some (v mod 4294967296) /\ 2 <= zlen tok.
Proof. exact int_text_small. Qed.
Print Assumptions C127_image.

(** The text determines the image. *)
Theorem C127_same : forall t a b, ity_max t - ity_min t < 4294967296 -> wf a -> wf b -> typed t a -> typed t b ->
  (print_int a = print_int b <-> g_width a = g_width b /\ g_height a = g_height b /\ forall x y, inside a x y -> pixel a x y = pixel b x y).
Proof. exact same_text. Qed.
Print Assumptions C127_same.

Theorem C127_kernel1 : forall k l, ga_size (ko_data k) = zlen l -> kcoefs k = map Some l -> ko_width k = zlen l ->
  (forall v, In v l -> -2147483648 <= v < 2147483648) ->
  exists t line toks, print_kernel1 fmt_d k = Ok t /\ lines t = [line; []] /\ words line = word "Kernel1D[" :: toks ++ [word "]"] /\
    zlen toks = zlen l /\ forall i tok, znth toks i = Some tok -> exists v, znth l i = Some v /\ read_decimal tok = Some v.
Proof. exact kernel1_int. Qed.
Print Assumptions C127_kernel1.

Theorem C127_kernel2 : forall k l, ga_size (ko_data k) = zlen l -> kcoefs k = map Some l -> zlen l = ko_width k * ko_width k ->
  0 <= ko_width k < 65536 -> 0 <= ko_offset k < 2147483648 -> (forall v, In v l -> -2147483648 <= v < 2147483648) ->
  exists t hdr rows to tw, print_kernel2 fmt_d k = Ok t /\ lines t = hdr :: rows ++ [[]] /\
    words hdr = [word "Kernel2D{"; word "offset=" ++ to ++ word ","; word "width=" ++ tw; word "}"] /\
    read_decimal to = Some (ko_offset k) /\ read_decimal tw = Some (ko_width k) /\
    zlen rows = ko_width k /\ forall y row, znth rows y = Some row -> zlen (words row) = ko_width k /\
      forall x tok, znth (words row) x = Some tok -> exists v, znth l (y * ko_width k + x) = Some v /\ read_decimal tok = Some v.
Proof. exact kernel2_int. Qed.
Print Assumptions C127_kernel2.

Definition pimg : gray Z := mkGray 2 2 1 3 true [9; 10; -3; 9; 255; 300; 9].
Lemma pimg_wf : wf pimg.
Proof. unfold wf; cbn; unfold zlen; cbn [length]; repeat split; try lia; intros; discriminate. Qed.
Example C127_ex : wf pimg /\ typed S16 pimg /\ ity_max S16 - ity_min S16 < 4294967296 /\
  (exists t, print_int pimg = Ok t /\ map string_of_list_ascii (lines t) = ["image 2 x 2"; "[ 0a fffffffd ]"; "[ ff 12c ]"; ""; ""]%string) /\
  (exists k t, kstart (int_mem S32) (KI_list 1 [1; -2; 1]) = Ok k /\ ga_size (ko_data k) = 3 /\ kcoefs k = map Some [1; -2; 1] /\ ko_width k = 3 /\
     print_kernel1 fmt_d k = Ok t /\ string_of_list_ascii t = ("Kernel1D[ 1 -2 1 ]" ++ String nl EmptyString)%string) /\
  exists k t, kstart (int_mem S32) (KI_lists 1 [[1; 2]; [3; -40]]) = Ok k /\ ga_size (ko_data k) = 4 /\ kcoefs k = map Some [1; 2; 3; -40] /\ ko_width k = 2 /\
     print_kernel2 fmt_d k = Ok t /\ map string_of_list_ascii (lines t) = ["Kernel2D{ offset=1, width=2 }"; "  1 2"; "  3 -40"; ""]%string.
Proof.
  split; [exact pimg_wf|]. split.
  { intros x y v P. unfold pixel in P. destruct (_ && _)%bool; [|discriminate]. apply znth_In in P. cbn in P. cbn. intuition lia. }
  split; [reflexivity|]. split; [eexists; split; vm_compute; reflexivity|]. split; (eexists _, _; split; [vm_compute; reflexivity|]; repeat (split; [vm_compute; reflexivity|]); vm_compute; reflexivity).
Qed.

(** The width is written as a signed number. *)
Theorem C127_width_refuted : exists (g : gray Z) t, wf g /\ g_width g = 2147483648 /\ print_int g = Ok t /\
  map string_of_list_ascii (lines t) = ["image -2147483648 x 0"; ""; ""]%string.
Proof.
  exists (mkGray 2147483648 0 0 2147483648 false []). eexists. split; [unfold wf; cbn; unfold zlen; cbn [length]; repeat split; try lia|].
  split; [reflexivity|]. split; vm_compute; reflexivity.
Qed.
Print Assumptions C127_width_refuted.

(** ** C128: floats *)
Theorem C128_number : forall f, standard f -> forall x, finite f x -> one_word (fmt_e x) /\
  exists r, read_number (fmt_e x) = Some r /\ (Rabs (r - val x) <= / 20000 * Rabs (val x))%R.
Proof. exact (fun f St x => fmt_e_ok f x St). Qed.
Print Assumptions C128_number.

Theorem C128_image : forall f, standard f -> forall g, wf g -> g_width g < 2147483648 -> g_height g < 2147483648 ->
  (forall x y v, pixel g x y = Some v -> finite f v) ->
  exists t hdr rows tw th, print_float g = Ok t /\ lines t = hdr :: rows ++ [[]; []] /\
  words hdr = [word "image"; tw; word "x"; th] /\ read_decimal tw = Some (g_width g) /\ read_decimal th = Some (g_height g) /\
  zlen rows = g_height g /\ forall y row, znth rows y = Some row -> exists toks, words row = word "[" :: toks ++ [word "]"] /\ zlen toks = g_width g /\
    forall x tok, znth toks x = Some tok -> exists v r, pixel g x y = Some v /\ read_number tok = Some r /\ (Rabs (r - val v) <= / 20000 * Rabs (val v))%R.
Proof. exact float_text_small. Qed.
Print Assumptions C128_image.

Theorem C128_kernel1 : forall f, standard f -> forall k l, ga_size (ko_data k) = zlen l -> kcoefs k = map Some l -> ko_width k = zlen l ->
  (forall v, In v l -> finite f v) ->
  exists t line toks, print_kernel1 fmt_e k = Ok t /\ lines t = [line; []] /\ words line = word "Kernel1D[" :: toks ++ [word "]"] /\
    zlen toks = zlen l /\ forall i tok, znth toks i = Some tok -> exists v r, znth l i = Some v /\ read_number tok = Some r /\ (Rabs (r - val v) <= / 20000 * Rabs (val v))%R.
Proof. exact kernel1_float. Qed.
Print Assumptions C128_kernel1.

Theorem C128_kernel2 : forall f, standard f -> forall k l, ga_size (ko_data k) = zlen l -> kcoefs k = map Some l -> zlen l = ko_width k * ko_width k ->
  0 <= ko_width k < 65536 -> 0 <= ko_offset k < 2147483648 -> (forall v, In v l -> finite f v) ->
  exists t hdr rows to tw, print_kernel2 fmt_e k = Ok t /\ lines t = hdr :: rows ++ [[]] /\
    words hdr = [word "Kernel2D{"; word "offset=" ++ to ++ word ","; word "width=" ++ tw; word "}"] /\
    read_decimal to = Some (ko_offset k) /\ read_decimal tw = Some (ko_width k) /\
    zlen rows = ko_width k /\ forall y row, znth rows y = Some row -> zlen (words row) = ko_width k /\
      forall x tok, znth (words row) x = Some tok -> exists v r, znth l (y * ko_width k + x) = Some v /\ read_number tok = Some r /\ (Rabs (r - val v) <= / 20000 * Rabs (val v))%R.
Proof. exact kernel2_float. Qed.
Print Assumptions C128_kernel2.

Notation z32 := P_FBlur.z32.
Definition fimg : gray spec_float := mkGray 2 1 0 2 false [z32 99995; S754_finite true 9227469 (-65)].
Definition fmem : memtype spec_float := mkMem (S754_zero false) 4 (fun v => v).
Example C128_ex : wf fimg /\ (forall x y v, pixel fimg x y = Some v -> finite F32 v) /\
  (exists t, print_float fimg = Ok t /\ map string_of_list_ascii (lines t) = ["image 2 x 1"; "[ 9.9995e+04 -2.5011e-13 ]"; ""; ""]%string) /\
  (exists k t, kstart fmem (KI_list 0 [z32 3; z32 123456]) = Ok k /\ ga_size (ko_data k) = 2 /\ kcoefs k = map Some [z32 3; z32 123456] /\ ko_width k = 2 /\
     print_kernel1 fmt_e k = Ok t /\ string_of_list_ascii t = ("Kernel1D[ 3.0000e+00 1.2346e+05 ]" ++ String nl EmptyString)%string) /\
  exists k t, kstart fmem (KI_lists 0 [[z32 3]]) = Ok k /\ ga_size (ko_data k) = 1 /\ kcoefs k = map Some [z32 3] /\ ko_width k = 1 /\
     print_kernel2 fmt_e k = Ok t /\ map string_of_list_ascii (lines t) = ["Kernel2D{ offset=0, width=1 }"; "  3.0000e+00"; ""]%string.
Proof.
  split; [unfold wf; cbn; unfold zlen; cbn [length]; repeat split; lia|]. split.
  { intros x y v P. unfold pixel in P. destruct (_ && _)%bool; [|discriminate]. apply znth_In in P. destruct P as [<-|[<-|[]]]; split; reflexivity. }
  split; [eexists; split; vm_compute; reflexivity|]. split; (eexists _, _; split; [vm_compute; reflexivity|]; repeat (split; [vm_compute; reflexivity|]); vm_compute; reflexivity).
Qed.

(** Different images can have the same text. *)
Theorem C128_same_refuted : exists a b x y u v, wf a /\ wf b /\ finite F32 u /\ finite F32 v /\ pixel a x y = Some u /\ pixel b x y = Some v /\ val u <> val v /\
  print_float a = print_float b.
Proof.
  destruct (P_FBlur.z32_ok 1000001 ltac:(lia)) as [A1 A2], (P_FBlur.z32_ok 1000002 ltac:(lia)) as [B1 B2].
  exists (mkGray 1 1 0 1 false [z32 1000001]), (mkGray 1 1 0 1 false [z32 1000002]), 0, 0, (z32 1000001), (z32 1000002).
  do 2 (split; [unfold wf; cbn; unfold zlen; cbn [length]; repeat split; lia|]). split; [exact A1|]. split; [exact B1|]. do 2 (split; [reflexivity|]).
  split; [rewrite A2, B2; lra|]. vm_compute. reflexivity.
Qed.
Print Assumptions C128_same_refuted.
