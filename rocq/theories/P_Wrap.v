(** Property theorems: objects that wrap memory of the caller. *)
From Coq Require Import Lia.
From Verif Require Import Base M_Image S_Image M_GrowArray S_GrowArray S_Wrap L_Wrap.

(** ** C113 *)
(** An image that wraps memory of the caller is a window into it.  After any history of writes, reshapes and copies into
    it every pixel is the element of the memory at offset + y * stride + x and holds what the calls put there, everything
    outside the window is as the caller left it, isInBounds agrees with at, and exactly the calls that do not fit the
    window throw. *)
Theorem C113_gray : forall (A : Type) (zero : A) (data : list A) w h offset stride (l : list (view_op A)) (o : view_op A),
  window_fits (zlen data) w h offset stride -> Forall view_op_ok l -> view_op_ok o ->
  exists g, view_run zero (gray_wrap data w h offset stride) l = Ok g /\ zlen (g_data g) = zlen data /\
    (forall x y, 0 <= x < w -> 0 <= y < h ->
       exists v, fold_left (view_step w h) l (fun x y => znth data (offset + y * stride + x)) x y = Some v /\
         znth (g_data g) (offset + y * stride + x) = Some v /\ gray_get g x y = Ok v) /\
    (forall j, (forall x y, 0 <= x < w -> 0 <= y < h -> j <> offset + y * stride + x) -> znth (g_data g) j = znth data j) /\
    (forall x y, 0 <= x < 4294967296 -> 0 <= y < 4294967296 ->
       (gray_isInBounds g x y = true <-> x < w /\ y < h) /\ (gray_get g x y = Throw <-> gray_isInBounds g x y = false)) /\
    (view_exec zero g o = Throw <-> view_refuses w h o).
Proof. exact view_history_lemma. Qed.
Print Assumptions C113_gray.
Example C113_gray_ex :
  let data := [0;1;2;3;4;5;6;7;8;9] in
  let l := [V_put 1 1 70; V_reshape 3 3; V_put 2 0 71; V_copy (gray_new 5 2 1); V_put 0 0 72] in
  window_fits (zlen data) 2 2 1 4 /\ Forall view_op_ok l /\
  (exists g, view_run 0 (gray_wrap data 2 2 1 4) l = Ok g /\ g_data g = [0;72;2;3;4;5;70;7;8;9] /\
     gray_get g 1 1 = Ok 70 /\ gray_isInBounds g 2 0 = false) /\
  view_refuses 2 2 (V_copy (gray_new 5 2 1)) /\ ~ view_refuses 2 2 (V_copy (gray_new 5 2 2)).
Proof.
  cbn zeta. split; [unfold window_fits; vm_compute; intuition congruence|]. split.
  - repeat constructor; try (vm_compute; intuition congruence).
  - split; [eexists; split; [vm_compute; reflexivity|vm_compute; auto]|]. vm_compute. split; [intuition congruence|].
    intros Q; apply Q; auto.
Qed.

(** The constructor does not compare the window with the length of the memory it is given: every pixel can be read
    exactly when the last row ends inside that memory. *)
Theorem C113_unchecked : forall (A : Type) (data : list A) w h offset stride,
  0 < w -> 0 < h -> 0 <= offset -> w <= stride -> offset + (h - 1) * stride + w <= 4294967296 ->
  ((forall x y, 0 <= x < w -> 0 <= y < h -> exists v, gray_get (gray_wrap data w h offset stride) x y = Ok v) <->
   offset + (h - 1) * stride + w <= zlen data).
Proof. exact wrap_unchecked_lemma. Qed.
Print Assumptions C113_unchecked.
Example C113_unchecked_ex : gray_get (gray_wrap [1;2;3;4;5] 2 2 0 4) 1 1 = Undef /\ gray_get (gray_wrap [1;2;3;4;5;6] 2 2 0 4) 1 1 = Ok 6.
Proof. vm_compute. auto. Qed.

(** The same for interleaved images of one byte elements, with at, both reshapes, setNumberOfBands and setTo. *)
Theorem C113_interleaved : forall t (data : list Z) w h n offset stride (l : list iview_op) (o : iview_op),
  ity_size t = 1 -> 0 <= w < 4294967296 -> 0 <= n < 4294967296 ->
  window_fits (zlen data) (w * n) h offset stride -> Forall (iview_op_ok n) l -> iview_op_ok n o ->
  exists g, iview_run t (inter_wrap data w h n offset stride) l = Ok g /\ zlen (i_data g) = zlen data /\
    (forall x y b, 0 <= x < w -> 0 <= y < h -> 0 <= b < n ->
       exists v, fold_left (iview_step w h n) l (fun x y b => znth data (offset + y * stride + x * n + b)) x y b = Some v /\
         znth (i_data g) (offset + y * stride + x * n + b) = Some v /\ inter_get g x y b = Ok v) /\
    (forall j, (forall x y b, 0 <= x < w -> 0 <= y < h -> 0 <= b < n -> j <> offset + y * stride + x * n + b) ->
       znth (i_data g) j = znth data j) /\
    (iview_exec t g o = Throw <-> iview_refuses w h n o).
Proof. exact iview_history_lemma. Qed.
Print Assumptions C113_interleaved.
Example C113_interleaved_ex :
  let data := [0;1;2;3;4;5;6;7;8;9;10;11] in
  let l := [I_put 1 1 0 70; I_reshape 3 3; I_bands 2; I_put 0 0 1 72; I_setTo (inter_new 0 2 1 2); I_reshape3 2 2 3] in
  ity_size U8 = 1 /\ window_fits (zlen data) (2 * 2) 2 1 6 /\ Forall (iview_op_ok 2) l /\
  (exists g, iview_run U8 (inter_wrap data 2 2 2 1 6) l = Ok g /\ i_data g = [0;1;72;3;4;5;6;7;8;70;10;11]) /\
  iview_refuses 2 2 2 (I_bands 3) /\ ~ iview_refuses 2 2 2 (I_setTo (inter_new 9 2 2 2)).
Proof.
  cbn zeta. split; auto. split; [unfold window_fits; vm_compute; intuition congruence|]. split.
  - repeat constructor; try (vm_compute; intuition congruence).
  - split; [eexists; split; [vm_compute; reflexivity|vm_compute; auto]|]. vm_compute. split; [intuition congruence|].
    intros Q; apply Q; auto.
Qed.

(** An array that wraps foreign memory keeps its size for ever: every call that would change the size throws, writes and
    fill reach the first size elements of the memory and nothing else, and at throws exactly from size on. *)
Theorem C113_array : forall (A : Type) (m : memtype A) (data : list (option A)) len n (l : list (ga_op A)) (o : ga_op A),
  0 <= n <= len -> len <= zlen data ->
  Forall (fun o => match o with Op_put i _ => 0 <= i | _ => True end) (o :: l) ->
  exists g, ga_run m (ga_wrap m data len n) l = Ok g /\ ga_size g = n /\ zlen (ga_data g) = zlen data /\
    (forall j, znth (ga_data g) j = fold_left (foreign_step m n) l (znth data) j) /\
    (forall j, n <= j -> znth (ga_data g) j = znth data j) /\
    (forall i, 0 <= i -> ga_at g i = if i <? n then match znth (ga_data g) i with Some (Some v) => Ok v | _ => Undef end else Throw) /\
    (ga_exec m g o = Throw <-> foreign_refuses n o).
Proof. exact foreign_history_lemma. Qed.
Print Assumptions C113_array.
Example C113_array_ex :
  let data := [Some 1; Some 2; Some 3; Some 4; Some 5] in
  let l := [Op_put 1 20; Op_resize 2; Op_put 3 30; Op_fill 7; Op_setTo [1; 2]; Op_put 2 9] in
  Forall (fun o => match o with Op_put i _ => 0 <= i | _ => True end) (Op_grow 3 :: l) /\
  (exists g, ga_run (int_mem U8) (ga_wrap (int_mem U8) data 4 3) l = Ok g /\
     ga_data g = [Some 7; Some 7; Some 9; Some 4; Some 5] /\ ga_at g 2 = Ok 9 /\ ga_at g 3 = Throw) /\
  foreign_refuses 3 (Op_grow 3 : ga_op Z) /\ ~ foreign_refuses 3 (Op_fill 1).
Proof.
  cbn zeta. split; [repeat constructor; lia|]. split; [eexists; split; [vm_compute; reflexivity|vm_compute; auto]|].
  cbn. tauto.
Qed.
