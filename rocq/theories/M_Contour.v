(** Model of ContourTracer and LinearContourLabelChang2004 (boofcpp/src/boofcv/contour.h, contour.cpp).  No proofs. *)
From Verif Require Import Base M_Image M_Misc M_PackedSet.

(** contour.h:16-18 [ConnectRule].  Any other value of the enum makes the tracer's constructor throw
    (contour.cpp:28-30); the labeller only ever builds FOUR and EIGHT (contour.cpp:257-258). *)
Inductive crule := Four | Eight.

(** [ruleN] (contour.cpp:22,27). *)
Definition rule_n (r : crule) : Z := match r with Four => 4 | Eight => 8 end.

(** [nextDirection] (contour.cpp:19-21, 24-26). *)
Definition next_direction (r : crule) : list Z :=
  match r with
  | Eight => map (fun i => ((i + 4) mod 8 + 2) mod 8) [0; 1; 2; 3; 4; 5; 6; 7]
  | Four => map (fun i => ((i + 2) mod 4 + 1) mod 4) [0; 1; 2; 3]
  end.

(** A list of computations, left to right (the assignments contour.cpp:68-75, 80-83). *)
Fixpoint all_ok {A} (l : list (outcome A)) : outcome (list A) :=
  match l with
  | [] => Ok []
  | m :: r => let* a := m in let* t := all_ok r in Ok (a :: t)
  end.

(** contour.cpp:66-84 [setOffsets8], [setOffsets4]; [int32_t s = stride], the sums are in [int]. *)
Definition set_offsets (r : crule) (stride : Z) : outcome (list Z) :=
  let s := s32 stride in
  all_ok (map (arith_result S32)
    match r with
    | Eight => [1; 1 + s; s; -1 + s; -1; -1 - s; - s; 1 - s]
    | Four => [1; s; -1; - s]
    end).

(** Fields of ContourTracer that change during [trace] (contour.h:37-53). *)
Record tracer := mkTr {
  tr_bin : gray Z;         (* *binary *)
  tr_lab : gray Z;         (* *labeled *)
  tr_pts : pset (Z * Z);   (* *storagePoints *)
  tr_x : Z; tr_y : Z; tr_dir : Z;
  tr_ib : Z;               (* indexBinary *)
  tr_il : Z                (* indexLabel *)
}.

(** Fields of ContourTracer that are constant during [trace] (contour.h:31-35, 48, 55-59). *)
Record tconf := mkTC {
  tc_rule : crule;
  tc_ob : list Z;          (* offsetsBinary *)
  tc_ol : list Z;          (* offsetsLabeled *)
  tc_label : Z;
  tc_max : Z               (* maxContourSize *)
}.

(** contour.cpp:204-212 [checkBlack] on element [i] of the buffer. *)
Definition check_black (g : gray Z) (i : Z) : outcome (bool * gray Z) :=
  let* v := bget (g_data g) i in
  if v =? 1 then Ok (true, g)
  else let* d := bset (g_data g) i 255 in Ok (false, with_data g d).

(** contour.cpp:152-198 [searchBlack4], [searchBlack8]: the same four lines, [n] = 4 or 8 times.
    [binary_ptr[off]] is element [ib+off]. *)
Fixpoint search (n : nat) (rn : Z) (ob : list Z) (ib : Z) (dir : Z) (g : gray Z) : outcome (bool * Z * gray Z) :=
  match n with
  | O => Ok (false, dir, g)
  | S m =>
      let* off := bget ob dir in
      let* '(b, g') := check_black g (ib + off) in
      if b then Ok (true, dir, g') else search m rn ob ib ((dir + 1) mod rn) g'
  end.

(** contour.cpp:137-150 [searchBlack]; [&binary->data[indexBinary]] must point into the buffer. *)
Definition search_black (c : tconf) (t : tracer) : outcome (bool * tracer) :=
  let* _ := bget (g_data (tr_bin t)) (tr_ib t) in
  let* '(b, dir, g) := search (Z.to_nat (rule_n (tc_rule c))) (rule_n (tc_rule c)) (tc_ob c) (tr_ib t) (tr_dir t) (tr_bin t) in
  Ok (b, mkTr g (tr_lab t) (tr_pts t) (tr_x t) (tr_y t) dir (tr_ib t) (tr_il t)).

(** contour.cpp:214-222 [moveToNext]. *)
Definition move_to_next (c : tconf) (t : tracer) : outcome tracer :=
  let* ob := bget (tc_ob c) (tr_dir t) in
  let* ol := bget (tc_ol c) (tr_dir t) in
  let ib := u32 (tr_ib t + ob) in
  let il := u32 (tr_il t + ol) in
  let a := u32 (ib - g_offset (tr_bin t)) in
  let* x := umod a (g_stride (tr_bin t)) in
  let* y := udiv a (g_stride (tr_bin t)) in
  Ok (mkTr (tr_bin t) (tr_lab t) (tr_pts t) x y (tr_dir t) ib il).

(** [dir = nextDirection[dir]] (contour.cpp:117,129). *)
Definition turn (c : tconf) (t : tracer) : outcome tracer :=
  let* d := bget (next_direction (tc_rule c)) (tr_dir t) in
  Ok (mkTr (tr_bin t) (tr_lab t) (tr_pts t) (tr_x t) (tr_y t) d (tr_ib t) (tr_il t)).

(** contour.cpp:227-232 [add(int x, int y)]; the arguments are uint32_t fields converted to int. *)
Definition tr_add (c : tconf) (t : tracer) : outcome tracer :=
  let* d := bset (g_data (tr_lab t)) (tr_il t) (tc_label c) in
  let lab := with_data (tr_lab t) d in
  if ps_tail_size (tr_pts t) <? tc_max c then
    let* px := arith_result S32 (s32 (tr_x t) - 1) in
    let* py := arith_result S32 (s32 (tr_y t) - 1) in
    let* p := ps_push (tr_pts t) (px, py) in
    Ok (mkTr (tr_bin t) lab p (tr_x t) (tr_y t) (tr_dir t) (tr_ib t) (tr_il t))
  else Ok (mkTr (tr_bin t) lab (tr_pts t) (tr_x t) (tr_y t) (tr_dir t) (tr_ib t) (tr_il t)).

(** contour.cpp:120-131: the [for(;;)] loop; [fuel] bounds the number of iterations of the model. *)
Fixpoint trace_loop (fuel : nat) (c : tconf) (x0 y0 d0 : Z) (t : tracer) : outcome tracer :=
  match fuel with
  | O => OutOfFuel
  | S n =>
      let* '(_, t1) := search_black c t in
      if (tr_x t1 =? x0) && (tr_y t1 =? y0) && (tr_dir t1 =? d0) then Ok t1
      else
        let* t2 := tr_add c t1 in
        let* t3 := move_to_next c t2 in
        let* t4 := turn c t3 in
        trace_loop n c x0 y0 d0 t4
  end.

(** [initialDir] (contour.cpp:94-98). *)
Definition initial_dir (r : crule) (external : bool) : Z :=
  match r with
  | Eight => if external then 7 else 3
  | Four => if external then 0 else 2
  end.

(** contour.cpp:93-132 [trace]. *)
Definition trace (fuel : nat) (c : tconf) (bin lab : gray Z) (pts : pset (Z * Z)) (x0 y0 : Z) (external : bool)
  : outcome tracer :=
  let t := mkTr bin lab pts x0 y0 (initial_dir (tc_rule c) external)
             (gray_index bin x0 y0) (gray_index lab (u32 (x0 - 1)) (u32 (y0 - 1))) in
  let* t1 := tr_add c t in
  let* '(found, t2) := search_black c t1 in
  if negb found then Ok t2
  else
    let* t3 := move_to_next c t2 in
    let* t4 := turn c t3 in
    trace_loop fuel c x0 y0 (tr_dir t2) t4.

(** contour.h:125-144 [ContourPacked]. *)
Record contour := mkCo { co_id : Z; co_ext : Z; co_int : list Z }.

(** Fields of LinearContourLabelChang2004 that outlive a call (contour.h:180-199). *)
Record labeler := mkLb {
  lb_rule : crule;
  lb_min : Z;
  lb_max : Z;
  lb_save : bool;
  lb_border : gray Z;
  lb_pts : pset (Z * Z);
  lb_contours : list contour
}.

(** contour.cpp:255-261 and the member initialisers contour.h:181-185. *)
Definition lb_new (r : crule) : labeler :=
  mkLb r 0 4294967295 true (gray_new 0 0 0) (ps_new 2000) [].

(** The part of the state the scan of [process] works on. *)
Record scan := mkScan {
  sc_bin : gray Z;
  sc_lab : gray Z;
  sc_pts : pset (Z * Z);
  sc_con : list contour
}.

(** contour.cpp:339-342, 361-364: points of too long and too short contours are freed. *)
Definition limit_tail (mn mx : Z) (p : pset (Z * Z)) : outcome (pset (Z * Z)) :=
  if (mx <=? ps_tail_size p) || (ps_tail_size p <? mn) then ps_start (ps_remove_tail p) else Ok p.

(** contour.cpp:326-343 [handleStep1]; the result includes the new contour. *)
Definition step1 (fuel : nat) (st : labeler) (ob ol : list Z) (x y : Z) (s : scan) : outcome scan :=
  let id := u32 (zlen (sc_con s) + 1) in
  let* p1 := ps_start (sc_pts s) in
  let* t := trace fuel (mkTC (lb_rule st) ob ol (s32 id) (lb_max st)) (sc_bin s) (sc_lab s) p1 x y true in
  let* p2 := limit_tail (lb_min st) (lb_max st) (tr_pts t) in
  Ok (mkScan (tr_bin t) (tr_lab t) p2 (sc_con s ++ [mkCo id (ps_count (sc_pts s)) []])).

(** [c.internalIndexes.push_back(i)] for the contour at [k]; [contours.at(k)] throws outside (contour.cpp:354-355).
    [k] is the uint32_t value of [label-1]. *)
Definition push_internal (l : list contour) (k i : Z) : outcome (list contour) :=
  match znth l k with
  | None => Throw
  | Some c => Ok (upd l (Z.to_nat k) (mkCo (co_id c) (co_ext c) (co_int c ++ [i])))
  end.

(** contour.cpp:349-365 [handleStep2]; [io] is indexOut. *)
Definition step2 (fuel : nat) (st : labeler) (ob ol : list Z) (x y io label : Z) (s : scan) : outcome scan :=
  let* label := (if label =? 0 then let* v := bget (g_data (sc_lab s)) (u32 (io - 1)) in Ok (u32 v) else Ok label) in
  let* con := push_internal (sc_con s) (u32 (label - 1)) (u32 (zlen (ps_info (sc_pts s)))) in
  let* p1 := ps_start (sc_pts s) in
  let* t := trace fuel (mkTC (lb_rule st) ob ol (s32 label) (if lb_save st then lb_max st else 0))
              (sc_bin s) (sc_lab s) p1 x y false in
  let* p2 := limit_tail (lb_min st) (lb_max st) (tr_pts t) in
  Ok (mkScan (tr_bin t) (tr_lab t) p2 con).

(** contour.cpp:371-374 [handleStep3]. *)
Definition step3 (io : Z) (s : scan) : outcome scan :=
  let* v := bget (g_data (sc_lab s)) io in
  if v =? 0 then
    let* l := bget (g_data (sc_lab s)) (u32 (io - 1)) in
    let* d := bset (g_data (sc_lab s)) io l in
    Ok (mkScan (sc_bin s) (with_data (sc_lab s) d) (sc_pts s) (sc_con s))
  else Ok s.

(** contour.cpp:297-317: body of the scan at border pixel (x,y); [ii] is indexIn, [io] is indexOut. *)
Definition scan_pixel (fuel : nat) (st : labeler) (ob ol : list Z) (x y ii io : Z) (s : scan) : outcome scan :=
  let* bit := bget (g_data (sc_bin s)) ii in
  if negb (bit =? 1) then Ok s
  else
    let* v := bget (g_data (sc_lab s)) io in
    let label := u32 v in
    let* one := (if label =? 0 then
                   let* up := bget (g_data (sc_bin s)) (u32 (ii - g_stride (sc_bin s))) in Ok (negb (up =? 1))
                 else Ok false) in
    let* s1 := (if one then step1 fuel st ob ol x y s else Ok s) in
    let label := if one then u32 (zlen (sc_con s1)) else label in
    let* below := bget (g_data (sc_bin s1)) (u32 (ii + g_stride (sc_bin s1))) in
    let two := below =? 0 in
    let* s2 := (if two then step2 fuel st ob ol x y io label s1 else Ok s1) in
    if one || two then Ok s2 else step3 io s2.

(** contour.cpp:273-278: the bordered copy of the input. *)
Definition make_border (b binary : gray Z) : outcome (gray Z) :=
  let w2 := u32 (g_width binary + 2) in
  let h2 := u32 (g_height binary + 2) in
  let* b1 := (if negb (g_width b =? w2) || negb (g_height b =? h2)
              then let* r := gray_reshape 0 b w2 h2 in gray_fill_border r 0 1
              else Ok b) in
  let* sub := gray_subimage b1 1 1 (u32 (g_width b1 - 1)) (u32 (g_height b1 - 1)) in
  let* sub' := gray_copy 0 sub binary in
  Ok (with_data b1 (g_data sub')).

(** contour.cpp:269-320 [process].  The detector [st] and [labeled] after the call. *)
Definition process (fuel : nat) (st : labeler) (binary labeled : gray Z) : outcome (labeler * gray Z) :=
  let* lab0 := gray_reshape 0 labeled (g_width binary) (g_height binary) in
  let* border := make_border (lb_border st) binary in
  let* lab := gray_fill lab0 0 in
  let* ob := set_offsets (lb_rule st) (g_stride border) in
  let* ol := set_offsets (lb_rule st) (g_stride lab) in
  let* s := for_range 1 (u32 (g_height border - 1)) (fun y s =>
      let ii := u32 (g_offset border + y * g_stride border + 1) in
      let io := u32 (g_offset lab + (y - 1) * g_stride lab) in
      for_range 1 (u32 (g_width border - 1)) (fun x s =>
        scan_pixel fuel st ob ol x y (u32 (ii + (x - 1))) (u32 (io + (x - 1))) s) s)
    (mkScan border lab (ps_clear (lb_pts st)) []) in
  Ok (mkLb (lb_rule st) (lb_min st) (lb_max st) (lb_save st) (sc_bin s) (sc_pts s) (sc_con s), sc_lab s).

(** contour.cpp:376-378 [setConnectRule], and assignments to the public fields minContourSize, maxContourSize,
    saveInternalContours (contour.h:181-185). *)
Definition lb_set (st : labeler) (r : crule) (mn mx : Z) (save : bool) : labeler :=
  mkLb r mn mx save (lb_border st) (lb_pts st) (lb_contours st).
