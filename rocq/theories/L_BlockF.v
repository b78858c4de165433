(** Block Otsu in [double], and the block filters on images of floats called from Java. *)
From Coq Require Import QArith Reals Qreals Bool Lia Lra Psatz.
From Coq Require Import Floats.SpecFloat.
From Flocq Require Import Core BinarySingleNaN.
From Verif Require Import BaseFacts M_Image M_Convolve S_Image L_Image M_GrowArray S_Blur M_Stats S_Stats L_Stats S_Convolve M_Float M_Config S_Config
  M_Block S_Block L_Block L_BlockOtsu L_BlockInt M_Otsu S_Otsu L_Otsu L_OtsuImage S_Ieee L_Ieee S_FOtsu L_FOtsu S_FBlur S_FNorm S_FStats S_FBlock L_FBlock
  M_Native S_Native M_NativeF S_NativeF L_NativeF L_NativeFNum M_OtsuF L_OtsuF M_BlockF.
Open Scope Z_scope.

(** ** Otsu in double *)
Lemma int_leb a b : 0 <= a < 4294967296 -> 0 <= b < 4294967296 -> SFleb (float_of_Z F64 a) (float_of_Z F64 b) = (a <=? b).
Proof.
  intros Ha Hb. destruct (int_mag a Ha) as (Fa & Va & _), (int_mag b Hb) as (Fb & Vb & _).
  rewrite (L_FKernel.leb_val F64) by auto. rewrite Va, Vb. destruct (Rle_bool_spec (IZR a) (IZR b)) as [L|L].
  - apply le_IZR in L. symmetry. now apply Z.leb_le.
  - apply lt_IZR in L. symmetry. now apply Z.leb_gt.
Qed.

Section Otsu.
Context {E : Type}.
Variables (u8_of : E -> outcome Z) (cv : E -> Z) (two local down : bool) (c : clen spec_float) (g : gray E) (o : gray Z) (req : Z).
Hypothesis Hf : fits double c g o req.
Hypothesis Hn : cols g req * rows g req * 256 < 4294967296.
Hypothesis Hn1 : g_width g * g_height g < 2147483648.
Hypothesis Hu : forall x y v, pixel g x y = Some v -> u8_of v = Ok (cv v) /\ 0 <= cv v < 256.
Notation zero := (d_of double 0).
Notation one := (d_of double 1).

Lemma near_bytes b : is_block g req b -> forall v, In v (map cv (near_pixels g req local b)) -> 0 <= v <= 255.
Proof.
  destruct Hf as (Hg & Ho & Ew & Eh & Hc & Hw & Hh).
  intros B v Hv. apply in_map_iff in Hv as (p & <- & Hv). unfold near_pixels in Hv. apply in_flat_map in Hv. destruct Hv as (a & Ha & Hv).
  apply (block_pixels_In g req Hw Hh) in Hv; [|eapply near_blocks_ok; eauto]. destruct Hv as (x & y & _ & Ep). apply Hu in Ep. lia.
Qed.
Lemma level_double b : is_block g req b -> exists v th, otsu_threshold double cv two zero one g req local down b = Ok (v, d_of double th) /\
  0 <= th < 4294967296 /\ let l := byte_counts (map cv (near_pixels g req local b)) in if two then near_middle l th else near_best l th.
Proof.
  destruct Hf as (Hg & Ho & Ew & Eh & Hc & Hw & Hh).
  intros B. pose proof (near_pixels_len g req local Hg Hw Hh b B) as NL.
  destruct (byte_counts_ok (map cv (near_pixels g req local b)) (near_bytes b B)) as (C & HC & S & L); [rewrite L_BlockOtsu.zlen_map; lia|].
  rewrite L_BlockOtsu.zlen_map in S. unfold otsu_threshold. rewrite <- S. destruct two.
  - destruct (otsu_middle_double _ _ down C HC ltac:(lia)) as (v & th & R & T & Q). exists v, th. auto.
  - destruct (otsu_plain_double _ _ down C HC ltac:(lia)) as (v & th & R & Q). exists v, th. split; auto. split; auto. destruct Q as (Q & _). lia.
Qed.
Lemma otsu_double st0 : ready (block_otsu double u8_of two zero one local down) st0 ->
  exists st out (th : Z * Z -> Z), block_process (block_otsu double u8_of two zero one local down) double c st0 g o = Ok (st, out) /\
    ready (block_otsu double u8_of two zero one local down) st /\
    (forall b, is_block g req b -> let l := byte_counts (map cv (near_pixels g req local b)) in
       0 <= th b < 4294967296 /\ if two then near_middle l (th b) else near_best l (th b)) /\
    holds g o out (fun x y => match pixel g x y with Some v => Some (side down (cv v <=? th (home g req x y))) | None => None end).
Proof.
  intros R. set (th := fun b => match otsu_threshold double cv two zero one g req local down b with
    | Ok (_, q) => match float_int q with Some z => z | None => 0 end | _ => 0 end).
  assert (T : forall b, is_block g req b -> exists v, otsu_threshold double cv two zero one g req local down b = Ok (v, d_of double (th b)) /\
    0 <= th b < 4294967296 /\ let l := byte_counts (map cv (near_pixels g req local b)) in if two then near_middle l (th b) else near_best l (th b)).
  { intros b B. destruct (level_double b B) as (v & t & E0 & R0 & Q). exists v.
    replace (th b) with t; auto. unfold th. rewrite E0. destruct (int_mag t R0) as (F & V & _). cbn [d_of double].
    rewrite float_int_val by (auto; rewrite V; apply IZR_le; lia). now rewrite V, Zfloor_IZR. }
  destruct (otsu_any double u8_of cv two zero one local down c g o req st0 Hf Hn Hn1 Hu) as (st & out & E0 & R' & H); auto.
  { intros b B. destruct (T b B) as (v & E0 & _). eauto. }
  exists st, out, th. split; auto. split; auto. split.
  - intros b B. destruct (T b B) as (v & _ & Q). exact Q.
  - destruct Hf as (Hg & Ho & Ew & Eh & Hc & Hw & Hh). eapply holds_ext; [|exact H]. intros x y I. cbn beta. unfold otsu_value.
    destruct (pixel_exists g x y Hg I) as (v & Ev). rewrite Ev. destruct (T _ (home_block g req Hw Hh x y I)) as (v0 & -> & R0 & _).
    cbn [bind value snd d_le d_of double]. destruct (Hu x y v Ev). now rewrite int_leb by lia.
Qed.
End Otsu.

(** ** Floats *)
Lemma float_u8_ok v : is_finite_SF v = true -> (0 <= val v < 256)%R -> float_u8 v = Ok (whole_part v) /\ 0 <= whole_part v < 256.
Proof.
  intros F R. unfold float_u8, d_to. cbn [d_int double]. rewrite float_int_any by (auto; lra). fold (whole_part v).
  assert (0 <= whole_part v) by (apply Zfloor_lub; cbn; lra).
  assert (whole_part v < 256). { apply lt_IZR. pose proof (Zfloor_lb (val v)). unfold whole_part. lra. }
  replace ((ity_min U8 <=? whole_part v) && (whole_part v <=? ity_max U8)) with true; auto. symmetry. apply andb_true_iff. cbn [ity_min ity_max]. lia.
Qed.
Lemma otsu_float f two local down c g o req st0 : fits double c g o req ->
  cols g req * rows g req * 256 < 4294967296 -> g_width g * g_height g < 2147483648 ->
  (forall x y v, pixel g x y = Some v -> finite f v /\ (0 <= val v < 256)%R) ->
  ready (f_botsu_filter two (d_of double 0) (d_of double 1) local down) st0 ->
  exists st out (th : Z * Z -> Z), block_process (f_botsu_filter two (d_of double 0) (d_of double 1) local down) double c st0 g o = Ok (st, out) /\
    ready (f_botsu_filter two (d_of double 0) (d_of double 1) local down) st /\
    (forall b, is_block g req b -> let l := byte_counts (map (fun v => Zfloor (val v)) (near_pixels g req local b)) in
       0 <= th b < 4294967296 /\ if two then near_middle l (th b) else near_best l (th b)) /\
    holds g o out (fun x y => match pixel g x y with Some v => Some (side down (Zfloor (val v) <=? th (home g req x y))) | None => None end).
Proof.
  intros Hf Hn Hn1 Hp R. apply (otsu_double float_u8 whole_part two local down c g o req Hf Hn Hn1); auto.
  intros x y v Ev. destruct (Hp x y v Ev) as [[_ F] V]. now apply float_u8_ok.
Qed.
Lemma otsu_bytes two local down c g o req st0 : fits double c g o req -> typed U8 g ->
  cols g req * rows g req * 256 < 4294967296 -> g_width g * g_height g < 2147483648 ->
  ready (block_otsu double int_u8 two (d_of double 0) (d_of double 1) local down) st0 ->
  exists st out (th : Z * Z -> Z), block_process (block_otsu double int_u8 two (d_of double 0) (d_of double 1) local down) double c st0 g o = Ok (st, out) /\
    ready (block_otsu double int_u8 two (d_of double 0) (d_of double 1) local down) st /\
    (forall b, is_block g req b -> let l := byte_counts (near_pixels g req local b) in
       0 <= th b < 4294967296 /\ if two then near_middle l (th b) else near_best l (th b)) /\
    holds g o out (fun x y => match pixel g x y with Some v => Some (side down (v <=? th (home g req x y))) | None => None end).
Proof.
  intros Hf Ht Hn Hn1 R. destruct (otsu_double int_u8 (fun v => v) two local down c g o req Hf Hn Hn1) with (st0 := st0) as (st & out & th & H1 & H2 & H3 & H4); auto.
  - intros x y v Ev. specialize (Ht x y v Ev). cbn in Ht. unfold int_u8. rewrite cast_id by (cbn; lia). split; auto. lia.
  - exists st, out, th. split; auto. split; auto. split; auto. intros b B. specialize (H3 b B). now rewrite map_id in H3.
Qed.

(** ** From Java *)
Lemma f_blocks_fresh scale spread tuning two local down :
  (exists st, block_init (f_bmean_filter scale local down) = Ok st /\ ready (f_bmean_filter scale local down) st) /\
  (exists st, block_init (f_bminmax_filter spread scale local down) = Ok st /\ ready (f_bminmax_filter spread scale local down) st) /\
  exists st, block_init (f_botsu_filter two tuning scale local down) = Ok st /\ ready (f_botsu_filter two tuning scale local down) st.
Proof. split; [|split]; apply block_init_ready; cbn; lia. Qed.
Section Java.
Variables (V : fvm) (inp out : jimage) (c : clen spec_float) (req : Z).
Hypothesis A : fbargs V inp out.
Hypothesis Hc : clen_computeI double c (d_of double (Z.min (ji_width inp) (ji_height inp))) = Ok req.
Hypothesis Hw : 1 <= req <= ji_width inp.
Hypothesis Hh : 1 <= req <= ji_height inp.
Lemma f_blocks_fit g o : fshows V inp g -> wf o -> g_width o = g_width g -> g_height o = g_height g -> fits double c g o req.
Proof. intros (Wg & Gw & Gh & _) Wo E1 E2. unfold fits. rewrite Gw, Gh. split; [exact Wg|]. split; [exact Wo|]. split; [lia|]. split; [lia|]. auto. Qed.

Lemma f_bmean_java scale local down st M n after :
  ready (f_bmean_filter scale local down) st -> finite F32 (to_single scale) -> fbounded V inp M ->
  (forall g b, fshows V inp g -> is_block g req b -> zlen (block_pixels g req b) <= n) ->
  (40 * (Rabs (val (to_single scale)) + 1) * (IZR n * M + 1) * (1 + unit_error F32) ^ Z.to_nat (n + 16) < huge F32)%R ->
  exists st' V' out' g F, f_java_filter (block_process (f_bmean_filter scale local down) double c) after st V inp out = Ok (st', V', out') /\
    ready (f_bmean_filter scale local down) st' /\ fshows V inp g /\ fbeffect V inp out V' out' F /\
    forall x y v, fpixel V inp x y = Some v -> exists low, F x y = Some (side down low) /\
      let t := level (val (to_single scale)) g req local (home g req x y) in let e := level_error F32 n (val (to_single scale)) M in
      ((val v < t - e)%R -> low = true) /\ ((t + e < val v)%R -> low = false).
Proof.
  intros R Fs Bd Hb Hs.
  destruct (f_filter_some (block_process (f_bmean_filter scale local down) double c) after st (fun g st' F =>
    ready (f_bmean_filter scale local down) st' /\ forall x y v, pixel g x y = Some v -> exists low, F x y = Some (side down low) /\
      let t := level (val (to_single scale)) g req local (home g req x y) in let e := level_error F32 n (val (to_single scale)) M in
      ((val v < t - e)%R -> low = true) /\ ((t + e < val v)%R -> low = false)) V inp out A)
    as (st' & V' & out' & g & F & E & Sg & (R' & Q) & Ee).
  - intros g o Sg Lg Wo Sb Ew Eh.
    destruct (mean_near_real F32 St32 (to_single scale) local down c g o req st M n (f_blocks_fit g o Sg Wo Ew Eh)) as (st' & o' & low & E & R' & H & Q); auto.
    { eapply fbounded_of; eauto. }
    exists st', o', (fun x y => Some (side down (low x y))). split; auto. split; [split; auto|split; auto].
    + intros x y v Ev. exists (low x y). split; auto. exact (Q x y v Ev).
    + intros x y v _ [= <-]. destruct down, (low x y); cbn; lia.
  - exists st', V', out', g, F. do 4 (split; [assumption|]). intros x y v Ev. apply Q. destruct Sg as (_ & _ & _ & G). now rewrite G.
Qed.

Lemma f_bminmax_java spread scale local down st M after :
  (ji_width inp / req) * (ji_height inp / req) * 2 < 4294967296 ->
  ready (f_bminmax_filter spread scale local down) st -> finite F32 (to_single spread) -> finite F32 (to_single scale) -> fbounded V inp M ->
  (4 * (Rabs (val (to_single scale)) + 1) * (M + 1) < huge F32)%R ->
  exists st' V' out' g F, f_java_filter (block_process (f_bminmax_filter spread scale local down) double c) after st V inp out = Ok (st', V', out') /\
    ready (f_bminmax_filter spread scale local down) st' /\ fshows V inp g /\ fbeffect V inp out V' out' F /\ (forall x y, jinside inp x y -> F x y = Some 0 \/ F x y = Some 1) /\
    forall x y v lo hi, fpixel V inp x y = Some v -> spans (near_pixels g req local (home g req x y)) lo hi -> (smallest_normal F32 <= hi)%R ->
      exists bit, F x y = Some bit /\
      ((hi - lo <= val (to_single spread))%R -> bit = 1) /\
      ((val (to_single spread) < (1 - unit_error F32) * (hi - lo))%R ->
        let t := (val (to_single scale) * middle lo hi)%R in let e := middle_error F32 (val (to_single scale)) lo hi in
        ((val v < t - e)%R -> bit = side down true) /\ ((t + e < val v)%R -> bit = side down false)).
Proof.
  intros Ha R Fp Fs Bd Hs.
  destruct (f_filter_some (block_process (f_bminmax_filter spread scale local down) double c) after st (fun g st' F =>
    ready (f_bminmax_filter spread scale local down) st' /\ (forall x y, F x y = Some 0 \/ F x y = Some 1) /\
    forall x y v lo hi, pixel g x y = Some v -> spans (near_pixels g req local (home g req x y)) lo hi -> (smallest_normal F32 <= hi)%R ->
      exists bit, F x y = Some bit /\
      ((hi - lo <= val (to_single spread))%R -> bit = 1) /\
      ((val (to_single spread) < (1 - unit_error F32) * (hi - lo))%R ->
        let t := (val (to_single scale) * middle lo hi)%R in let e := middle_error F32 (val (to_single scale)) lo hi in
        ((val v < t - e)%R -> bit = side down true) /\ ((t + e < val v)%R -> bit = side down false))) V inp out A)
    as (st' & V' & out' & g & F & E & Sg & (R' & Q1 & Q) & Ee).
  - intros g o Sg Lg Wo Sb Ew Eh. assert (Sg' := Sg). destruct Sg' as (_ & Gw & Gh & _).
    destruct (minmax_near_real F32 St32 (to_single spread) (to_single scale) local down c g o req st M (f_blocks_fit g o Sg Wo Ew Eh))
      as (st' & o' & bit & E & R' & H & Bin & Q); auto.
    { unfold cols, rows, block_count. now rewrite Gw, Gh. }
    { eapply fbounded_of; eauto. }
    exists st', o', (fun x y => Some (bit x y)). split; auto. split; [split; [auto|split]|split; auto].
    + intros x y. destruct (Bin x y) as [-> | ->]; auto.
    + intros x y v lo hi Ev S L. exists (bit x y). split; [reflexivity|]. exact (Q x y v lo hi Ev S L).
    + intros x y v _ [= <-]. destruct (Bin x y); lia.
  - exists st', V', out', g, F. do 4 (split; [assumption|]). split; [auto|]. intros x y v lo hi Ev. apply (Q x y v lo hi). destruct Sg as (_ & _ & _ & G). rewrite G; exact Ev.
Qed.

Lemma f_botsu_java two local down st after :
  (ji_width inp / req) * (ji_height inp / req) * 256 < 4294967296 -> ji_width inp * ji_height inp < 2147483648 ->
  ready (f_botsu_filter two (d_of double 0) (d_of double 1) local down) st ->
  (forall x y v, fpixel V inp x y = Some v -> finite F32 v /\ (0 <= val v < 256)%R) ->
  exists st' V' out' g (th : Z * Z -> Z),
    f_java_filter (block_process (f_botsu_filter two (d_of double 0) (d_of double 1) local down) double c) after st V inp out = Ok (st', V', out') /\
    ready (f_botsu_filter two (d_of double 0) (d_of double 1) local down) st' /\ fshows V inp g /\
    (forall b, is_block g req b -> let l := byte_counts (map (fun v => Zfloor (val v)) (near_pixels g req local b)) in
       0 <= th b < 4294967296 /\ if two then near_middle l (th b) else near_best l (th b)) /\
    fbeffect V inp out V' out' (fun x y => match fpixel V inp x y with Some v => Some (side down (Zfloor (val v) <=? th (home g req x y))) | None => None end).
Proof.
  intros Ha Hb R Hp.
  destruct (f_filter_some (block_process (f_botsu_filter two (d_of double 0) (d_of double 1) local down) double c) after st (fun g st' F =>
    ready (f_botsu_filter two (d_of double 0) (d_of double 1) local down) st' /\ exists th : Z * Z -> Z,
    (forall b, is_block g req b -> let l := byte_counts (map (fun v => Zfloor (val v)) (near_pixels g req local b)) in
       0 <= th b < 4294967296 /\ if two then near_middle l (th b) else near_best l (th b)) /\
    F = fun x y => match fpixel V inp x y with Some v => Some (side down (Zfloor (val v) <=? th (home g req x y))) | None => None end) V inp out A)
    as (st' & V' & out' & g & F & E & Sg & (R' & th & Q & ->) & Ee).
  - intros g o Sg Lg Wo Sb Ew Eh. assert (Sg' := Sg). destruct Sg' as (_ & Gw & Gh & G).
    destruct (otsu_float F32 two local down c g o req st (f_blocks_fit g o Sg Wo Ew Eh)) as (st' & o' & th & E & R' & Q & H); auto.
    { unfold cols, rows, block_count. now rewrite Gw, Gh. } { now rewrite Gw, Gh. }
    { intros x y v. rewrite G. apply Hp. }
    eexists st', o', _. split; [exact E|]. split; [split; [exact R'|]; exists th; split; [exact Q|reflexivity]|]. split.
    + eapply holds_ext; [|exact H]. intros x y I. cbn beta. now rewrite G.
    + intros x y v _. cbn beta. destruct (fpixel V inp x y); [|discriminate]. intros [= <-]. destruct down, (_ <=? _); cbn; lia.
  - exists st', V', out', g, th. auto.
Qed.
End Java.
