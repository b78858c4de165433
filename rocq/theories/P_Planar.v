(** Properties of planar images: C89, C90. *)
From Coq Require Import Lia.
From Verif Require Import Base M_Image S_Image M_Planar S_Planar L_Planar.

(** ** C89 *)
Theorem C89_new : forall A (zero : A) M w h n, size_ok w h -> 0 <= n < 4294967296 -> let P := snd (p_new zero M w h n) in
  p_num P = n /\ p_width P = w /\ p_height P = h /\ p_offset P = 0 /\ p_stride P = w /\ p_sub P = false /\
  forall k, 0 <= k < n -> exists g, p_band P k = Ok g /\ g_width g = w /\ g_height g = h /\ g_sub g = false /\
    forall x y, inside g x y -> pixel g x y = Some zero.
Proof. exact @planar_new. Qed.
Print Assumptions C89_new.

(** Bands are images to which everything proved about [reachable] images applies. *)
Theorem C89_band : forall A (zero : A) P k, planar_of zero P -> 0 <= k ->
  (k < p_num P -> exists g, p_band P k = Ok g /\ reachable zero g /\ g_sub g = false) /\ (p_num P <= k -> p_band P k = Throw).
Proof. exact @planar_band. Qed.
Print Assumptions C89_band.

(** Also when bands were given different sizes before. *)
Theorem C89_reshape : forall A (zero : A) P w h, planar_of zero P -> size_ok w h -> exists P', p_reshape zero P w h = Ok P' /\
  p_num P' = p_num P /\ p_width P' = w /\ p_height P' = h /\
  p_offset P' = p_offset P /\ p_stride P' = w /\ p_sub P' = false /\ p_ptr P' = p_ptr P /\
  forall k g, p_band P k = Ok g -> exists g', p_band P' k = Ok g' /\ g_width g' = w /\ g_height g' = h /\ (g_width g = w -> g_height g = h -> g' = g).
Proof. exact @planar_reshape. Qed.
Print Assumptions C89_reshape.

Theorem C89_write : forall A (zero : A) P k g x y v, planar_of zero P -> p_band P k = Ok g -> inside g x y -> exists P' g',
  p_on_band (fun g => gray_set g x y v) P k = Ok P' /\ p_num P' = p_num P /\ same_header P P' /\ p_band P' k = Ok g' /\ same_layout g g' /\
  (forall x' y', pixel g' x' y' = if (x' =? x) && (y' =? y) then Some v else pixel g x' y') /\
  forall j, j <> k -> p_band P' j = p_band P j.
Proof. exact @planar_write. Qed.
Print Assumptions C89_write.

(** Two bands, one of which was reshaped on its own. *)
Definition pl : planar Z := mkPlanar 2 1 0 2 false 2 [gray_new 0 2 1; gray_new 0 1 3] 0.
Lemma pl_of : planar_of 0 pl.
Proof.
  apply (PO_band 0 (snd (p_new 0 [] 2 1 2)) 1 1 3); [apply PO_new; unfold size_ok; lia|lia|unfold size_ok; lia|reflexivity].
Qed.
Example C89_ex : planar_of 0 pl /\ size_ok 3 2 /\ p_band pl 1 = Ok (gray_new 0 1 3) /\ inside (gray_new 0 1 3) 0 2 /\ p_band pl 2 = Throw /\
  p_reshape 0 pl 3 2 = Ok (mkPlanar 3 2 0 3 false 2 [gray_new 0 3 2; gray_new 0 3 2] 0).
Proof. split; [exact pl_of|]. split; [unfold size_ok; lia|]. split; [reflexivity|]. split; [cbv; intuition congruence|]. split; reflexivity. Qed.

(** ** C90: a planar image without bands can be destroyed, any other cannot. *)
Theorem C90_destroy : forall A (zero : A) M w h n, 0 <= n -> let '(M', P) := p_new zero M w h n in
  (0 < n -> p_destroy M' P = Undef) /\ (n = 0 -> p_destroy M' P = Ok (M ++ [None])).
Proof. exact @planar_destroy. Qed.
Print Assumptions C90_destroy.
Theorem C90_refuted : exists w h n M (P : planar Z), size_ok w h /\ p_new 0 [] w h n = (M, P) /\ planar_of 0 P /\ p_destroy M P = Undef.
Proof.
  exists 2, 1, 3. do 2 eexists. split; [unfold size_ok; lia|]. split; [reflexivity|].
  split; [apply (PO_new 0 [] 2 1 3); unfold size_ok; lia|]. reflexivity.
Qed.
Print Assumptions C90_refuted.

(** The default constructor gives an image without bands; it can be reshaped and destroyed. *)
Theorem C89_default : forall A (zero : A) M, let '(M', P) := p_default zero M in
  p_num P = 0 /\ p_width P = 0 /\ p_height P = 0 /\ (forall k, 0 <= k -> p_band P k = Throw) /\
  (exists M2, p_destroy M' P = Ok M2) /\
  forall w h, exists P', p_reshape zero P w h = Ok P' /\ p_num P' = 0 /\ p_width P' = w /\ p_height P' = h.
Proof. exact @planar_default. Qed.
Print Assumptions C89_default.
Example C89_default_ex : p_band (snd (p_default 0 [])) 0 = Throw.
Proof. reflexivity. Qed.
