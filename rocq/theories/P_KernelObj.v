(** Theorems about kernels as containers (C97) and random kernels (C98). *)
From Verif Require Import Base BaseFacts M_GrowArray S_GrowArray M_Convolve M_Kernel M_KernelObj S_KernelObj S_Blur L_KernelObj.
From Coq Require Import Lia.

(** Every history of a kernel: construction fails exactly for an offset outside (or rows of another length), new kernels are
    zero, there are always as many coefficients as the width demands, checked access reaches exactly these, and every call
    changes what it should and nothing else. *)
Theorem C97_container : forall E (m : memtype E), 1 <= mt_size m -> mt_set m (mt_zero m) = mt_zero m ->
  forall (i : kinit E) (h : list (kop E)), kinit_ok i -> Forall (kop_ok (kinit_two i)) h ->
  (kstart m i = Throw <-> kinit_fails i) /\
  (~ kinit_fails i -> exists k0 k, kstart m i = Ok k0 /\
     ko_two k0 = kinit_two i /\ ko_width k0 = kinit_width i /\ ko_offset k0 = kinit_offset i /\ kcoefs k0 = map Some (kinit_coefs (mt_zero m) i) /\
     krun m k0 h = Ok k /\ ko_two k = kinit_two i /\ kcomplete k /\
     (forall x, ko_two k = false -> 0 <= x < 4294967296 ->
        (ko_at k x = Throw <-> ko_width k <= x) /\ forall v, ko_at k x = Ok v <-> znth (kcoefs k) x = Some (Some v)) /\
     (forall x y, ko_two k = true -> 0 <= x < 4294967296 -> 0 <= y < 4294967296 ->
        (ko_at2 k x y = Throw <-> ko_width k <= x \/ ko_width k <= y) /\
        forall v, ko_at2 k x y = Ok v <-> x < ko_width k /\ y < ko_width k /\ znth (kcoefs k) (y * ko_width k + x) = Some (Some v)) /\
     forall o, kop_ok (ko_two k) o -> (kexec m k o = Throw <-> kthrows k o) /\
       (~ kthrows k o -> exists k', kexec m k o = Ok k' /\ kstep k o k')).
Proof. exact @container. Qed.
Print Assumptions C97_container.
Definition C97_init : kinit Z := KI_lists 1 [[1; 2; 3]; [4; 5; 6]; [7; 8; 9]].
Definition C97_history : list (kop Z) := [KPut2 0 2 50; KPut2 3 0 1; KReshape 4 2; KPut2 3 3 (-1)].
Example C97_container_ex : kinit_ok C97_init /\ ~ kinit_fails C97_init /\ Forall (kop_ok (kinit_two C97_init)) C97_history /\
  exists k0 k, kstart (int_mem S32) C97_init = Ok k0 /\ krun (int_mem S32) k0 C97_history = Ok k /\
    kcoefs k = map Some [1; 2; 3; 4; 5; 6; 50; 8; 9; 0; 0; 0; 0; 0; 0; -1].
Proof.
  split; [cbn; unfold kwidth_ok, zlen; cbn; lia|]. split; [intros (r & [<-|[<-|[<-|[]]]] & N); apply N; reflexivity|].
  split; [repeat constructor; cbn; lia|]. do 2 eexists. split; [vm_compute; reflexivity|]. split; vm_compute; reflexivity.
Qed.

(** The kernels of the theorems about convolution are these objects. *)
Theorem C97_kernels : forall E (m : memtype E) (i : kinit E) k, 1 <= mt_size m -> mt_set m (mt_zero m) = mt_zero m -> kinit_ok i -> kstart m i = Ok k ->
  exists K, match i with
            | KI_new two w off => (if two then kernel2_new (mt_zero m) w off else kernel1_new (mt_zero m) w off)
            | KI_width two w => (if two then kernel2_width (mt_zero m) w else kernel1_width (mt_zero m) w)
            | KI_list off l => kernel1_of_list off l
            | KI_lists off l => kernel2_of_lists off l
            end = Ok K /\ is_kernel k K.
Proof. exact @kernels_agree. Qed.
Print Assumptions C97_kernels.
Example C97_kernels_ex : kinit_ok C97_init /\ exists k, kstart (int_mem S32) C97_init = Ok k.
Proof. split; [cbn; unfold kwidth_ok, zlen; cbn; lia|]. eexists. vm_compute. reflexivity. Qed.

(** Checked access to them. *)
Theorem C97_access : forall E (K : kernel E) x y v, kwidth_ok true (k_width K) -> zlen (k_data K) = k_width K * k_width K ->
  0 <= x < 4294967296 -> 0 <= y < 4294967296 ->
  (k2_at K x y = Throw <-> k_width K <= x \/ k_width K <= y) /\ (k2_put K x y v = Throw <-> k_width K <= x \/ k_width K <= y) /\
  (x < k_width K -> y < k_width K ->
     (exists c, k2_at K x y = Ok c /\ znth (k_data K) (y * k_width K + x) = Some c) /\
     exists K', k2_put K x y v = Ok K' /\ k_width K' = k_width K /\ k_offset K' = k_offset K /\ zlen (k_data K') = zlen (k_data K) /\
       forall j, znth (k_data K') j = if j =? y * k_width K + x then Some v else znth (k_data K) j).
Proof. exact @kernel_access. Qed.
Print Assumptions C97_access.
Example C97_access_ex : let K := mkKernel 2 0 [1; 2; 3; 4] in kwidth_ok true (k_width K) /\ zlen (k_data K) = k_width K * k_width K /\
  k2_at K 0 1 = Ok 3 /\ k2_at K 2 0 = Throw /\ k2_put K 1 0 9 = Ok (mkKernel 2 0 [1; 9; 3; 4]) /\ k2_put K 2 0 9 = Throw.
Proof. split; [unfold kwidth_ok; cbn; lia|]. repeat split. Qed.

(** What a kernel tells about itself: width^dimension coefficients, radius coefficients on each side of the middle one (of
    the middle for an even width), and operator[] is at without the check. *)
Theorem C97_info : forall E (k : kobj E) x, kcomplete k ->
  zlen (kcoefs k) = ko_width k ^ ko_dimension k /\
  (ko_width k mod 2 = 1 -> ko_width k = 2 * ko_radius k + 1) /\ (ko_width k mod 2 = 0 -> ko_width k = 2 * ko_radius k) /\
  (ko_two k = false -> 0 <= x < ko_width k -> ko_idx k x = ko_at k x).
Proof. exact @kernel_info. Qed.
Print Assumptions C97_info.
Example C97_info_ex : exists k, ko_lists (int_mem S32) 0 [[1; 2; 3]; [4; 5; 6]; [7; 8; 9]] = Ok k /\ kcomplete k /\ ko_radius k = 1 /\ ko_dimension k = 2.
Proof. eexists. split; [vm_compute; reflexivity|]. split; [|vm_compute; auto]. unfold kcomplete, kwidth_ok; vm_compute. intuition congruence. Qed.

(** Sum and extrema of integer kernels. *)
Theorem C97_statistics : forall t k l, t <> U32 -> kholds k l -> (forall v, In v l -> ity_min t <= v <= ity_max t) ->
  (zsum (map Z.abs l) <= ity_max (sum_type t) -> ko_sum t k = Ok (zsum l)) /\
  (l = [] -> ko_max k = Throw /\ ko_min k = Throw /\ ko_abs_max t k = Throw /\ ko_abs_min t k = Throw) /\
  (l <> [] -> (exists v, ko_max k = Ok v /\ In v l /\ forall u, In u l -> u <= v) /\ (exists v, ko_min k = Ok v /\ In v l /\ forall u, In u l -> v <= u)) /\
  (l <> [] -> (ity_signed t = true -> ~ In (ity_min t) l) ->
     (exists v, ko_abs_max t k = Ok v /\ In v (map Z.abs l) /\ forall u, In u l -> Z.abs u <= v) /\
     (exists v, ko_abs_min t k = Ok v /\ In v (map Z.abs l) /\ forall u, In u l -> v <= Z.abs u)).
Proof. exact kernel_stats. Qed.
Print Assumptions C97_statistics.
Example C97_statistics_ex : exists k, ko_list (int_mem S16) 1 [-7; 2; 5] = Ok k /\ kholds k [-7; 2; 5] /\
  ko_sum S16 k = Ok 0 /\ ko_max k = Ok 5 /\ ko_min k = Ok (-7) /\ ko_abs_max S16 k = Ok 7 /\ ko_abs_min S16 k = Ok 2.
Proof. eexists. split; [vm_compute; reflexivity|]. split; [split; reflexivity|]. vm_compute. auto. Qed.

(** A kernel constructed without arguments reports width 0 but has coefficients. *)
Theorem C97_default_refuted : exists k v, k = ko_default (int_mem S32) false /\ ko_width k = 0 /\ ko_at k 9 = Ok v /\ ko_max k = Ok 0.
Proof. exact kernel_default. Qed.
Print Assumptions C97_default_refuted.

(** [reshape] accepts an offset outside the kernel, which the constructor refuses. *)
Theorem C97_offset_refuted : exists k k', ko_new (int_mem S32) false 3 1 = Ok k /\ ko_reshape (int_mem S32) k 2 5 = Ok k' /\ ko_width k' <= ko_offset k'.
Proof. exact kernel_offset. Qed.
Print Assumptions C97_offset_refuted.

(** A square kernel of width 65536 is accepted but has no coefficients. *)
Theorem C97_large_refuted : exists k, ko_new (int_mem S32) true 65536 0 = Ok k /\ ko_at2 k 0 0 = Throw /\ ko_fill_uniform k (fun _ => 7) = Ok k.
Proof. exact kernel_large. Qed.
Print Assumptions C97_large_refuted.

(** [reshape] of a square kernel moves its coefficients to other places. *)
Theorem C97_rows_refuted : exists k k', ko_lists (int_mem S32) 0 [[1; 2]; [3; 4]] = Ok k /\ ko_at2 k 0 1 = Ok 3 /\
  ko_reshape (int_mem S32) k 3 0 = Ok k' /\ ko_at2 k' 0 1 = Ok 4.
Proof. exact kernel_rows. Qed.
Print Assumptions C97_rows_refuted.

(** The largest magnitude of a 16-bit kernel containing the smallest value is wrong; for 32 bits it is undefined. *)
Theorem C97_magnitude_refuted : exists k l v, ko_list (int_mem S16) 0 l = Ok k /\ l = [-32768; 1] /\ ko_abs_max S16 k = Ok v /\ exists u, In u l /\ v < Z.abs u.
Proof. exact kernel_abs_short. Qed.
Print Assumptions C97_magnitude_refuted.
Theorem C97_magnitude_undefined_refuted : exists k l, ko_list (int_mem S32) 0 l = Ok k /\ l = [1; -2147483648] /\ ko_abs_max S32 k = Undef.
Proof. exact kernel_abs_int. Qed.
Print Assumptions C97_magnitude_undefined_refuted.

(** Random kernels: exactly the coefficients are replaced, in order, by what the generator yields. *)
Theorem C98_fill : forall E (m : memtype E) (i : kinit E) (h : list (kop E)) k0 k rng (P : E -> Prop), 1 <= mt_size m -> mt_set m (mt_zero m) = mt_zero m ->
  kinit_ok i -> Forall (kop_ok (kinit_two i)) h -> kstart m i = Ok k0 -> krun m k0 h = Ok k -> (forall n, P (rng n)) ->
  exists k', ko_fill_uniform k rng = Ok k' /\ ko_width k' = ko_width k /\ ko_offset k' = ko_offset k /\
    kcoefs k' = map Some (map rng (map Z.of_nat (seq 0 (Z.to_nat (kcount (ko_two k) (ko_width k)))))) /\
    (forall x v, ko_at k' x = Ok v -> 0 <= x -> P v) /\ forall x y v, ko_two k = true -> 0 <= x -> 0 <= y -> ko_at2 k' x y = Ok v -> P v.
Proof. exact @random_kernel. Qed.
Print Assumptions C98_fill.
Example C98_fill_ex : exists k0 k k', kstart (int_mem S32) C97_init = Ok k0 /\ krun (int_mem S32) k0 [KReshape 2 0] = Ok k /\
  Forall (kop_ok (kinit_two C97_init)) [@KReshape Z 2 0] /\ (forall n, 5 <= 5 + n mod 3 < 8) /\
  ko_fill_uniform k (fun n => 5 + n mod 3) = Ok k' /\ kcoefs k' = map Some [5; 6; 7; 5] /\ ko_at2 k' 0 1 = Ok 7.
Proof.
  do 3 eexists. split; [vm_compute; reflexivity|]. split; [vm_compute; reflexivity|]. split; [repeat constructor; cbn; lia|].
  split; [intros n; pose proof (Z.mod_pos_bound n 3); lia|]. split; [vm_compute; reflexivity|]. split; vm_compute; reflexivity.
Qed.

(** The numbers asked for lie between the arguments, the upper one excluded. *)
Theorem C98_range : forall t lo hi, t <> U32 -> ity_min t <= lo -> hi <= ity_max t -> lo < hi -> ko_uniform_range t lo hi = Ok (lo, hi - 1).
Proof. exact uniform_range. Qed.
Print Assumptions C98_range.
Example C98_range_ex : ity_min S16 <= -5 /\ 8 <= ity_max S16 /\ ko_uniform_range S16 (-5) 8 = Ok (-5, 7).
Proof. vm_compute. intuition discriminate. Qed.

(** An empty range is not refused: the generator is used outside its contract. *)
Theorem C98_empty_refuted : exists lo hi, ity_min S32 <= lo <= ity_max S32 /\ ity_min S32 <= hi <= ity_max S32 /\ lo = hi /\ ko_uniform_range S32 lo hi = Undef.
Proof. exact random_empty_range. Qed.
Print Assumptions C98_empty_refuted.
