(** C94: configuration file and command line. *)
From stdpp Require Import base numbers list.
From Coq Require Import Lia.
From Verif Require Import CppBase ConfigModel.

(** Specification.  The documented cascade: what the command line says, else what the file says, else the default. *)
Definition cascade (f : key -> option cval) (c : key -> option cval) (k : key) : cval :=
  match c k with Some v => v | None => match f k with Some v => v | None => fdef k end end.
(** The keys for which the file counts for nothing *)
Definition dead : list key :=
  [use_vectorized_exec; use_vectorized_restricted; use_obj_ref_mgnt; use_ipa_const_propa; use_phy_op_selection; use_mlir_codegen;
   matmul_vec_size_bits; matmul_tile; matmul_unroll_factor; matmul_unroll_jam_factor; matmul_num_vec_registers; matmul_invert_loops;
   taskPartitioningScheme; minimumTaskSize; phyBatchSize; use_columnar; use_optimistic_splitting; enable_property_recording; enable_property_insert;
   properties_file_path].
(** A command line that can be written: only options that exist, with values of their kind (or the scheme AUTO, 12) *)
Definition cl_ok (c : cmdline) : Prop := forall k v, c k = Some v -> has_option k = true /\ (kind_ok k v = true \/ k = taskPartitioningScheme /\ v = VZ 12).

Lemma start_Ok : forall h d f c r, start h d f c = Ok r ->
  exists cfg, match f with Some (Some f) => read_config f | _ => Ok fdef end = Ok cfg /\ r = merge d cfg c.
Proof.
  intros h d f c r E. unfold start in E.
  destruct (match f with Some (Some f) => read_config f | _ => Ok fdef end) as [cfg| |] eqn:Ec; cbn [obind] in E; try discriminate.
  exists cfg. split; [reflexivity|].
  repeat match type of E with context [decide ?P] => destruct (decide P) in E; try discriminate end. congruence.
Qed.
Lemma read_Ok : forall f cfg, read_config f = Ok cfg ->
  f_other f = false /\ (forall k v, f_val f k = Some v -> kind_ok k v = true) /\ cfg = fun k => match f_val f k with Some v => v | None => fdef k end.
Proof.
  intros f cfg E. unfold read_config in E. destruct (f_other f); [discriminate|].
  destruct (forallb _ all_keys) eqn:F; [|discriminate]. injection E as E. split; [reflexivity|]. split; [|congruence].
  intros k v Hv. rewrite forallb_forall in F. specialize (F k). cbv beta in F. rewrite Hv in F. apply F.
  destruct k; unfold all_keys; cbn [In]; tauto.
Qed.

(** The right kind of a value is that of the default; a partitioning scheme is moreover one of the twelve that have a name in the file *)
Definition same_kind (v w : cval) : Prop :=
  match v, w with VB _, VB _ | VZ _, VZ _ | VS _, VS _ | VL _, VL _ => True | _, _ => False end.
Theorem C94_kinds : forall k v,
  kind_ok k v = true <-> same_kind v (fdef k) /\ (k = taskPartitioningScheme -> exists z, v = VZ z /\ (0 <= z < 12)%Z).
Proof.
  intros k v. destruct k; destruct v as [b|z|s|l]; cbn [kind_ok fdef same_kind];
    try (split; [discriminate|intros [[] _]]); try (split; [intros _; split; [exact I|discriminate]|reflexivity]).
  rewrite bool_decide_eq_true. split; [intros H; split; [exact I|eauto]|]. intros [_ H]. destruct (H eq_refl) as (z' & E & H'). injection E as ->. exact H'.
Qed.
(** A file with an unexpected key, or a value of the wrong kind, is an error, whatever the command line *)
Theorem C94_bad_file : forall h d f c,
  f_other f = true \/ (exists k v, f_val f k = Some v /\ kind_ok k v = false) -> start h d (Some (Some f)) c = Throw.
Proof.
  intros h d f c B. unfold start. enough (E : read_config f = Throw) by (rewrite E; reflexivity).
  destruct (read_config f) as [cfg| |] eqn:E; [exfalso|reflexivity|exfalso].
  - apply read_Ok in E. destruct E as (E1 & E2 & _). destruct B as [B|(k & v & B1 & B2)]; [congruence|]. rewrite (E2 _ _ B1) in B2. discriminate.
  - unfold read_config in E. destruct (f_other f); [discriminate|]. destruct (forallb _ _); discriminate.
Qed.
(** The command line alone follows the cascade, except for what is implied by tile sizes, devices that do not exist, and explicit zeros and empty strings *)
Definition unset (k : key) (v : cval) : bool :=
  match k with
  | numberOfThreads => bool_decide (v = VZ 0) | libdir | hdfsAddress | hdfsUsername => bool_decide (v = VS [])
  | matmul_fixed_tile_sizes => bool_decide (v = VL [])
  | useHdfs | use_cuda => bool_decide (v = VB false)
  | explain_columnar | explain_kernels | explain_llvm | explain_parsing | explain_parsing_simplified | explain_property_inference
  | explain_select_matrix_repr | explain_transfer_data_props | explain_sql | explain_phy_op_selection | explain_type_adaptation | explain_vectorized
  | explain_obj_ref_mgnt | explain_mlir_codegen | explain_codegen_fusion | explain_codegen_daphneir | explain_codegen_mlir => bool_decide (v = VB false)
  | _ => false
  end.
Theorem C94_command_line_wins : forall h d f c r k v,
  cl_ok c -> start h d f c = Ok r -> c k = Some v -> unset k v = false ->
  (k = use_cuda -> d = true) -> (k = matmul_tile -> clv c matmul_fixed_tile_sizes = VL []) -> r k = v.
Proof.
  intros h d f c r k v W E Hk U Hd Ht. apply start_Ok in E. destruct E as (cfg & _ & ->). destruct (W k v Hk) as [Wo Wk'].
  assert (Wk : k = taskPartitioningScheme \/ kind_ok k v = true) by tauto. clear Wk'.
  assert (Ev : clv c k = v) by (unfold clv; rewrite Hk; reflexivity).
  destruct k; cbn [merge unset has_option kind_ok] in *; try discriminate; rewrite ?Ev; try reflexivity; destruct Wk as [Wk|Wk]; try discriminate;
    try (apply bool_decide_eq_false in U; rewrite decide_False by exact U; reflexivity);
    try (rewrite decide_True by (apply Ht; reflexivity); reflexivity);
    (destruct v as [[]| | |]; try discriminate; [rewrite decide_True by reflexivity; rewrite ?Hd by reflexivity; reflexivity]) || idtac.
Qed.
(** Where the file counts, it overrides the default, and it is what holds unless the command line says otherwise *)
Theorem C94_file_used : forall h d f c r k,
  start h d (Some (Some f)) c = Ok r -> k ∉ dead -> c k = None -> (k = matmul_use_fixed_tile_sizes -> c matmul_fixed_tile_sizes = None) ->
  r k = cascade (f_val f) c k.
Proof.
  intros h d f c r k E D Hk Ht. apply start_Ok in E. destruct E as (cfg & Ec & ->). apply read_Ok in Ec. destruct Ec as (_ & _ & ->).
  unfold cascade. rewrite Hk.
  assert (Ev : clv c k = cdef k) by (unfold clv; rewrite Hk; reflexivity).
  destruct k; try (exfalso; apply D; unfold dead; repeat (apply elem_of_list_here || apply elem_of_list_further); fail); cbn [merge]; rewrite ?Ev; cbn [cdef fdef];
    try reflexivity;
    unfold clv; rewrite ?Ht by reflexivity; reflexivity.
Qed.
(** FAILS: for twenty keys the file has no effect: any two runs with the same command line end with the same value, that of the option or its default *)
Theorem C94_file_ignored_refuted : forall h d f c r k,
  start h d f c = Ok r -> k ∈ dead -> (k = matmul_tile -> c matmul_fixed_tile_sizes = None) ->
  r k = match c k with Some v => v | None => fdef k end.
Proof.
  intros h d f c r k E D Ht. apply start_Ok in E. destruct E as (cfg & _ & ->).
  unfold dead in D. repeat (apply elem_of_cons in D; destruct D as [->|D]); try (apply elem_of_nil in D; destruct D);
    cbn [merge]; try reflexivity.
  assert (Ev : clv c matmul_fixed_tile_sizes = VL []) by (unfold clv; rewrite Ht by reflexivity; reflexivity).
  rewrite decide_True by exact Ev. reflexivity.
Qed.
(** ... so for each of them the cascade is violated by some file, accepted without a word *)
Definition other (k : key) : cval :=
  match fdef k with VB b => VB (negb b) | VZ z => VZ (1 + z) | VS s => VS (0 :: s) | VL l => VL (0 :: l) end.
Definition only (k : key) (v : cval) : key -> option cval := fun k' => if decide (k' = k) then Some v else None.
Theorem C94_cascade_refuted : forall h d k, k ∈ dead ->
  exists f r, start h d (Some (Some f)) (fun _ => None) = Ok r /\ f_other f = false /\ r k <> cascade (f_val f) (fun _ => None) k.
Proof.
  intros h d k D.
  assert (K : kind_ok k (other k) = true /\ other k <> fdef k /\ k <> useHdfs /\ k <> matmul_fixed_tile_sizes).
  { unfold dead in D. repeat (apply elem_of_cons in D; destruct D as [->|D]); try (apply elem_of_nil in D; destruct D); repeat split; discriminate. }
  destruct K as (K1 & K2 & K3 & K4). set (f := mkFile false (only k (other k))).
  assert (R : read_config f = Ok (fun k' => match f_val f k' with Some v => v | None => fdef k' end)).
  { unfold read_config. cbn [f_other f]. replace (forallb _ all_keys) with true; [reflexivity|]. symmetry. apply forallb_forall. intros k' _.
    cbn [f_val f]. unfold only. destruct (decide (k' = k)) as [->|]; [exact K1|reflexivity]. }
  destruct (start h d (Some (Some f)) (fun _ => None)) as [r| |] eqn:E.
  - exists f, r. split; [exact E|]. split; [reflexivity|].
    rewrite (C94_file_ignored_refuted _ _ _ _ _ _ E D) by reflexivity. unfold cascade. cbn [f_val f]. unfold only. rewrite decide_True by reflexivity. congruence.
  - exfalso. unfold start in E. rewrite R in E. cbn [obind] in E.
    rewrite decide_False in E by (intros [X _]; discriminate X).
    rewrite decide_False in E.
    2:{ intros [X _]. cbn [merge f_val f] in X. rewrite decide_False in X by discriminate. unfold only in X. rewrite decide_False in X by congruence. discriminate X. }
    rewrite decide_False in E by (intros [X _]; discriminate X). discriminate.
  - exfalso. unfold start in E. rewrite R in E. cbn [obind] in E.
    repeat match type of E with context [decide ?P] => destruct (decide P) in E; try discriminate end.
Qed.
(** FAILS: saying the value that stands for nothing (0 threads, an empty address, no explanation) on the command line does not override the file *)
Theorem C94_unset_refuted : forall h d f c r k v,
  start h d (Some (Some f)) c = Ok r -> c k = Some v -> unset k v = true ->
  r k = match f_val f k with Some w => w | None => fdef k end.
Proof.
  intros h d f c r k v E Hk U. apply start_Ok in E. destruct E as (cfg & Ec & ->). apply read_Ok in Ec. destruct Ec as (_ & _ & ->).
  assert (Ev : clv c k = v) by (unfold clv; rewrite Hk; reflexivity).
  destruct k; cbn [merge unset] in *; try discriminate; apply bool_decide_eq_true in U; subst v; rewrite Ev; reflexivity.
Qed.
(** Tile sizes given on the command line switch tiling with fixed sizes on, even against an explicit option *)
Theorem C94_tile_sizes : forall h d f c r l,
  start h d f c = Ok r -> c matmul_fixed_tile_sizes = Some (VL l) -> l <> [] ->
  r matmul_fixed_tile_sizes = VL l /\ r matmul_use_fixed_tile_sizes = VB true /\ r matmul_tile = VB true.
Proof.
  intros h d f c r l E Hk Hl. apply start_Ok in E. destruct E as (cfg & _ & ->).
  assert (Ev : clv c matmul_fixed_tile_sizes = VL l) by (unfold clv; rewrite Hk; reflexivity).
  assert (VL l <> VL []) by congruence. cbn [merge]. rewrite Ev, !decide_False by assumption. auto.
Qed.
(** FAILS: in the file they do not switch it on; nor can the file do so by the keys for it *)
Theorem C94_tiling_in_file_refuted : forall h d f r,
  start h d (Some (Some f)) (fun _ => None) = Ok r ->
  r matmul_tile = VB false /\ r matmul_fixed_tile_sizes = match f_val f matmul_fixed_tile_sizes with Some v => v | None => VL [4; 4] end.
Proof.
  intros h d f r E. apply start_Ok in E. destruct E as (cfg & Ec & ->). apply read_Ok in Ec. destruct Ec as (_ & _ & ->). split; reflexivity.
Qed.
(** Without any device, asking for one on the command line changes nothing; the file's word is taken without looking for a device *)
Theorem C94_device : forall h f c r, cl_ok c ->
  (start h false (Some (Some f)) c = Ok r -> r use_cuda = match f_val f use_cuda with Some v => v | None => VB false end) /\
  (start h true (Some (Some f)) c = Ok r -> c use_cuda = Some (VB true) -> r use_cuda = VB true).
Proof.
  intros h f c r W. split.
  - intros E. apply start_Ok in E. destruct E as (cfg & Ec & ->). apply read_Ok in Ec. destruct Ec as (_ & _ & ->). cbn [merge].
    destruct (decide _); reflexivity.
  - intros E Hc. apply start_Ok in E. destruct E as (cfg & Ec & ->). cbn [merge]. unfold clv. rewrite Hc. reflexivity.
Qed.
(** A run is refused exactly for a bad file, optimistic splitting without columnar operations on the command line, distributed file systems that were not
    built, and recording together with inserting *)
Theorem C94_refused : forall h d f c,
  start h d f c = Throw <->
  (exists g, f = Some (Some g) /\ (f_other g = true \/ exists k v, f_val g k = Some v /\ kind_ok k v = false)) \/
  (clv c use_optimistic_splitting = VB true /\ clv c use_columnar <> VB true) \/
  (h = false /\ (clv c useHdfs = VB true \/ exists g, f = Some (Some g) /\ f_val g useHdfs = Some (VB true))) \/
  (clv c enable_property_recording = VB true /\ clv c enable_property_insert = VB true).
Proof.
  intros h d f c. split.
  - intros E.
    assert (G : (exists g, f = Some (Some g) /\ read_config g = Throw) \/
      exists cfg, match f with Some (Some f) => read_config f | _ => Ok fdef end = Ok cfg).
    { destruct f as [[g|]|]; [|right; eexists; reflexivity..]. destruct (read_config g) eqn:R; [right; eauto|left; eauto|].
      unfold read_config in R. destruct (f_other g); [discriminate|]. destruct (forallb _ _); discriminate. }
    destruct G as [(g & -> & R)|(cfg & R)].
    + left. exists g. split; [reflexivity|]. unfold read_config in R. destruct (f_other g); [left; reflexivity|right].
      destruct (forallb _ all_keys) eqn:F; [discriminate|].
      assert (X : exists k, k ∈ all_keys /\ (match f_val g k with Some v => kind_ok k v | None => true end) = false).
      { clear R. induction all_keys as [|k l IH]; [discriminate|]. cbn [forallb] in F. apply andb_false_iff in F. destruct F as [F|F].
        - exists k. split; [apply elem_of_list_here|exact F].
        - destruct (IH F) as (k' & H1 & H2). exists k'. split; [apply elem_of_list_further; exact H1|exact H2]. }
      destruct X as (k & _ & X). destruct (f_val g k) as [v|] eqn:V; [|discriminate]. eauto.
    + right. unfold start in E. rewrite R in E. cbn [obind] in E.
      destruct (decide _) as [H|_] in E; [left; exact H|]. right.
      destruct (decide _) as [[H1 H2]|_] in E.
      * left. split; [exact H2|]. cbn [merge] in H1. destruct (decide (clv c useHdfs = VB true)) as [H|_]; [left; exact H|right].
        destruct f as [[g|]|]; [|injection R as <-; discriminate..]. exists g. split; [reflexivity|].
        apply read_Ok in R. destruct R as (_ & _ & ->). destruct (f_val g useHdfs); [congruence|discriminate].
      * right. destruct (decide _) as [H|_] in E; [exact H|discriminate].
  - intros H. destruct (match f with Some (Some f) => read_config f | _ => Ok fdef end) as [cfg| |] eqn:R.
    + unfold start. rewrite R. cbn [obind].
      destruct (decide (clv c use_optimistic_splitting = VB true /\ clv c use_columnar <> VB true)) as [_|N1]; [reflexivity|].
      destruct (decide _) as [_|N2]; [reflexivity|]. destruct (decide _) as [_|N3]; [reflexivity|exfalso].
      destruct H as [(g & -> & B)|[H|[[-> H]|H]]].
      * pose proof (C94_bad_file h d g c B) as X. unfold start in X. rewrite R in X. cbn [obind] in X.
        apply read_Ok in R. destruct R as (R1 & R2 & _). destruct B as [B|(k & v & B1 & B2)]; [congruence|]. rewrite (R2 _ _ B1) in B2. discriminate.
      * auto.
      * apply N2. split; [|reflexivity]. cbn [merge]. destruct (decide _) as [X|X]; [exact X|]. destruct H as [H|(g & -> & H)]; [contradiction|].
        apply read_Ok in R. destruct R as (_ & _ & ->). cbv beta. rewrite H. reflexivity.
      * apply N3. exact H.
    + unfold start. rewrite R. reflexivity.
    + exfalso. destruct f as [[g|]|]; try discriminate. unfold read_config in R. destruct (f_other g); [discriminate|]. destruct (forallb _ _); discriminate.
Qed.
(** FAILS: a file that cannot be opened is skipped: the run is the one without a file *)
Theorem C94_missing_file_refuted : forall h d c, start h d (Some None) c = start h d None c.
Proof. reflexivity. Qed.
(** FAILS: columnar operations asked for in the file do not count for the check of optimistic splitting *)
Theorem C94_columnar_in_file_refuted : forall h d f c, f_val f use_columnar = Some (VB true) ->
  c use_optimistic_splitting = Some (VB true) -> c use_columnar = None -> start h d (Some (Some f)) c = Throw.
Proof.
  intros h d f c _ H1 H2. apply C94_refused. right. left. unfold clv. rewrite H1, H2. split; [reflexivity|discriminate].
Qed.
(** Without file and options every key has its default: what is on is reference counting, constant propagation between functions and the selection of
    physical operators; this is also what the option parser has as defaults, except for values that stand for nothing *)
Theorem C94_no_configuration : forall h d, exists r, start h d None (fun _ => None) = Ok r /\ (forall k, r k = fdef k) /\
  forall k, r k = VB true <-> k = use_obj_ref_mgnt \/ k = use_ipa_const_propa \/ k = use_phy_op_selection.
Proof.
  intros h d. exists (merge d fdef (fun _ => None)). split; [destruct h; reflexivity|].
  assert (E : forall k, merge d fdef (fun _ => None) k = fdef k) by (intros k; destruct k; reflexivity).
  split; [exact E|]. intros k. rewrite E. destruct k; cbn [fdef]; split; try discriminate; try tauto; intros [H|[H|H]]; discriminate.
Qed.
(** A case: the file asks for vectorized execution, 8 threads and a library directory, the command line for 2 threads and recording *)
Theorem C94_example :
  let f := mkFile false (fun k => match k with use_vectorized_exec => Some (VB true) | numberOfThreads => Some (VZ 8) | libdir => Some (VS [47]) | _ => None end) in
  let c := fun k => match k with numberOfThreads => Some (VZ 2) | enable_property_recording => Some (VB true) | _ => None end in
  cl_ok c /\ exists r, start false false (Some (Some f)) c = Ok r /\ r numberOfThreads = VZ 2 /\ r libdir = VS [47] /\ r use_vectorized_exec = VB false /\
    r enable_property_recording = VB true /\ r phyBatchSize = VZ 98304.
Proof.
  split.
  - intros k v H. destruct k; try discriminate; injection H as <-; split; auto.
  - eexists. split; [reflexivity|]. repeat split.
Qed.

Print Assumptions C94_kinds.
Print Assumptions C94_bad_file.
Print Assumptions C94_command_line_wins.
Print Assumptions C94_file_used.
Print Assumptions C94_file_ignored_refuted.
Print Assumptions C94_cascade_refuted.
Print Assumptions C94_unset_refuted.
Print Assumptions C94_tile_sizes.
Print Assumptions C94_tiling_in_file_refuted.
Print Assumptions C94_device.
Print Assumptions C94_refused.
Print Assumptions C94_missing_file_refuted.
Print Assumptions C94_columnar_in_file_refuted.
Print Assumptions C94_no_configuration.
Print Assumptions C94_example.
