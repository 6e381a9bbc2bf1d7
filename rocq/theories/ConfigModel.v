(** Model of how the configuration of a run comes about: defaults, configuration file, command line. *)
From stdpp Require Import base numbers list.
From Verif Require Import CppBase.

(** src/parser/config/JsonParams.h 27-84: the keys of a configuration file *)
Inductive key :=
  | use_cuda | use_vectorized_exec | use_vectorized_restricted | use_obj_ref_mgnt | use_optimistic_splitting | use_ipa_const_propa | use_phy_op_selection
  | use_mlir_codegen | use_columnar | matmul_vec_size_bits | matmul_tile | matmul_fixed_tile_sizes | matmul_use_fixed_tile_sizes | matmul_unroll_factor
  | matmul_unroll_jam_factor | matmul_num_vec_registers | matmul_invert_loops | cuda_fuse_any | vectorized_single_queue | debug_llvm
  | explain_columnar | explain_kernels | explain_llvm | explain_parsing | explain_parsing_simplified | explain_property_inference
  | explain_select_matrix_repr | explain_transfer_data_props | explain_sql | explain_phy_op_selection | explain_type_adaptation | explain_vectorized
  | explain_obj_ref_mgnt | explain_mlir_codegen | explain_codegen_fusion | explain_codegen_daphneir | explain_codegen_mlir
  | taskPartitioningScheme | numberOfThreads | minimumTaskSize | phyBatchSize | useHdfs | hdfsAddress | hdfsUsername | libdir
  | daphnedsl_import_paths | logging | force_cuda | sparsity_threshold | enable_property_recording | enable_property_insert | properties_file_path.
Global Instance key_eq : EqDecision key.
Proof. solve_decision. Defined.

(** Values: truth values, numbers, strings (and structured values that are not looked into) by their characters, lists of numbers *)
Inductive cval := VB (b : bool) | VZ (z : Z) | VS (s : list nat) | VL (l : list nat).
Global Instance cval_eq : EqDecision cval.
Proof. solve_decision. Defined.

(** src/parser/config/ConfigParser.cpp 47-183: get<...>() of a value of another kind throws; so does an unknown partitioning scheme.  Simplifications: numbers are
    integers (the sparsity threshold in some unit), schemes are
    numbers below 12 (AUTO, the 13th, has no name in the file), a truth value in place of a number is an error for all keys; the devices are left out. *)
Definition kind_ok (k : key) (v : cval) : bool :=
  match k with
  | matmul_vec_size_bits | matmul_unroll_factor | matmul_unroll_jam_factor | matmul_num_vec_registers | numberOfThreads | minimumTaskSize | phyBatchSize
  | sparsity_threshold => match v with VZ _ => true | _ => false end
  | taskPartitioningScheme => match v with VZ z => bool_decide (0 <= z < 12)%Z | _ => false end
  | matmul_fixed_tile_sizes => match v with VL _ => true | _ => false end
  | hdfsAddress | hdfsUsername | libdir | daphnedsl_import_paths | logging | properties_file_path => match v with VS _ => true | _ => false end
  | _ => match v with VB _ => true | _ => false end
  end.
(** A configuration file: its expected keys with their values, and whether there are others *)
Record cfile := mkFile { f_other : bool; f_val : key -> option cval }.
Definition all_keys : list key :=
  [use_cuda; use_vectorized_exec; use_vectorized_restricted; use_obj_ref_mgnt; use_optimistic_splitting; use_ipa_const_propa; use_phy_op_selection;
   use_mlir_codegen; use_columnar; matmul_vec_size_bits; matmul_tile; matmul_fixed_tile_sizes; matmul_use_fixed_tile_sizes; matmul_unroll_factor;
   matmul_unroll_jam_factor; matmul_num_vec_registers; matmul_invert_loops; cuda_fuse_any; vectorized_single_queue; debug_llvm;
   explain_columnar; explain_kernels; explain_llvm; explain_parsing; explain_parsing_simplified; explain_property_inference;
   explain_select_matrix_repr; explain_transfer_data_props; explain_sql; explain_phy_op_selection; explain_type_adaptation; explain_vectorized;
   explain_obj_ref_mgnt; explain_mlir_codegen; explain_codegen_fusion; explain_codegen_daphneir; explain_codegen_mlir;
   taskPartitioningScheme; numberOfThreads; minimumTaskSize; phyBatchSize; useHdfs; hdfsAddress; hdfsUsername; libdir;
   daphnedsl_import_paths; logging; force_cuda; sparsity_threshold; enable_property_recording; enable_property_insert; properties_file_path].
Definition str_properties : list nat := [112; 114; 111; 112; 101; 114; 116; 105; 101; 115; 46; 106; 115; 111; 110].
Definition str_libdir : list nat := [123; 101; 120; 101; 100; 105; 114; 125; 47; 46; 46; 47; 108; 105; 98].
(** src/api/cli/DaphneUserConfig.h 40-132: the defaults.  Those of logging and of import paths are empty. *)
Definition fdef (k : key) : cval :=
  match k with
  | use_obj_ref_mgnt | use_ipa_const_propa | use_phy_op_selection => VB true
  | matmul_vec_size_bits => VZ 0 | matmul_unroll_factor => VZ 1 | matmul_unroll_jam_factor => VZ 4 | matmul_num_vec_registers => VZ 16
  | matmul_fixed_tile_sizes => VL [4; 4]
  | taskPartitioningScheme => VZ 0 | numberOfThreads => VZ (-1) | minimumTaskSize => VZ 1 | phyBatchSize => VZ 98304
  | hdfsAddress | hdfsUsername | daphnedsl_import_paths | logging => VS []
  | libdir => VS str_libdir | properties_file_path => VS str_properties | sparsity_threshold => VZ 25
  | _ => VB false
  end.
(** src/parser/config/ConfigParser.cpp 41-183: readUserConfig *)
Definition read_config (f : cfile) : outcome (key -> cval) :=
  if f_other f then Throw
  else if forallb (fun k => match f_val f k with Some v => kind_ok k v | None => true end) all_keys
       then Ok (fun k => match f_val f k with Some v => v | None => fdef k end)
       else Throw.

(** The command line: which keys have an option, and its default (src/api/internal/daphne_internal.cpp 138-370).  Options that switch something
    off are taken as the value they stand for. *)
Definition has_option (k : key) : bool :=
  match k with
  | matmul_use_fixed_tile_sizes | cuda_fuse_any | vectorized_single_queue | debug_llvm | daphnedsl_import_paths | logging | force_cuda | sparsity_threshold => false
  | _ => true
  end.
Definition cdef (k : key) : cval :=
  match k with
  | numberOfThreads => VZ 0 | matmul_fixed_tile_sizes => VL [] | libdir => VS []
  | _ => fdef k
  end.
Definition cmdline := key -> option cval.
Definition clv (c : cmdline) (k : key) : cval := match c k with Some v => v | None => cdef k end.
(** src/api/internal/daphne_internal.cpp 419-590: the final value of each key.  Not modelled: the placeholder in libdir, options without keys. *)
Definition merge (device : bool) (cfg : key -> cval) (c : cmdline) (k : key) : cval :=
  match k with
  (* 419-432, 444, 455-456, 462-466, 552-554: set to the value of the option *)
  | use_vectorized_exec | use_vectorized_restricted | use_obj_ref_mgnt | use_ipa_const_propa | use_phy_op_selection | use_mlir_codegen
  | matmul_vec_size_bits | matmul_unroll_factor | matmul_unroll_jam_factor | matmul_num_vec_registers | matmul_invert_loops
  | taskPartitioningScheme | minimumTaskSize | phyBatchSize | use_columnar | use_optimistic_splitting
  | enable_property_recording | enable_property_insert | properties_file_path => clv c k
  (* 426, 432-437 *)
  | matmul_tile => if decide (clv c matmul_fixed_tile_sizes = VL []) then clv c k else VB true
  | matmul_use_fixed_tile_sizes => if decide (clv c matmul_fixed_tile_sizes = VL []) then cfg k else VB true
  | matmul_fixed_tile_sizes => if decide (clv c k = VL []) then cfg k else clv c k
  (* 440-441, 449-453, 477-485 *)
  | libdir | hdfsAddress | hdfsUsername => if decide (clv c k = VS []) then cfg k else clv c k
  | numberOfThreads => if decide (clv c k = VZ 0) then cfg k else clv c k
  | useHdfs => if decide (clv c k = VB true) then clv c k else cfg k
  (* 497-550 *)
  | explain_columnar | explain_kernels | explain_llvm | explain_parsing | explain_parsing_simplified | explain_property_inference
  | explain_select_matrix_repr | explain_transfer_data_props | explain_sql | explain_phy_op_selection | explain_type_adaptation | explain_vectorized
  | explain_obj_ref_mgnt | explain_mlir_codegen | explain_codegen_fusion | explain_codegen_daphneir | explain_codegen_mlir =>
      if decide (clv c k = VB true) then VB true else cfg k
  (* 580-591 *)
  | use_cuda => if decide (clv c k = VB true) then if device then VB true else cfg k else cfg k
  | cuda_fuse_any | vectorized_single_queue | debug_llvm | daphnedsl_import_paths | logging | force_cuda | sparsity_threshold => cfg k
  end.
(** src/api/internal/daphne_internal.cpp 406-590: with the checks of combinations; [hdfs]: built with HDFS.  [f]: the file named on the command line, if
    any; a file that cannot be opened (None inside) is skipped after a warning (ConfigParser.cpp 31-39) *)
Definition start (hdfs device : bool) (f : option (option cfile)) (c : cmdline) : outcome (key -> cval) :=
  let* cfg := match f with Some (Some f) => read_config f | _ => Ok fdef end in
  let r := merge device cfg c in
  if decide (clv c use_optimistic_splitting = VB true /\ clv c use_columnar <> VB true) then Throw
  else if decide (r useHdfs = VB true /\ hdfs = false) then Throw
  else if decide (r enable_property_recording = VB true /\ r enable_property_insert = VB true) then Throw
  else Ok r.
