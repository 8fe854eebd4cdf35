{
 "claims": [
  {
   "property": "C01",
   "status": "partial",
   "theorems": [
    "C01_zeros",
    "C01_eye",
    "C01_eye_toeplitz_dim0",
    "C01_zeros_nested_toeplitz_refuted"
   ],
   "note": "Proved for every class tree and dimension except recursive classes in which a Toeplitz component gets dimension 0 (hypothesis dim_ok). The literal statement is refuted there: zeros raises RuntimeError."
  },
  {
   "property": "C02",
   "status": "partial",
   "theorems": [
    "C02_matmul",
    "C06_nested_hierarchical_refuted"
   ],
   "note": "Proved for all classes and dimensions >= 0 (Toeplitz: >= 1) except recursive classes with a hierarchical component, where the base-class round trip doubles entries (C06_nested_hierarchical_refuted), and objects with a non-standard partition."
  },
  {
   "property": "C03",
   "status": "partial",
   "theorems": [
    "C03_matmul_tensor",
    "C03_matmul_mismatch_partial",
    "C03_matmul_mismatch_diag_partial",
    "C03_toeplitz_no_columns_refuted",
    "C03_diag_mismatch_refuted"
   ],
   "note": "Product proved for all classes. Mismatching rows raise for all classes but diagonal; refuted for diagonal matrices when one of the sizes is 1 (silent broadcast), and Toeplitz raises for tensors without columns."
  },
  {
   "property": "C04",
   "status": "proved",
   "theorems": [
    "C04_rmatmat",
    "C03_toeplitz_no_columns_refuted"
   ],
   "note": "Proved for all classes but block-diagonal (excluded in the statement, see C05); Toeplitz for dimension and column count >= 1."
  },
  {
   "property": "C05",
   "status": "partial",
   "theorems": [
    "C05_block_rmatmat_actual",
    "C05_block_rmatmat_symmetric_partial",
    "C05_block_rmatmat_refuted",
    "C05_block_from_inner_refuted",
    "C05_optimizer_refuted"
   ],
   "note": "Refuted as stated: rmatmat and from_inner of block-diagonal matrices do not transpose, and the optimizer itself produces non-symmetric blocks (C05_optimizer_refuted). Proved for symmetric matrices."
  },
  {
   "property": "C06",
   "status": "partial",
   "theorems": [
    "C06_add",
    "C06_mul",
    "C06_add_inplace",
    "C06_mul_inplace",
    "C06_nested_hierarchical_refuted",
    "C06_nonstandard_partition_refuted"
   ],
   "note": "In-place versions proved for all classes; a + b and a * c proved except for recursive classes with a hierarchical component and non-standard partitions, where they are refuted."
  },
  {
   "property": "C07",
   "status": "proved",
   "theorems": [
    "C07_from_dense_symmetric",
    "C07_from_dense_rejects_nonsquare",
    "C14_toeplitz_part_dim0_refuted"
   ],
   "note": "Proved for every class tree and every dimension for which no Toeplitz part has dimension 0; the exception is C14_toeplitz_part_dim0_refuted."
  },
  {
   "property": "C08",
   "status": "partial",
   "theorems": [
    "C08_roundtrip_partial",
    "C08_hierarchical_roundtrip_refuted",
    "C06_nested_hierarchical_refuted",
    "C06_nonstandard_partition_refuted"
   ],
   "note": "Proved for all class trees without hierarchical components; refuted for hierarchical matrices."
  },
  {
   "property": "C09",
   "status": "proved",
   "theorems": [
    "C09_from_mat_inner",
    "C09_from_inner_some",
    "C09_from_inner_none",
    "C09_from_inner2"
   ],
   "note": "Proved for all classes but block-diagonal (excluded in the statement, see C05), as equality with from_dense of the dense product; also for non-symmetric XXT."
  },
  {
   "property": "C10",
   "status": "proved",
   "theorems": [
    "C10_average_trace"
   ],
   "note": "Proved for all classes, dimensions >= 1 and entries."
  },
  {
   "property": "C11",
   "status": "partial",
   "theorems": [
    "C11_diag_add",
    "C06_nested_hierarchical_refuted"
   ],
   "note": "Proved for all classes but recursive classes with a hierarchical component (see C06_nested_hierarchical_refuted)."
  },
  {
   "property": "C12",
   "status": "proved",
   "theorems": [
    "C12_infinity_vector_norm"
   ],
   "note": "Proved over the reals for all classes and dimensions >= 1."
  },
  {
   "property": "C13",
   "status": "partial",
   "theorems": [
    "C13_frobenius_norm",
    "C13_frobenius_dim0_refuted"
   ],
   "note": "Proved over the reals for all classes; dimension 0 of block-diagonal and hierarchical parts raises (refuted there)."
  },
  {
   "property": "C14",
   "status": "partial",
   "theorems": [
    "C14_recursive_any_nesting",
    "C14_toeplitz_part_dim0_refuted",
    "C12_infinity_vector_norm",
    "C13_frobenius_norm"
   ],
   "note": "Proved for every nesting of the recursive templates over hierarchical-free classes, as one conjunction; the dimension-0 Toeplitz part is refuted. C12/C13 for nestings are the theorems of those properties."
  },
  {
   "property": "C15",
   "status": "partial",
   "theorems": [
    "C15_hierarchical_ctor",
    "C15_recursive_ctor",
    "C15_block_ctor_accepts_partial",
    "C15_block_ctor_rejects_partial",
    "C15_block_ctor_refuted"
   ],
   "note": "Hierarchical and recursive constructors characterised exactly; block-diagonal constructor refuted (chained comparison accepts blocks of the wrong size)."
  },
  {
   "property": "C16",
   "status": "partial",
   "theorems": [
    "C16_toeplitz_matmul",
    "C16_toeplitz_matmul_rejects_partial",
    "C16_all_traces",
    "C16_toeplitz_even_length_refuted"
   ],
   "note": "Both functions proved; wrong lengths are rejected except even length 2N, refuted with a witness."
  },
  {
   "property": "C17",
   "status": "proved",
   "theorems": [
    "C17_lowest",
    "C17_unsupported",
    "C17_set"
   ],
   "note": "For all argument lists: the result is one of the arguments and of lowest rank among them (float16 < bfloat16 < float32), it depends only on the set of arguments, and NotImplementedError is raised exactly if an argument is unsupported."
  },
  {
   "property": "C18",
   "status": "partial",
   "theorems": [
    "C18_all_reduce_partial",
    "C18_layouts",
    "C18_optimizer_layouts",
    "C18_layout_refuted",
    "C18_recursive_refuted"
   ],
   "note": "Proved for all classes (recursive ones too), sizes, world sizes, both operations: with contiguous components every process ends with the sum or mean; for arbitrary layouts C18_layouts says exactly what happens (a component is reduced exactly where it is contiguous). \"All memory layouts\" does not hold: two witnesses (a dense matrix made from a transposed tensor; from_inner of a recursive structure). The matrices the optimizer reduces for the six supported structures are contiguous (C18_optimizer_layouts; the layouts of torch results are part of the model)."
  },
  {
   "property": "C19",
   "status": "partial",
   "theorems": [
    "C19_rejected",
    "C19_accepted",
    "C19_positive_refuted"
   ],
   "note": "Complete characterisation of the outcome of every constructor call proved (C19_rejected, C19_accepted). Refuted as documented: zero, negative ints, per-group negatives, negative damping and T=0 are accepted."
  },
  {
   "property": "C20",
   "status": "proved",
   "theorems": [
    "C20_rejected_iff",
    "C20_own_group",
    "C20_groups"
   ],
   "note": "For all models and groupings; the group used for a layer is the one its parameters were handed over in."
  },
  {
   "property": "C21",
   "status": "partial",
   "theorems": [
    "C21_layers",
    "C21_default_parameters",
    "C21_only_handed_partial",
    "C21_only_trained_layers",
    "C21_frozen_fails",
    "C21_weight_only_refuted",
    "C21_frozen_bias_refuted"
   ],
   "note": "Default parameters proved; only parameters of layers with a listed parameter change (all histories); only listed ones if layers are handed over as a whole. Refuted in general: listing only a weight trains the bias; a frozen bias makes every step raise."
  },
  {
   "property": "C22",
   "status": "proved",
   "theorems": [
    "C22_initial",
    "C22_kept"
   ],
   "note": "For every model, group layout and supported structure, after any history of calls (failing ones included) with layer-shaped inputs."
  },
  {
   "property": "C23",
   "status": "proved",
   "theorems": [
    "C23_step_counts",
    "C23_nothing_else_counts",
    "C23_change_only_when_due",
    "C23_opportunities"
   ],
   "note": "For arbitrary histories incl. failing calls and group edits: counter, nothing else counts, preconditioners/momenta change only in due non-skipped steps, counters seen by successful steps are 0..n-1 so ceil(n/T) are due."
  },
  {
   "property": "C24",
   "status": "partial",
   "theorems": [
    "C24_consumed",
    "C24_missing_fails",
    "C24_missing_keyerror",
    "C24_origin",
    "C24_not_collected",
    "C24_not_used",
    "C24_stale_backward_refuted"
   ],
   "note": "Consumption, missing statistics, origin of statistics, nothing collected/used at other steps proved for all histories; refuted: a backward pass made after the step of a forward pass made before it collects statistics at a non-update step."
  },
  {
   "property": "C25",
   "status": "proved",
   "theorems": [
    "C25_checkpoints",
    "C25_checkpoints_total",
    "C25_bookkeeping",
    "C25_previous_scale"
   ],
   "note": "For all histories of forward, backward, scale, scaler, step (successful, skipped, failing), group-edit and checkpoint calls (C25_checkpoints: saving at any time, loading any dictionary ever saved by this or another optimizer, failing loads included). Dictionaries are values as in C34; dictionaries that share objects with a running optimizer are C35."
  },
  {
   "property": "C26",
   "status": "partial",
   "theorems": [
    "C26_scaling",
    "C26_scaling_real",
    "C26_stale_refuted"
   ],
   "note": "Proved for every model, all structures, every sequence of positive scales (C26_scaling_real over R; C26_scaling over any scalars with roots), both ways of announcing the scale, overflow steps included, for training loops whose backward passes use outputs of the same iteration and which rewrite gradients in every iteration. Refuted otherwise (C26_stale_refuted): statistics of a backward pass through a kept graph of an earlier iteration are weighted with the wrong scales."
  },
  {
   "property": "C27",
   "status": "proved",
   "theorems": [
    "C27_skipped"
   ],
   "note": "For every state reachable by any history from any successful construction."
  },
  {
   "property": "C28",
   "status": "partial",
   "theorems": [
    "C28_statistics",
    "C28_update",
    "C28_rate",
    "C28_block_statistics_refuted"
   ],
   "note": "Statistics and update formulas proved for every reachable state, both variants, with and without momentum and normalisation, for all structures but block-diagonal; refuted for block-diagonal (missing transposes)."
  },
  {
   "property": "C29",
   "status": "partial",
   "theorems": [
    "C29_direction",
    "C29_not_ascent",
    "C29_block_ascent_refuted"
   ],
   "note": "Formula, inner product and its sign proved for every reachable state and all structures but block-diagonal; refuted for block-diagonal: a two-iteration run of a Linear(2, 1) layer has an ascent direction."
  },
  {
   "property": "C30",
   "status": "proved",
   "theorems": [
    "C30_closed_form"
   ],
   "note": "Closed form for parameter and buffer after any history without failing steps, with arbitrary learning rate and weight decay schedules and constant momentum; all structures."
  },
  {
   "property": "C31",
   "status": "partial",
   "theorems": [
    "C31_accumulation_partial",
    "C31_accumulation_regular_partial",
    "C31_accumulation_real_partial",
    "C31_kfac_like_refuted",
    "C31_sum_refuted",
    "C31_unequal_refuted"
   ],
   "note": "Proved for all training loops with averaged losses and the update that is not KFAC-like: cutting every batch into micro-batches of equal size leaves everything the optimizer holds unchanged, for all layers, structures, update intervals, schedules, scales and overflows. Refuted with witnesses for the KFAC-like update, for summed losses and for micro-batches of different sizes. C31_accumulation_regular_partial replaces the assumption that the whole-batch loop raises nothing by the condition `regular` on its calls."
  },
  {
   "property": "C32",
   "status": "partial",
   "theorems": [
    "C32_distributed_partial",
    "C32_distributed_real_partial",
    "C32_sum_refuted"
   ],
   "note": "Averaged losses: for all world sizes, batches split evenly, layers, six structures, both updates and all histories (overflows, exceptions, changed groups and scales) every process holds what the single process holds and all calls have the same outcomes. Summed losses (loss_average=None) do not have the property: C32_sum_refuted."
  },
  {
   "property": "C33",
   "status": "partial",
   "theorems": [
    "C33_collectives_partial",
    "C33_overflow_refuted",
    "C33_missing_gradient_refuted"
   ],
   "note": "For all world sizes and histories in which the processes make the same calls with tensors of the same shapes: no process blocks and all hold the same state. For arbitrary histories the property fails: an overflow seen by one process only, or a gradient missing on one process, makes the others wait forever (two witnesses)."
  },
  {
   "property": "C34",
   "status": "partial",
   "theorems": [
    "C34_resume",
    "C34_rollback",
    "C34_saves_partial",
    "C34_saves_fails",
    "C34_saves_refuted"
   ],
   "note": "Proved for every history and every checkpoint time, including checkpoints between backward passes and step, for continuations that use no hook or gradient from before the checkpoint; also for going back in the same optimizer. Refuted (C34_saves_refuted): if a trained layer has a parameter outside all groups (e.g. only the weight was handed in), momentum makes state_dict raise KeyError. The dictionary is a value here (written to a file or deep-copied); see C35."
  },
  {
   "property": "C35",
   "status": "partial",
   "theorems": [
    "C35_tracks",
    "C35_loads_once",
    "C35_coupled",
    "C35_separate",
    "C35_deepcopy_partial",
    "C35_snapshot_refuted",
    "C35_rollback_refuted",
    "C35_argument_refuted",
    "C35_coupled_refuted"
   ],
   "note": "In a heap model with shared objects. The property does not hold: the dictionary shows the current matrices, scales and momentum buffers whatever is trained later (C35_tracks, for all histories), loading always removes the attributes from its argument (C35_loads_once) and couples the optimizers for good (C35_coupled); each part has a witness (_refuted), including a rollback within one run after which the next backward pass raises KeyError. Proved for all histories: with a deep copy of the dictionary the snapshot never changes, loading gives exactly the saved values, and two optimizers stay independent."
  },
  {
   "property": "C36",
   "status": "partial",
   "theorems": [
    "C36_split",
    "C36_covered",
    "C36_failure",
    "C36_local",
    "C36_failure_refuted"
   ],
   "note": "Proved for every model of plain layers without shared parameters, every list of groups with any hyper-parameters, and every history without failing step: the optimizer constructed from group i alone, fed with the same events, agrees on all slots, parameters, momentum buffers, step counter and scales of group i. Failing steps: the exception is one that a separate optimizer raises too (C36_failure), but it leaves the later groups without update, which separate optimizers would do (C36_failure_refuted)."
  },
  {
   "property": "C37",
   "status": "proved",
   "theorems": [
    "C37_bounded",
    "C37_momentum_bounded",
    "C37_nonsingular"
   ],
   "note": "All structures, all histories including failing calls, exact arithmetic over any ordered subfield of the reals. Non-singular means trivial kernel."
  },
  {
   "property": "C38",
   "status": "proved",
   "theorems": [
    "C38_update",
    "C38_curvature",
    "C38_constructor"
   ],
   "note": "Dense structure, any history, any symmetric curvature U with H = K^T U K (which always exists, C38_curvature); the beta^2 term is S S^T. alpha1 = 0 and absence of momenta after construction with kfac_like for all histories."
  },
  {
   "property": "C39",
   "status": "partial",
   "theorems": [
    "C39_linear_dims",
    "C39_conv_dims",
    "C39_uneven_same_padding_refuted",
    "C39_unbatched_refuted"
   ],
   "note": "Proved for Linear (any number of shared axes) and Conv2d (any kernel, stride, dilation, groups, padding). Refuted for expand with 'same' padding that is uneven (NotImplementedError) and for inputs without batch axis."
  },
  {
   "property": "C40",
   "status": "proved",
   "theorems": [
    "C40_linear_input_expand",
    "C40_linear_input_reduce",
    "C40_linear_grad_expand",
    "C40_linear_grad_reduce",
    "C40_conv_grad_expand",
    "C40_conv_grad_reduce",
    "C40_conv_input_expand",
    "C40_conv_input_reduce",
    "C40_loss_average_consistent",
    "C40_accepted"
   ],
   "note": "Entries of A^T A and B^T B for both layer types, both approximations and the three loss averages (root computed exactly); the consistency statement over loss averages is for Linear, the Conv2d version follows from the same factor grad_factor in C40_conv_grad_*. C40_accepted: nothing but the documented approximations, loss averages and layers is accepted."
  },
  {
   "property": "C41",
   "status": "proved",
   "theorems": [
    "C41_averaged_patches",
    "C41_averaged_patches_any_padding"
   ],
   "note": "For every configuration the averaged patches are the averages of the zero-padded inputs read by the kernel; equal to the average of the unfolded patches wherever unfolding is supported."
  },
  {
   "property": "C42",
   "status": "partial",
   "theorems": [
    "C42_conv_is_linear_in_patches",
    "C42_linear_is_linear",
    "C42_circular_padding_refuted",
    "C42_groups_refuted"
   ],
   "note": "Proved for groups = 1 and zero padding mode (and for Linear). Refuted for circular padding (ignored by the code) and for groups > 1 (patches are averaged over groups)."
  },
  {
   "property": "C43",
   "status": "proved",
   "theorems": [
    "C43_exact_constant_gradients",
    "C43_expand_is_reduce",
    "C43_expand_is_reduce_conv",
    "C43_reduce_exact_for_mean_outputs"
   ],
   "note": "Exactness for sample-independent output gradients (both approximations), exactness of reduce for averaged outputs of shared layers, expand = reduce at a single shared position for Linear and Conv2d."
  },
  {
   "property": "C44",
   "status": "partial",
   "theorems": [
    "C44_invalid_partial",
    "C44_hooks_left",
    "C44_forward_raises",
    "C44_hooks_left_refuted"
   ],
   "note": "Proved for every call failing validation; refuted for calls failing later (only a bias, unknown structure): hooks stay installed and later forward passes raise."
  },
  {
   "property": "C45",
   "status": "partial",
   "theorems": [
    "C45_closure",
    "C45_rest_kept_partial",
    "C45_retry_refuted",
    "C45_missing_gradient_refuted",
    "C45_scale_refuted"
   ],
   "note": "Refuted: a step that fails in the middle has already updated the modules before the failing one and dropped their statistics, so that the retry raises KeyError; a missing gradient is noticed after the preconditioner update; the scale of the failed step stays. Proved: closures and missing scales change nothing; for every failure counter, groups, gradients, hooks, previous scale and all modules after the failing one are as before (C45_rest_kept_partial)."
  },
  {
   "property": "C46",
   "status": "partial",
   "theorems": [
    "C46_kept",
    "C46_no_type_errors_partial",
    "C46_default_type_refuted",
    "C46_default_type_fails",
    "C46_double_refuted"
   ],
   "note": "In a model of the data types of all tensors: every history keeps the types of K, m_K, C, m_C and of the parameters (C46_kept). That no type error occurs is proved under a condition on the combination of types and refuted without it: (float32, None) with bfloat16 weights and dense C fails in every step that is not skipped; float64 fails in the backward pass for block diagonal, hierarchical and Toeplitz structures."
  },
  {
   "property": "C47",
   "status": "proved",
   "theorems": [
    "C47_warning"
   ],
   "note": "For every state reachable by any history from any successful construction."
  },
  {
   "property": "C48",
   "status": "proved",
   "theorems": [
    "C48_no_effect",
    "C48_no_grad"
   ],
   "note": "Evaluation pass inserted at any position of any history: all later outcomes and the whole later state (except the unused hook) are the same."
  },
  {
   "property": "C49",
   "status": "proved",
   "theorems": [
    "C49_dims",
    "C49_unsupported",
    "C49_gradient_matrix"
   ],
   "note": "Dimensions, gradient matrix entries and the split back into parameter shapes, for all layers."
  },
  {
   "property": "C50",
   "status": "proved",
   "theorems": [
    "C50_order",
    "C50_added",
    "C50_single"
   ],
   "note": "All structures (block-diagonal included), any numbers, orders and interleavings of hooks of several modules; equality of the whole optimizer state. Exact arithmetic (floating-point addition is not associative)."
  },
  {
   "property": "C51",
   "status": "proved",
   "theorems": [
    "C51_regular",
    "C51_step",
    "C51_backward",
    "C51_regular_real",
    "C51_interval_refuted",
    "C51_momentum_refuted",
    "C51_unused_layer_refuted",
    "C51_negative_scale_refuted"
   ],
   "note": "C51_regular: `regular` is a condition on the calls alone (ProgressSpec.v). C51_step and C51_backward give the exact condition in all histories. The four _refuted theorems show calls that regular training excludes and that do raise: update interval shortened between passes and step, Riemannian momentum switched on after construction, a layer unused in an iteration, a negative scale."
  },
  {
   "property": "C52",
   "status": "proved",
   "theorems": [
    "C52_independent",
    "C52_missing_gradient_refuted"
   ],
   "note": "C52_independent compares two runs call by call (`alike`, IndepSpec.v) from two constructions with different weights. Which parameters have a gradient must agree: C52_missing_gradient_refuted shows that a missing gradient changes preconditioners of later layers, because the step raises half-way."
  },
  {
   "property": "C53",
   "status": "proved",
   "theorems": [
    "C53_sample_order",
    "C53_sample_order_real",
    "C53_positions_refuted"
   ],
   "note": "C53_sample_order: any permutation in any forward and backward call, for all layers, approximations, loss averages and structures; needs the laws of the square root, which the real numbers have (C53_sample_order_real). The cases are evaluated with rational numbers whose square roots are rational. C53_positions_refuted marks the boundary: exchanging positions between samples changes the reduce approximation."
  },
  {
   "property": "C54",
   "status": "proved",
   "theorems": [
    "C54_equivariant",
    "C54_dense",
    "C54_diagonal",
    "C54_same_function",
    "C54_normalized_refuted",
    "C54_diagonal_rotation_refuted",
    "C54_signed"
   ],
   "note": "C54_equivariant: all histories including failing calls, for every structure whose extraction commutes with the changes of basis; C54_dense: any orthonormal bases for dense structures; C54_diagonal: permutations with signs for diagonal ones; C54_same_function: both models compute the same function. Convolutions in the same model keep their bases. An output number always stands for outputs in one basis. C54_signed: with normalised momenta too, for permutations with signs and dense or diagonal structures; genuine rotations are possible without normalisation only: C54_normalized_refuted; diagonal structures do not admit genuine rotations: C54_diagonal_rotation_refuted."
  },
  {
   "property": "C55",
   "status": "partial",
   "theorems": [
    "C55_all_or_nothing",
    "C55_accepted",
    "C55_effect",
    "C55_replaces",
    "C55_foreign_refuted",
    "C55_exchanged_refuted"
   ],
   "note": "C55_all_or_nothing: load_state_dict either raises without changing anything or replaces the whole state; C55_accepted: exactly which checkpoints are accepted (numbers of groups and of parameters per group); C55_effect, C55_replaces: after an accepted checkpoint of an optimizer with the same parameters the behaviour is that of the saved optimizer, whatever happened to the loading one before. The expectation that an accepted checkpoint fits the model is false: C55_foreign_refuted (another layer size is accepted and the next backward pass raises), C55_exchanged_refuted (parameters handed over in another order: momentum buffers are silently exchanged)."
  },
  {
   "property": "C56",
   "status": "proved",
   "theorems": [
    "C56_layers",
    "C56_objects",
    "C56_never_more",
    "C56_linear",
    "C56_buffers"
   ],
   "note": "C56_layers: in every reachable state each layer holds count times storage numbers, at most 3 (2 without Riemannian momentum) matrices per side; C56_objects, C56_never_more, C56_linear: storage of the structures; C56_buffers: momentum buffers."
  },
  {
   "property": "C57",
   "status": "partial",
   "theorems": [
    "C57_diagonal",
    "C57_psd_partial",
    "C57_toeplitz_refuted",
    "C57_hierarchical_refuted"
   ],
   "note": "C57_diagonal: all structures, all reachable states. C57_psd_partial: positive semi-definite for dense, diagonal and block-diagonal structures; for the other supported structures this is false: C57_toeplitz_refuted, C57_hierarchical_refuted (runs of the optimizer)."
  },
  {
   "property": "C58",
   "status": "partial",
   "theorems": [
    "C58_alike",
    "C58_same",
    "C58_coincide",
    "C58_mirror",
    "C58_block_refuted",
    "C58_bounds_refuted"
   ],
   "note": "C58_alike (two optimizers that differ in structures, possibly with features in other bases), C58_same (same bases), C58_coincide (all structures in dimension one; dense and hierarchical up to dimension 15), C58_mirror (lower and upper Toeplitz exchange roles when features are reversed): all histories, normalisation included. The claim is false for block-diagonal structures: C58_block_refuted (block30diag extracts the same as dense up to dimension 30, the trained weights differ because some products use the transposes). C58_bounds_refuted: beyond the stated dimensions the extractions differ."
  },
  {
   "property": "C59",
   "status": "proved",
   "theorems": [
    "C59_identity",
    "C59_sgd",
    "C59_rate_needed_refuted"
   ],
   "note": "C59_identity (all histories, failing calls included): preconditioners stay the identity as long as the preconditioner learning rate is 0 whenever step is called. C59_sgd (all histories without raising steps): parameters and momentum buffers equal those of an independent SGD specification at every point. C59_rate_needed_refuted: without the condition the weights differ. Steps that raise are not part of the claim (a missing gradient or statistic raises although its value would not matter)."
  },
  {
   "property": "C60",
   "status": "partial",
   "theorems": [
    "C60_statistics",
    "C60_newton",
    "C60_stationary",
    "C60_structures",
    "C60_rate",
    "C60_limit",
    "C60_large_refuted"
   ],
   "note": "C60_statistics (all structures but block-diagonal, all histories whose steps do not raise): the stored statistics are the projections of K^T M K for the second moments M seen since the last update. C60_newton (dense and diagonal structures): the exact one-step formula. C60_stationary (dense, diagonal) and C60_structures (all but block-diagonal): what an unchanged preconditioner means, and that the direction is then the exact Kronecker-factored Newton step. C60_rate, C60_limit: geometric convergence with an explicit bound, for constant damped curvature A with |I - A| <= q < 1 and learning rates in [b, 1]. C60_large_refuted: without the condition on A updates need not bring K K^T any nearer to the inverse (witness: K alternates between 1 and -1 over 4 updates), so the geometric rate does not hold for all curvatures. Convergence for other structures, with Riemannian momentum or in the INGD mode is not claimed."
  },
  {
   "property": "C61",
   "status": "partial",
   "theorems": [
    "C61_parameters_keep",
    "C61_preconditioners_keep",
    "C61_preconditioner_poisons",
    "C61_gradient_poisons",
    "C61_scale_poisons",
    "C61_scale_statistics",
    "C61_overflow_refuted",
    "C61_scaling_refuted"
   ],
   "note": "C61_parameters_keep, C61_preconditioners_keep: for any absorbing element of the scalars (instance: the NaN of IEEE 754 in every precision), every configuration, state and history, all structures. C61_preconditioner_poisons, C61_gradient_poisons, C61_scale_poisons, C61_scale_statistics: dense structures (with diagonal ones only a row or column is lost, C61_diagonal_example). The claim that skipping non-finite gradients keeps the weights finite is false: C61_overflow_refuted (half precision, an input of 300 overflows in the statistics while all gradients are finite and the step is not skipped). C61_scaling_refuted: in single precision a gradient scale of 3 changes the weights, so C26 is a statement about exact arithmetic."
  },
  {
   "property": "C62",
   "status": "partial",
   "theorems": [
    "C62_unsupported",
    "C62_alpha",
    "C62_complete_partial",
    "C62_once",
    "C62_container_refuted"
   ],
   "note": "C62_unsupported: exactly which layers are warned about, for every call, failing or not (any scalars). C62_alpha: exactly which groups are warned about in a successful call, and that these and only these get alpha1 = 0. C62_once: no warning twice. C62_complete_partial: silence means that all trainable parameters of leaf modules are handed to the optimizer. For parameters owned by a module with children it is false: C62_container_refuted (such a parameter gets a gradient, is in no group and nobody is warned)."
  },
  {
   "property": "C63",
   "status": "proved",
   "theorems": [
    "C63_bias",
    "C63_patches"
   ],
   "note": "C63_bias and C63_patches: simulation of two trainings call by call, from the constructor on, for any histories with well-formed tensors, all structures, failing calls included. Convolutions must have symmetric padding (for others the expand approximation raises, C41/C48); what autograd writes into the gradients is an input and must be the same matrix."
  },
  {
   "property": "C64",
   "status": "proved",
   "theorems": [
    "C64_order",
    "C64_loop",
    "C64_failing_refuted",
    "C64_tied_refuted"
   ],
   "note": "C64_order: simulation of the two trainings from the constructor on, for any permutation of the registered modules, of the groups and of the parameters inside the groups; C64_loop: one pass over the modules. Both conditions are needed: C64_failing_refuted (a step that raises updates only the layers before the failing one) and C64_tied_refuted (layers sharing a weight)."
  },
  {
   "property": "C65",
   "status": "partial",
   "theorems": [
    "C65_results",
    "C65_calls",
    "C65_only",
    "C65_constructor",
    "C65_silent",
    "C65_exempt_refuted",
    "C65_recursive",
    "C65_methods"
   ],
   "note": "Proved: which performance warnings each call issues (C65_calls for calls that return, C65_only also for calls that raise, C65_constructor), that trainings without Toeplitz structures issue none (C65_silent) and that recursive classes warn (C65_recursive). The part of the documentation that methods in WARN_NAIVE_EXCEPTIONS trigger no warning is false: C65_exempt_refuted."
  },
  {
   "property": "C66",
   "status": "partial",
   "theorems": [
    "C66_constructor",
    "C66_no_sharing",
    "C66_sharing_refuted",
    "C66_uneven_refuted"
   ],
   "note": "Proved for every history in which each sample uses the weights of each layer once (C66_no_sharing) and for the constructor (C66_constructor). False for convolutions with uneven \"same\" padding, where expand raises NotImplementedError and reduce does not: C66_uneven_refuted. With shared weights both settings matter: C66_sharing_refuted."
  },
  {
   "property": "C67",
   "status": "partial",
   "theorems": [
    "C67_register",
    "C67_reserved",
    "C67_construct",
    "C67_pairs",
    "C67_path",
    "C67_dotted_refuted",
    "C67_misread_refuted",
    "C67_values",
    "C67_mul",
    "C67_add",
    "C67_self",
    "C67_shared_refuted",
    "C67_failed_add_refuted"
   ],
   "note": "Proved: registration (C67_register), the listing of every class (C67_construct, C67_pairs), names read backwards are attribute paths (C67_path), and mul_/add_ on references agree with the value semantics when no tensor is registered twice (C67_values, C67_mul, C67_add, C67_self). False: names read forwards are attribute paths (C67_dotted_refuted, C67_misread_refuted); mul_ with a tensor registered twice (C67_shared_refuted); a failing add_ leaves self unchanged (C67_failed_add_refuted). C67_reserved lists the interface of the classes in the specification."
  },
  {
   "property": "C68",
   "status": "partial",
   "theorems": [
    "C68_handles",
    "C68_state",
    "C68_result",
    "C68_progress",
    "C68_rendezvous",
    "C68_early_refuted",
    "C68_race_refuted"
   ],
   "note": "Proved for every schedule of processes and backend: C68_handles, C68_state, C68_result, C68_progress, C68_rendezvous. False: that the result is there when the call returns (C68_early_refuted), and that components may be written before waiting (C68_race_refuted)."
  },
  {
   "property": "C69",
   "status": "partial",
   "theorems": [
    "C69_superposition",
    "C69_zero",
    "C69_loss_refuted"
   ],
   "note": "Proved for all histories, structures and settings: C69_superposition and C69_zero. False: linearity when the passes change with the gradients (C69_loss_refuted: a loss of twice the size does not double the updates)."
  },
  {
   "property": "C70",
   "status": "proved",
   "theorems": [
    "C70_decay",
    "C70_difference",
    "C70_forgets",
    "C70_remembers",
    "C70_rate"
   ],
   "note": "C70_decay, C70_difference for all histories in which no step raises (a step that raises may have changed some layers only), all structures and settings, learning rate schedules and skipped steps included. C70_forgets, C70_remembers and C70_rate are the cases without momentum, without weight decay, and over ordered fields."
  },
  {
   "property": "C71",
   "status": "proved",
   "theorems": [
    "C71_scaled",
    "C71_still",
    "C71_gradients",
    "C71_decay_refuted"
   ],
   "note": "C71_scaled for all histories, structures, settings, schedules and factors, raising and skipped steps included; it needs weight decay zero, and C71_decay_refuted shows that it fails otherwise. C71_still needs no such assumption. C71_gradients is stated for histories in which no step raises and no gradient is present at construction. Exact arithmetic (any field)."
  }
 ]
}
