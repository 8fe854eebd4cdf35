# Design of the formal model of singd

Source: `/repo` (f-dangel/singd at the pinned commit), read as text, never executed.
Prover: Coq 8.16.1, standard library only, theories in `rocq/theories` (logical name `Verif`).

## 1. What is modelled and how

**Layers of the development.** Model files (definitions citing `/repo`), specification files (small definitions that do not
mention the model's helpers), proof files, and `Prop*.v` files. A `Prop*.v` file holds only the statements of the property
theorems with `Print Assumptions` and concrete `Example`s meeting their hypotheses, each closed by `exact`; the lemma it cites
(`…_lemma`, `…_case`) and the concrete objects of the examples are in the `Proof*.v` file of the same name.

| model file | part of /repo | specification | proofs | theorems |
|---|---|---|---|---|
| `Scalar`, `Res`, `Tensor` | scalars, exceptions, the PyTorch primitives used | | `TensorFacts` | |
| `Structures` | `singd/structures/*.py` | `StructSpec` | `StructDense`, `StructPattern`, `StructMul`, `StructOps`, `StructNorm`, `StructAct` | `PropStruct` |
| `OptimUtils` | `singd/optim/utils.py`, `preconditioner_dims` | in `UtilsFacts` | `UtilsFacts` | `PropUtils` |
| `Optimizer` | `singd/optim/optimizer.py` L268-280, 456-854 | `OptSpec` | `OptState`, `OptRun`, `OptFacts`, `OptConsume`, `OptDir`, `OptTyped`, `OptStep`, `OptPre`, `OptMom`, `OptNorm`, `OptOrder`, `OptFail` | `PropRun`, `PropUpdate`, `PropNorm`, `PropFail` |
| `Construct` | constructor, L82-266, 282-428, 637-664 | `CtorSpec` | `CtorFacts` | `PropCtor` |
| `Checkpoint` | `state_dict`, `load_state_dict`, L856-892 | | `CkptFacts` | `PropCkpt` |
| `Alias` | the same with shared objects | | `AliasFacts` | `PropAlias` |
| `Split` | one optimizer against one per group | `Split` | `SplitCtor` | `PropSplit` |
| `ScaleInv` | gradient scaling | `ScaleInv` | `ScaleRun` | `PropScale` |
| `Optimizer`, `Construct` | absence of exceptions | `ProgressSpec` | `Progress` | `PropProgress` |
| `Optimizer`, `Construct` | what preconditioners depend on | `IndepSpec` | `Indep` | `PropIndep` |
| `OptimUtils`, `Optimizer` | order of samples | `ShuffleSpec` | `Shuffle` | `PropShuffle` |
| `OptimUtils`, `Optimizer` | bases of the features | `RotateSpec` | `Rotate` | `PropRotate` |
| `Checkpoint`, `Optimizer` | loading checkpoints | `LoadFacts` | `LoadFacts` | `PropLoad` |
| `Structures`, `Optimizer` | numbers kept | `Storage` | `Storage` | `PropStorage` |
| `Optimizer` | signs of the statistics | `Psd` | `Psd` | `PropPsd` |
| `Structures`, `Optimizer` | exchanging structures | `RotateSpec` | `Rotate`, `StructSwap` | `PropSwap` |
| `Optimizer` | SGD as a special case | `SgdSpec` | `Sgd` | `PropSgd` |
| `Optimizer` | convergence to the inverse curvature | `NewtonSpec` | `MatInv`, `Newton` | `PropNewton` |
| `Float`, `Optimizer` | floating point numbers, NaN | `NanSpec` | `Nan` | `PropNan` |
| `Warn` | warnings of the constructor (optimizer.py L301-309, L351-383) | `CtorSpec` | `CtorFacts` | `PropWarn` |
| (no new code) | one layer written as another one | `LayerSpec` | `LayerSim`, `LayerCtor`, `LayerInst` | `PropLayer` |
| (no new code) | other orders of modules, groups and parameters | `RelistSpec` | `Relist`, `RelistCtor` | `PropRelist` |
| `Naive` | `_warn_naive_implementation`, `WARN_NAIVE`, `WARN_NAIVE_EXCEPTIONS` | `NaiveSpec` | `NaiveFacts`, `NaiveRun` | `PropNaive` |
| `SharingSpec` | settings for weight sharing (spec) | `SharingSpec` | `Sharing` | `PropSharing` |
| `Registry` | objects of singd/structures: registered names, references, in-place loops | `RegistrySpec` | `RegistryFacts` | `PropRegistry` |
| `Async` | all_reduce with async_op=True: processes, backend, schedules | `AsyncSpec` | `AsyncFacts` | `PropAsync` |
| (no model file) | superposition of trainings | `LinearSpec` | `LinearFacts` | `PropLinear` |
| (no model file) | weights without gradients | `DecaySpec` | `DecayFacts` | `PropDecay` |
| (no model file) | the learning rate | `RateSpec` | `RateFacts` | `PropRate` |
| `Batch` | batches and micro-batches | `Batch` | `Accum`, `AccumRun` | `PropAccum` |
| `Dtypes` | data types of all tensors | | `DtypeFacts` | `PropDtypes` |
| `Dist` | `all_reduce` (base.py L230-264) and the distributed parts of the optimizer | `DistSpec` | `DistFacts`, `DistStat`, `DistRun` | `PropDist` |

**Scalars.** All model definitions are parametrised by a record `Scalar` of operations (0, 1, +, *, -, /, sqrt, ==, <). Laws
are separate: `FieldLaws` (field of characteristic 0 with decidable equality), `SqrtLaws`, `Ordered` (an ordered subfield of
the reals). Instances: Coq's reals `R` (all laws), rationals `Qc` (executable; witnesses and examples), and IEEE 754 floating point
numbers of any precision and exponent range (`Float.v`, from Coq's `SpecFloat`: executable, rounding to nearest even, infinities,
NaN, no laws). Theorems whose statement assumes `FieldLaws` are about exact arithmetic: **they do not survive rounding and overflow
in general** (C61 refutes C26 for single precision). Theorems without it hold for floating point numbers bit by bit: C15, C18_optimizer_layouts, C19_rejected,
C21_only_handed_partial, C21_only_trained_layers, C21_frozen_fails, C23, C24, C25, C27, C34, C35, C36, C44, C45_closure, C45_rest_kept_partial, C48,
C49_gradient_matrix, C55, C56_objects, C56_buffers and C61. Simplifications of the floating
point instance: one format for all numbers of a run (Python floats included), sums from left to right, `Tensor.max` of NaNs.

**Tensors.** A shape and a flat row-major list of that many scalars. Every PyTorch primitive used by singd is a total
function into `res` (`Ok v` or `Err exception`) with the shape checks PyTorch performs. Simplification: element-wise binary
operations require equal shapes (PyTorch would broadcast size-1 axes; `einsum("i,ij->ij")` does so in the model too).

**Structured matrices.** A *class* is a value of an inductive type of class descriptors (dense, diagonal, block-diagonal with any
block size, hierarchical with any K1/K2, the two Toeplitz classes, the two recursive templates with arbitrary component
classes and maximum dimensions). An *object* is a value of an inductive type with the registered tensors as fields. Every method of
every class is a function on these; a method that a class does not override dispatches to the base class's naive version, like in
Python. Constructors carry the code's checks.

**Optimizer.** `SINGD` is a state-and-exception monad over a record with the attributes of the Python object (steps, `_grad_scales`, Ks,
Cs, m_Ks, m_Cs, H_Ks, H_Cs, momentum buffers, parameter groups) and the outside world it touches (parameters, gradients, tensor
hooks, scaler attributes). An exception keeps the state at the point where it was raised, so partial updates are visible. A
history is a list of API events (forward, backward, new gradients, `set_current_grad_scale`, scaler calls, edits of parameter groups,
`step`); "for every reachable state" means after any such list, failing calls included.

**Separate models.** Data types: the same code computing the type of every tensor instead of its entries. Sharing: a heap of the
objects that are changed in place. Processes: a free monad of collectives with a rendezvous semantics (all processes must make the same
call; otherwise nobody returns).

## 2. Trusted base

* the Coq kernel (8.16.1);
* axioms: the table below is what `Print Assumptions` lists. No axiom is added by this development;
* the reading of the Python source (each definition cites file and lines) and of the PyTorch, einops and einconv primitives
  (`Tensor.v`, `OptimUtils.v`; `torch.optim.Optimizer` in `Construct.v`, `Checkpoint.v`, `Alias.v`; type promotion in
  `Dtypes.v`; contiguity of results of PyTorch operations and `dist.all_reduce` in `Dist.v`).

Not modelled: mixed precision arithmetic and the summation order of PyTorch's kernels; devices and CUDA; texts of warnings; profiling code, documentation, tests;
`torch.optim.Optimizer` beyond the parts SINGD uses; autograd itself (its results are inputs of the model: layer inputs, output
gradients, `.grad`s); process groups other than the default one; `__init__.py`s, examples.

Axioms per theorem (`Print Assumptions`):

* none (closed under the global context): C00_to_dense_injective, C00_to_dense_total, C01_eye, C01_eye_toeplitz_dim0, C01_zeros, C01_zeros_nested_toeplitz_refuted, C02_matmul, C03_diag_mismatch_refuted, C03_matmul_mismatch_diag_partial, C03_matmul_mismatch_partial, C03_matmul_tensor, C03_toeplitz_no_columns_refuted, C04_rmatmat, C05_block_from_inner_refuted, C05_block_rmatmat_actual, C05_block_rmatmat_refuted, C05_block_rmatmat_symmetric_partial, C05_optimizer_refuted, C06_add, C06_add_inplace, C06_mul, C06_mul_inplace, C06_nested_hierarchical_refuted, C06_nonstandard_partition_refuted, C07_from_dense_rejects_nonsquare, C07_from_dense_symmetric, C08_hierarchical_roundtrip_refuted, C08_roundtrip_partial, C09_from_inner2, C09_from_inner_none, C09_from_inner_some, C09_from_mat_inner, C10_average_trace, C11_diag_add, C13_frobenius_dim0_refuted, C14_recursive_any_nesting, C14_toeplitz_part_dim0_refuted, C15_block_ctor_accepts_partial, C15_block_ctor_refuted, C15_block_ctor_rejects_partial, C15_hierarchical_ctor, C15_recursive_ctor, C16_all_traces, C16_toeplitz_even_length_refuted, C16_toeplitz_matmul, C16_toeplitz_matmul_rejects_partial, C17_lowest, C17_set, C17_unsupported, C18_all_reduce_partial, C18_layout_refuted, C18_layouts, C18_optimizer_layouts, C18_recursive_refuted, C19_accepted, C19_positive_refuted, C19_rejected, C20_groups, C20_own_group, C20_rejected_iff, C21_default_parameters, C21_frozen_bias_refuted, C21_frozen_fails, C21_layers, C21_only_handed_partial, C21_only_trained_layers, C21_weight_only_refuted, C22_initial, C22_kept, C23_change_only_when_due, C23_nothing_else_counts, C23_opportunities, C23_step_counts, C24_consumed, C24_missing_fails, C24_missing_keyerror, C24_not_collected, C24_not_used, C24_origin, C24_stale_backward_refuted, C25_bookkeeping, C25_checkpoints, C25_checkpoints_total, C25_previous_scale, C26_scaling, C26_stale_refuted, C27_skipped, C28_block_statistics_refuted, C28_statistics, C28_update, C29_block_ascent_refuted, C29_direction, C30_closed_form, C31_accumulation_partial, C31_accumulation_regular_partial, C31_kfac_like_refuted, C31_sum_refuted, C31_unequal_refuted, C32_distributed_partial, C32_sum_refuted, C33_collectives_partial, C33_missing_gradient_refuted, C33_overflow_refuted, C34_resume, C34_rollback, C34_saves_fails, C34_saves_partial, C34_saves_refuted, C35_loads_once, C36_covered, C36_failure, C36_failure_refuted, C36_local, C36_split, C38_constructor, C38_curvature, C38_update, C39_conv_dims, C39_linear_dims, C39_unbatched_refuted, C39_uneven_same_padding_refuted, C40_accepted, C40_conv_grad_expand, C40_conv_grad_reduce, C40_conv_input_expand, C40_conv_input_reduce, C40_linear_grad_expand, C40_linear_grad_reduce, C40_linear_input_expand, C40_linear_input_reduce, C40_loss_average_consistent, C41_averaged_patches, C41_averaged_patches_any_padding, C42_circular_padding_refuted, C42_conv_is_linear_in_patches, C42_groups_refuted, C42_linear_is_linear, C43_exact_constant_gradients, C43_expand_is_reduce, C43_expand_is_reduce_conv, C43_reduce_exact_for_mean_outputs, C44_forward_raises, C44_hooks_left, C44_hooks_left_refuted, C44_invalid_partial, C45_closure, C45_missing_gradient_refuted, C45_rest_kept_partial, C45_retry_refuted, C45_scale_refuted, C46_default_type_fails, C46_default_type_refuted, C46_double_refuted, C46_kept, C46_no_type_errors_partial, C47_warning, C48_no_effect, C48_no_grad, C49_dims, C49_gradient_matrix, C49_unsupported, C50_added, C50_single, C51_backward, C51_interval_refuted, C51_momentum_refuted, C51_negative_scale_refuted, C51_regular, C51_step, C51_unused_layer_refuted, C52_independent, C52_missing_gradient_refuted, C53_positions_refuted, C53_sample_order, C54_dense, C54_diagonal, C54_diagonal_rotation_refuted, C54_equivariant, C54_normalized_refuted, C54_same_function, C55_accepted, C55_all_or_nothing, C55_effect, C55_exchanged_refuted, C55_foreign_refuted, C55_replaces, C56_buffers, C56_layers, C56_linear, C56_never_more, C56_objects, C57_hierarchical_refuted, C57_toeplitz_refuted, C58_block_refuted, C58_bounds_refuted, C59_identity, C59_rate_needed_refuted, C59_sgd, C60_newton, C60_stationary, C60_statistics, C60_structures, C61_gradient_poisons, C61_overflow_refuted, C61_parameters_keep, C61_preconditioner_poisons, C61_preconditioners_keep, C61_scale_poisons, C61_scale_statistics, C61_scaling_refuted, C62_alpha, C62_complete_partial, C62_container_refuted, C62_once, C62_unsupported, C63_bias, C63_patches, C64_failing_refuted, C64_loop, C64_order, C64_tied_refuted, C65_calls, C65_constructor, C65_exempt_refuted, C65_methods, C65_only, C65_recursive, C65_results, C65_silent, C66_constructor, C66_no_sharing, C66_sharing_refuted, C66_uneven_refuted, C67_add, C67_construct, C67_dotted_refuted, C67_failed_add_refuted, C67_misread_refuted, C67_mul, C67_pairs, C67_path, C67_register, C67_reserved, C67_self, C67_shared_refuted, C67_values, C68_early_refuted, C68_handles, C68_progress, C68_race_refuted, C68_rendezvous, C68_result, C68_state, C69_loss_refuted, C69_superposition, C69_zero, C70_decay, C70_difference, C70_forgets, C70_remembers, C71_decay_refuted, C71_gradients, C71_scaled, C71_still.
* `FunctionalExtensionality.functional_extensionality_dep`: C35_argument_refuted, C35_coupled, C35_coupled_refuted, C35_deepcopy_partial, C35_rollback_refuted, C35_separate, C35_snapshot_refuted, C35_tracks, C50_order.
* `ClassicalDedekindReals.sig_forall_dec`, `FunctionalExtensionality.functional_extensionality_dep`: C28_rate, C29_not_ascent, C37_bounded, C37_momentum_bounded, C37_nonsingular, C54_signed, C57_diagonal, C57_psd_partial, C58_alike, C58_coincide, C58_mirror, C58_same, C60_large_refuted, C70_rate.
* `ClassicalDedekindReals.sig_forall_dec`, `ClassicalDedekindReals.sig_not_dec`, `FunctionalExtensionality.functional_extensionality_dep`: C12_infinity_vector_norm, C13_frobenius_norm, C26_scaling_real, C31_accumulation_real_partial, C32_distributed_real_partial, C51_regular_real, C53_sample_order_real.
* `ClassicalDedekindReals.sig_forall_dec`, `ClassicalDedekindReals.sig_not_dec`, `Classical_Prop.classic`, `FunctionalExtensionality.functional_extensionality_dep`: C60_limit, C60_rate.

The axioms named are those of Coq's `Reals` (`sig_forall_dec`, `sig_not_dec`; some lemmas of `Reals` on limits and powers use `Classical_Prop.classic`) and `functional_extensionality_dep`, all from the standard library.

## 3. Properties

For each property: how it is modelled and proved, status, and what is missing or false.

* **C01 zeros and eye represent the zero and identity matrix** (partial). Method: class methods per class; entrywise computation, induction over class trees for the recursive templates. Proved for every class tree and dimension except recursive classes in which a Toeplitz component gets dimension 0 (hypothesis dim_ok). The literal statement is refuted there: zeros raises RuntimeError.
* **C02 Product of two structured matrices is the structured form of the dense product** (partial). Method: product of each class vs. the dense product; entrywise, sums split at the block boundaries; recursive classes through a lemma on the naive methods. Proved for all classes and dimensions >= 0 (Toeplitz: >= 1) except recursive classes with a hierarchical component, where the base-class round trip doubles entries (C06_nested_hierarchical_refuted), and objects with a non-standard partition.
* **C03 Multiplying a structured matrix onto a tensor equals the dense multiplication** (partial). Method: as C02, for a tensor on the right; row mismatches by case analysis of the shape checks. Product proved for all classes. Mismatching rows raise for all classes but diagonal; refuted for diagonal matrices when one of the sizes is 1 (silent broadcast), and Toeplitz raises for tensors without columns.
* **C04 rmatmat multiplies with the transpose** (proved). Method: as C03 for the transpose. Proved for all classes but block-diagonal (excluded in the statement, see C05); Toeplitz for dimension and column count >= 1.
* **C05 Transpose products of block-diagonal matrices** (partial). Method: what block-diagonal rmatmat computes; witnesses on literal matrices and on a preconditioner reached by optimizer steps. Refuted as stated: rmatmat and from_inner of block-diagonal matrices do not transpose, and the optimizer itself produces non-symmetric blocks (C05_optimizer_refuted). Proved for symmetric matrices.
* **C06 Sum, scalar multiple and their in-place versions agree with the dense operations** (partial). Method: entrywise; in-place versions by walking the component list. In-place versions proved for all classes; a + b and a * c proved except for recursive classes with a hierarchical component and non-standard partitions, where they are refuted.
* **C07 from_dense extracts the documented structure of a symmetric matrix** (proved). Method: an independent entrywise description `proj` of each projection; `to_dense (from_dense M)` equals it; induction over class trees. Proved for every class tree and every dimension for which no Toeplitz part has dimension 0; the exception is C14_toeplitz_part_dim0_refuted.
* **C08 from_dense inverts to_dense** (partial). Method: round trip by extensionality of the components; induction over class trees. Proved for all class trees without hierarchical components; refuted for hierarchical matrices.
* **C09 Structure extraction from inner products** (proved). Method: from_inner etc. against from_dense of the dense product. Proved for all classes but block-diagonal (excluded in the statement, see C05), as equality with from_dense of the dense product; also for non-symmetric XXT.
* **C10 average_trace is the trace divided by the dimension** (proved). Method: sums over the diagonal split at block boundaries. Proved for all classes, dimensions >= 1 and entries.
* **C11 diag_add_ adds to the diagonal only** (partial). Method: entrywise. Proved for all classes but recursive classes with a hierarchical component (see C06_nested_hierarchical_refuted).
* **C12 infinity_vector_norm is the largest absolute entry of the represented matrix** (proved). Method: over R: the maximum is an upper bound and attained. Proved over the reals for all classes and dimensions >= 1.
* **C13 frobenius_norm is the Frobenius norm of the represented matrix** (partial). Method: over R: squares summed with the multiplicities of Toeplitz entries; induction for recursive classes. Proved over the reals for all classes; dimension 0 of block-diagonal and hierarchical parts raises (refuted there).
* **C14 Recursive templates work for every nesting depth** (partial). Method: one conjunction quantified over all class trees. Proved for every nesting of the recursive templates over hierarchical-free classes, as one conjunction; the dimension-0 Toeplitz part is refuted. C12/C13 for nestings are the theorems of those properties.
* **C15 Malformed components are rejected at construction** (partial). Method: constructors as checks; iff for hierarchical and recursive, witness for block-diagonal. Hierarchical and recursive constructors characterised exactly; block-diagonal constructor refuted (chained comparison accepts blocks of the wrong size).
* **C16 Toeplitz helper functions** (partial). Method: convolution model vs. entrywise Toeplitz product; scatter_add vs. diagonal sums. Both functions proved; wrong lengths are rejected except even length 2N, refuted with a witness.
* **C17 lowest_precision picks the lowest supported precision** (proved). Method: dtype lists by induction. For all argument lists: the result is one of the arguments and of lowest rank among them (float16 < bfloat16 < float32), it depends only on the set of arguments, and NotImplementedError is raised exactly if an argument is unsupported.
* **C18 all_reduce reduces every tensor in place** (partial). Method: processes as a free monad of collectives, components with a layout flag; rendezvous of all processes by induction over the component list. Proved for all classes (recursive ones too), sizes, world sizes, both operations: with contiguous components every process ends with the sum or mean; for arbitrary layouts C18_layouts says exactly what happens (a component is reduced exactly where it is contiguous). "All memory layouts" does not hold: two witnesses (a dense matrix made from a transposed tensor; from_inner of a recursive structure). The matrices the optimizer reduces for the six supported structures are contiguous (C18_optimizer_layouts; the layouts of torch results are part of the model).
* **C19 Hyper-parameter validation** (partial). Method: python numbers as a sum type; exact characterisation of the constructor's outcome. Complete characterisation of the outcome of every constructor call proved (C19_rejected, C19_accepted). Refuted as documented: zero, negative ints, per-group negatives, negative damping and T=0 are accepted.
* **C20 Parameters of one layer must be in the same group** (proved). Method: model as list of modules with parameter identities; iff. For all models and groupings; the group used for a layer is the one its parameters were handed over in.
* **C21 Exactly the parameters handed to the optimizer are trained** (partial). Method: invariant over histories: which parameter slots a step writes. Default parameters proved; only parameters of layers with a listed parameter change (all histories); only listed ones if layers are handed over as a whole. Refuted in general: listing only a weight trains the bias; a frozen bias makes every step raise.
* **C22 Preconditioners keep class and dimension for the whole training** (proved). Method: typing invariant (class and dimension of every slot) preserved by every event, failing ones included. For every model, group layout and supported structure, after any history of calls (failing ones included) with layer-shaped inputs.
* **C23 Update schedule** (proved). Method: characterisation of each event's effect on counter and slots; induction over histories. For arbitrary histories incl. failing calls and group edits: counter, nothing else counts, preconditioners/momenta change only in due non-skipped steps, counters seen by successful steps are 0..n-1 so ceil(n/T) are due.
* **C24 Curvature accumulators are consumed exactly once** (partial). Method: ghost-free: what `step` does with H slots, and which events create them. Consumption, missing statistics, origin of statistics, nothing collected/used at other steps proved for all histories; refuted: a backward pass made after the step of a forward pass made before it collects statistics at a non-update step.
* **C25 Gradient scale bookkeeping never loses the previous scale** (proved). Method: invariant on the list of scales; induction over histories with saving and loading. For all histories of forward, backward, scale, scaler, step (successful, skipped, failing), group-edit and checkpoint calls (C25_checkpoints: saving at any time, loading any dictionary ever saved by this or another optimizer, failing loads included). Dictionaries are values as in C34; dictionaries that share objects with a running optimizer are C35.
* **C26 Training is invariant under gradient scaling** (partial). Method: simulation between scaled and unscaled run. Proved for every model, all structures, every sequence of positive scales (C26_scaling_real over R; C26_scaling over any scalars with roots), both ways of announcing the scale, overflow steps included, for training loops whose backward passes use outputs of the same iteration and which rewrite gradients in every iteration. Refuted otherwise (C26_stale_refuted): statistics of a backward pass through a kept graph of an earlier iteration are weighted with the wrong scales.
* **C27 A step with non-finite gradients is skipped** (proved). Method: effect of a step with found_inf, pointwise on the state. For every state reachable by any history from any successful construction.
* **C28 The preconditioner update implements the documented recurrence** (partial). Method: refinement of `_update_preconditioner` on structured matrices to a dense mathematical recurrence. Statistics and update formulas proved for every reachable state, both variants, with and without momentum and normalisation, for all structures but block-diagonal; refuted for block-diagonal (missing transposes).
* **C29 The update direction is the gradient multiplied by both preconditioners and is never an ascent direction** (partial). Method: dense formula; inner product as squared Frobenius norm. Formula, inner product and its sign proved for every reachable state and all structures but block-diagonal; refuted for block-diagonal: a two-iteration run of a Linear(2, 1) layer has an ascent direction.
* **C30 Momentum and weight decay** (proved). Method: closed form by induction over steps. Closed form for parameter and buffer after any history without failing steps, with arbitrary learning rate and weight decay schedules and constant momentum; all structures.
* **C31 Gradient accumulation** (partial). Method: accumulated statistics as sums over micro-batches; simulation between runs. Proved for all training loops with averaged losses and the update that is not KFAC-like: cutting every batch into micro-batches of equal size leaves everything the optimizer holds unchanged, for all layers, structures, update intervals, schedules, scales and overflows. Refuted with witnesses for the KFAC-like update, for summed losses and for micro-batches of different sizes. C31_accumulation_regular_partial replaces the assumption that the whole-batch loop raises nothing by the condition `regular` on its calls.
* **C32 Distributed training equals single-device training** (partial). Method: simulation in lockstep of all processes with the single process; every event related by per-rank invariants. Averaged losses: for all world sizes, batches split evenly, layers, six structures, both updates and all histories (overflows, exceptions, changed groups and scales) every process holds what the single process holds and all calls have the same outcomes. Summed losses (loss_average=None) do not have the property: C32_sum_refuted.
* **C33 Ranks issue matching collectives** (partial). Method: the same framework with equal shapes instead of equal values. For all world sizes and histories in which the processes make the same calls with tensors of the same shapes: no process blocks and all hold the same state. For arbitrary histories the property fails: an overflow seen by one process only, or a gradient missing on one process, makes the others wait forever (two witnesses).
* **C34 Checkpointing resumes the same run** (partial). Method: loading gives an observationally equal state; equality preserved by all later events. Proved for every history and every checkpoint time, including checkpoints between backward passes and step, for continuations that use no hook or gradient from before the checkpoint; also for going back in the same optimizer. Refuted (C34_saves_refuted): if a trained layer has a parameter outside all groups (e.g. only the weight was handed in), momentum makes state_dict raise KeyError. The dictionary is a value here (written to a file or deep-copied); see C35.
* **C35 state_dict is a snapshot and load_state_dict leaves its argument alone** (partial). Method: heap of shared objects; separation by addresses. In a heap model with shared objects. The property does not hold: the dictionary shows the current matrices, scales and momentum buffers whatever is trained later (C35_tracks, for all histories), loading always removes the attributes from its argument (C35_loads_once) and couples the optimizers for good (C35_coupled); each part has a witness (_refuted), including a rollback within one run after which the next backward pass raises KeyError. Proved for all histories: with a deep copy of the dictionary the snapshot never changes, loading gives exactly the saved values, and two optimizers stay independent.
* **C36 Parameter groups are independent** (partial). Method: non-interference: simulation between the joint and the separate optimizers. Proved for every model of plain layers without shared parameters, every list of groups with any hyper-parameters, and every history without failing step: the optimizer constructed from group i alone, fed with the same events, agrees on all slots, parameters, momentum buffers, step counter and scales of group i. Failing steps: the exception is one that a separate optimizer raises too (C36_failure), but it leaves the later groups without update, which separate optimizers would do (C36_failure_refuted).
* **C37 Normalised preconditioner learning rates are safe** (proved). Method: bounds over an ordered field by induction over histories; non-singularity by diagonal dominance. All structures, all histories including failing calls, exact arithmetic over any ordered subfield of the reals. Non-singular means trivial kernel.
* **C38 KFAC-like updates track KFAC's damped curvature** (proved). Method: matrix identity from the dense recurrence. Dense structure, any history, any symmetric curvature U with H = K^T U K (which always exists, C38_curvature); the beta^2 term is S S^T. alpha1 = 0 and absence of momenta after construction with kfac_like for all histories.
* **C39 Layer statistics match the preconditioner dimensions** (partial). Method: shapes through all primitives. Proved for Linear (any number of shared axes) and Conv2d (any kernel, stride, dilation, groups, padding). Refuted for expand with 'same' padding that is uneven (NotImplementedError) and for inputs without batch axis.
* **C40 Scaling of the layer statistics** (proved). Method: entries of the inner products of processed tensors. Entries of A^T A and B^T B for both layer types, both approximations and the three loss averages (root computed exactly); the consistency statement over loss averages is for Linear, the Conv2d version follows from the same factor grad_factor in C40_conv_grad_*. C40_accepted: nothing but the documented approximations, loss averages and layers is accepted.
* **C41 Averaged patches equal the average of the extracted patches** (proved). Method: index patterns vs. unfold, sum exchange. For every configuration the averaged patches are the averages of the zero-padded inputs read by the kernel; equal to the average of the unfolded patches wherever unfolding is supported.
* **C42 Extracted patches are the convolution's effective inputs** (partial). Method: index arithmetic: convolution output as patch times weight. Proved for groups = 1 and zero padding mode (and for Linear). Refuted for circular padding (ignored by the code) and for groups > 1 (patches are averaged over groups).
* **C43 KFAC is exact where it should be** (proved). Method: bilinear identities on sums. Exactness for sample-independent output gradients (both approximations), exactness of reduce for averaged outputs of shared layers, expand = reduce at a single shared position for Linear and Conv2d.
* **C44 A failing constructor leaves the model untouched** (partial). Method: the constructor as a sequence of effects on the list of hooks. Proved for every call failing validation; refuted for calls failing later (only a bias, unknown structure): hooks stay installed and later forward passes raise.
* **C45 A failing step can be retried** (partial). Method: effect of failing steps: invariant along the module loop. Refuted: a step that fails in the middle has already updated the modules before the failing one and dropped their statistics, so that the retry raises KeyError; a missing gradient is noticed after the preconditioner update; the scale of the failed step stays. Proved: closures and missing scales change nothing; for every failure counter, groups, gradients, hooks, previous scale and all modules after the failing one are as before (C45_rest_kept_partial).
* **C46 Preconditioner data types** (partial). Method: abstract interpretation of types; preserved by all events. In a model of the data types of all tensors: every history keeps the types of K, m_K, C, m_C and of the parameters (C46_kept). That no type error occurs is proved under a condition on the combination of types and refuted without it: (float32, None) with bfloat16 weights and dense C fails in every step that is not skipped; float64 fails in the backward pass for block diagonal, hierarchical and Toeplitz structures.
* **C47 The warning about a forgotten initial gradient scale** (proved). Method: the log of warnings after every history. For every state reachable by any history from any successful construction.
* **C48 Evaluation passes have no effect** (proved). Method: commutation of an evaluation pass with the rest of the history. Evaluation pass inserted at any position of any history: all later outcomes and the whole later state (except the unused hook) are the same.
* **C49 Preconditioner dimensions of a layer** (proved). Method: shapes and entries of the gradient matrix and its split. Dimensions, gradient matrix entries and the split back into parameter shapes, for all layers.
* **C50 Layers used several times in one pass** (proved). Method: commutation of accumulation events, permutation of histories. All structures (block-diagonal included), any numbers, orders and interleavings of hooks of several modules; equality of the whole optimizer state. Exact arithmetic (floating-point addition is not associative).
* **C51 Regular training raises no exception** (proved). Method: Modelled: all calls as events (Optimizer.v, OptState.v). Invariant `inv` (Progress.v): typed matrices, torch shapes, positive scales, usable groups, allocated momenta, pending outputs as the last forward passes left them, statistics of covered layers, gradients; preserved by every regular event and sufficient for its success. The exact conditions C51_step and C51_backward follow from lemmas step_outcome and backward_outcome, which decide every call in the bodies of `step` and of the backward hook. Spec: ProgressSpec.v. C51_regular: `regular` is a condition on the calls alone (ProgressSpec.v). C51_step and C51_backward give the exact condition in all histories. The four _refuted theorems show calls that regular training excludes and that do raise: update interval shortened between passes and step, Riemannian momentum switched on after construction, a layer unused in an iteration, a negative scale.
* **C52 Preconditioners do not depend on weights, gradients, learning rate, momentum and weight decay** (proved). Method: Modelled: all calls as events (Optimizer.v, OptState.v), constructor (Construct.v). Relation `rel` between two states (Indep.v): equal but for parameter slots and for learning rate, momentum and weight decay of the groups; parameters have the same shapes and the same ones have gradients. Every pair of alike calls preserves it and both succeed or both fail (run_rel). Spec: IndepSpec.v. C52_independent compares two runs call by call (`alike`, IndepSpec.v) from two constructions with different weights. Which parameters have a gradient must agree: C52_missing_gradient_refuted shows that a missing gradient changes preconditioners of later layers, because the step raises half-way.
* **C53 The order of the samples in a batch does not matter** (proved). Method: Modelled: hooks, process_input, process_grad_output, patch extraction (OptimUtils.v, Optimizer.v). Shuffle.v: rows of a reordered batch are the rows of the original batch (from the description of every part of a batch in Batch.v, applied to single samples), sums are invariant under permutations, structured matrices with equal entries are equal; then a simulation over runs in which only recorded inputs differ. Spec: ShuffleSpec.v. C53_sample_order: any permutation in any forward and backward call, for all layers, approximations, loss averages and structures; needs the laws of the square root, which the real numbers have (C53_sample_order_real). The cases are evaluated with rational numbers whose square roots are rational. C53_positions_refuted marks the boundary: exchanging positions between samples changes the reduce approximation.
* **C54 Training does not depend on the orthonormal bases of the features** (proved). Method: Modelled: the whole optimizer (Optimizer.v, OptimUtils.v). Spec: RotateSpec.v (orthogonal matrices, tensors and calls in other bases). Rotate.v: calculus of rectangular matrix products, the update of the preconditioners, the natural gradient, the parameter update and the statistics commute with the change of basis; simulation of the two runs by induction on the history, with equal outcomes of all calls. C54_equivariant: all histories including failing calls, for every structure whose extraction commutes with the changes of basis; C54_dense: any orthonormal bases for dense structures; C54_diagonal: permutations with signs for diagonal ones; C54_same_function: both models compute the same function. Convolutions in the same model keep their bases. An output number always stands for outputs in one basis. C54_signed: with normalised momenta too, for permutations with signs and dense or diagonal structures; genuine rotations are possible without normalisation only: C54_normalized_refuted; diagonal structures do not admit genuine rotations: C54_diagonal_rotation_refuted.
* **C55 Loading a checkpoint replaces the whole state or nothing; what is accepted** (partial). Method: Modelled: state_dict and load_state_dict (Checkpoint.v), the optimizer, the constructor. Spec and lemmas: LoadFacts.v (sizes of groups, same_parameters, same_entries); case analysis of the load, then induction on the history that only the configuration entries which same_parameters fixes are read. The refutations are concrete runs. C55_all_or_nothing: load_state_dict either raises without changing anything or replaces the whole state; C55_accepted: exactly which checkpoints are accepted (numbers of groups and of parameters per group); C55_effect, C55_replaces: after an accepted checkpoint of an optimizer with the same parameters the behaviour is that of the saved optimizer, whatever happened to the loading one before. The expectation that an accepted checkpoint fits the model is false: C55_foreign_refuted (another layer size is accepted and the next backward pass raises), C55_exchanged_refuted (parameters handed over in another order: momentum buffers are silently exchanged).
* **C56 How many numbers the optimizer keeps** (proved). Method: Modelled: all structures and the whole optimizer. Spec: Storage.v (storage, by recursion on the class; held). Every valid object has the number of stored entries of its class; the typing invariant of OptTyped.v gives the classes and dimensions of all stored matrices in reachable states. Not modelled: memory used by temporaries, by the saved inputs of pending backward passes, or by the tensors of autograd. C56_layers: in every reachable state each layer holds count times storage numbers, at most 3 (2 without Riemannian momentum) matrices per side; C56_objects, C56_never_more, C56_linear: storage of the structures; C56_buffers: momentum buffers.
* **C57 The accumulated statistics have the signs of a covariance** (partial). Method: Modelled: the whole optimizer. Spec: Psd.v (quad, psd, diag_nonneg). The invariant run_stats of OptPre.v says that statistics are projections of Gram matrices; projections keep or average diagonals; the part of a Gram matrix on the classes of a partition is a sum of squares. Uses an ordered scalar (class Ordered), hence the two axioms of the standard real numbers. C57_diagonal: all structures, all reachable states. C57_psd_partial: positive semi-definite for dense, diagonal and block-diagonal structures; for the other supported structures this is false: C57_toeplitz_refuted, C57_hierarchical_refuted (runs of the optimizer).
* **C58 A structure matters only through the matrices it extracts** (partial). Method: Modelled: the whole optimizer, constructor and structures. Spec: RotateSpec.v (like, alike, same_but_structs, coincide, mirrored), proj of StructSpec.v. The simulation of Rotate.v relates two runs whose structures and bases differ; StructSwap.v shows which structures extract alike and that signed permutations keep the largest absolute entry (class Ordered, hence the two axioms of the standard real numbers). The refutation is a pair of concrete runs. C58_alike (two optimizers that differ in structures, possibly with features in other bases), C58_same (same bases), C58_coincide (all structures in dimension one; dense and hierarchical up to dimension 15), C58_mirror (lower and upper Toeplitz exchange roles when features are reversed): all histories, normalisation included. The claim is false for block-diagonal structures: C58_block_refuted (block30diag extracts the same as dense up to dimension 30, the trained weights differ because some products use the transposes). C58_bounds_refuted: beyond the stated dimensions the extractions differ.
* **C59 Without preconditioner learning rate SINGD is SGD with momentum and weight decay** (proved). Method: Modelled: the whole optimizer. Spec: SgdSpec.v, an SGD with momentum, weight decay, gradient scales and skipped steps that knows no preconditioners, statistics or layers (it receives the list of trained parameters). Sgd.v: invariant (identity preconditioners) and simulation over all histories. C59_identity (all histories, failing calls included): preconditioners stay the identity as long as the preconditioner learning rate is 0 whenever step is called. C59_sgd (all histories without raising steps): parameters and momentum buffers equal those of an independent SGD specification at every point. C59_rate_needed_refuted: without the condition the weights differ. Steps that raise are not part of the claim (a missing gradient or statistic raises although its value would not matter).
* **C60 KFAC-like preconditioners converge to the inverse of the damped curvature** (partial). Method: Modelled: the whole optimizer. Spec: NewtonSpec.v defines the second moments a layer has seen from the events alone (it knows no preconditioners), the damped curvature, the defect I - K^T A K and the maximum norm. MatInv.v: inverses of matrices over any field with the laws used here, and the contraction of the defect. Newton.v: tracking of the statistics and the invariant of the defect over all histories. Reals are used for the bounds only (toR maps the scalars of the model into R). C60_statistics (all structures but block-diagonal, all histories whose steps do not raise): the stored statistics are the projections of K^T M K for the second moments M seen since the last update. C60_newton (dense and diagonal structures): the exact one-step formula. C60_stationary (dense, diagonal) and C60_structures (all but block-diagonal): what an unchanged preconditioner means, and that the direction is then the exact Kronecker-factored Newton step. C60_rate, C60_limit: geometric convergence with an explicit bound, for constant damped curvature A with |I - A| <= q < 1 and learning rates in [b, 1]. C60_large_refuted: without the condition on A updates need not bring K K^T any nearer to the inverse (witness: K alternates between 1 and -1 over 4 updates), so the geometric rate does not hold for all curvatures. Convergence for other structures, with Riemannian momentum or in the INGD mode is not claimed.
* **C61 NaNs never disappear, and finite gradients do not guarantee finite weights** (partial). Method: Modelled: the whole optimizer over floating point numbers (Float.v, Coq SpecFloat). Spec: NanSpec.v names stored entries by position in the tensors and asks of NaN only that arithmetic absorbs it. Nan.v: a relation "NaN entries stay" between states, closed under every API call by composition; sums containing NaN for the dense products. Witnesses are runs in half and single precision. C61_parameters_keep, C61_preconditioners_keep: for any absorbing element of the scalars (instance: the NaN of IEEE 754 in every precision), every configuration, state and history, all structures. C61_preconditioner_poisons, C61_gradient_poisons, C61_scale_poisons, C61_scale_statistics: dense structures (with diagonal ones only a row or column is lost, C61_diagonal_example). The claim that skipping non-finite gradients keeps the weights finite is false: C61_overflow_refuted (half precision, an input of 300 overflows in the statistics while all gradients are finite and the step is not skipped). C61_scaling_refuted: in single precision a gradient scale of 3 changes the weights, so C26 is a statement about exact arithmetic.
* **C62 The constructor warns about exactly what it ignores** (partial). Method: Modelled: Warn.v, the warnings of the constructor in their order (what they name, not their texts), with the exceptions that cut them off. Spec: on the arguments alone (CtorSpec.v). Induction over the modules and groups. C62_unsupported: exactly which layers are warned about, for every call, failing or not (any scalars). C62_alpha: exactly which groups are warned about in a successful call, and that these and only these get alpha1 = 0. C62_once: no warning twice. C62_complete_partial: silence means that all trainable parameters of leaf modules are handed to the optimizer. For parameters owned by a module with children it is false: C62_container_refuted (such a parameter gets a gradient, is in no group and nobody is warned).
* **C63 A layer is trained through its matrix view only** (proved). Method: Spec: LayerSpec.v, layers as matrices (weight flattened behind its first axis, bias as last column), the rewriting of a module, its inputs and output gradients, and of every call. LayerCtor.v: the constructor on the rewritten model; LayerSim.v: a simulation relation kept by every call; LayerInst.v: the statistics of a linear layer on extended inputs or patches equal those of the layer. C63_bias and C63_patches: simulation of two trainings call by call, from the constructor on, for any histories with well-formed tensors, all structures, failing calls included. Convolutions must have symmetric padding (for others the expand approximation raises, C41/C48); what autograd writes into the gradients is an input and must be the same matrix.
* **C64 The order in which modules, groups and parameters are listed does not matter** (proved). Method: Spec: RelistSpec.v, calls and events that list modules, groups and parameters in another order, and equality of everything observable. Relist.v: a successful pass over the modules does to each module what it does alone, so its order is irrelevant; RelistCtor.v: the constructors called with the two orders produce related states. Two refutations show that both conditions (no raising step, no shared parameter) are needed. C64_order: simulation of the two trainings from the constructor on, for any permutation of the registered modules, of the groups and of the parameters inside the groups; C64_loop: one pass over the modules. Both conditions are needed: C64_failing_refuted (a step that raises updates only the layers before the failing one) and C64_tied_refuted (layers sharing a weight).
* **C65 Performance warnings are issued for naive implementations only** (partial). Method: Naive.v models `_warn_naive_implementation`, the class attributes it reads and which class defines which method, and runs the code of the structures and of the optimizer once more in a monad that collects the warnings; C65_results proves that this changes no result and no state. Spec: NaiveSpec.v, the warnings of each call in terms of the structures of the groups and of which layers are due. Not modelled: the warning texts and the filter of the warnings module. Refuted part: triltoeplitz.py/triutoeplitz.py exempt from_inner, but base.py:284 then calls from_mat_inner, which neither class defines and which is not exempt. Proved: which performance warnings each call issues (C65_calls for calls that return, C65_only also for calls that raise, C65_constructor), that trainings without Toeplitz structures issue none (C65_silent) and that recursive classes warn (C65_recursive). The part of the documentation that methods in WARN_NAIVE_EXCEPTIONS trigger no warning is false: C65_exempt_refuted.
* **C66 Without weight sharing the settings for weight sharing have no effect** (partial). Method: Spec: SharingSpec.v, constructor calls, groups and events that differ in kfac_approx and in batch/batch+sequence only, and histories without weight sharing, stated on the events alone (which backward pass belongs to which forward pass, and the shapes). Sharing.v: the statistics coincide (from C43), every event keeps the two states equal up to these settings, and the two constructors start in such states. Proved for every history in which each sample uses the weights of each layer once (C66_no_sharing) and for the constructor (C66_constructor). False for convolutions with uneven "same" padding, where expand raises NotImplementedError and reduce does not: C66_uneven_refuted. With shared weights both settings matter: C66_sharing_refuted.
* **C67 Components of structured matrices are registered and listed under distinct names, and in-place operations change exactly these components** (partial). Method: Registry.v models objects with attributes, lists of registered names and references to tensors in a heap; the constructors as sequences of registrations; named_tensors, mul_ and add_ as loops over references. RegistrySpec.v: the names of each class, the references of a matrix, dotted names and attribute access, reachable objects. RegistryFacts.v: induction over the nesting of recursive matrices; the loops over references simulate the operations on values of Structures.v. Proved: registration (C67_register), the listing of every class (C67_construct, C67_pairs), names read backwards are attribute paths (C67_path), and mul_/add_ on references agree with the value semantics when no tensor is registered twice (C67_values, C67_mul, C67_add, C67_self). False: names read forwards are attribute paths (C67_dotted_refuted, C67_misread_refuted); mul_ with a tensor registered twice (C67_shared_refuted); a failing add_ leaves self unchanged (C67_failed_add_refuted). C67_reserved lists the interface of the classes in the specification.
* **C68 Asynchronous all_reduce is equivalent to the synchronous one once its handles are ready** (partial). Method: Async.v: a transition system of R processes, each executing the loop of all_reduce on its own references, and a backend that performs started collectives in any order; a schedule is any list of moves, including writes of other code. AsyncFacts.v: an invariant of all schedules (calls made so far, value of each component, which collectives can have been performed), a measure for termination, and the comparison with the synchronous processes of Dist.v. Proved for every schedule of processes and backend: C68_handles, C68_state, C68_result, C68_progress, C68_rendezvous. False: that the result is there when the call returns (C68_early_refuted), and that components may be written before waiting (C68_race_refuted).
* **C69 Trainings superpose: weights and momentum buffers are linear in initial weights and gradients** (partial). Method: LinearSpec.v: mixtures of tensors, of optional tensors and of calls. LinearFacts.v: the hooks, scales and preconditioner updates ignore the parameters; the natural gradient is a linear map of the gradient matrix (dir_mix, from nat_grad_any, for every class); splitting, weight decay, momentum and the update are linear; three runs are simulated in lockstep over any events, failing and skipped steps included. C69_zero is the case of the zero mixture. The gradients handed over are free in the model, since autograd is not modelled; the refuted part scales the output gradients of the passes too. Proved for all histories, structures and settings: C69_superposition and C69_zero. False: linearity when the passes change with the gradients (C69_loss_refuted: a loss of twice the size does not double the updates).
* **C70 Initial weights are forgotten through weight decay only** (proved). Method: DecaySpec.v: settings in force at the steps that count, read off the calls (in_force); the scalar recursion of momentum and weight decay (drift). DecayFacts.v: with zero gradients every direction is zero (the mixture 0 x + 0 y of LinearFacts), so one entry follows drift; the difference of two trainings is, by the superposition of C69 with factors 1 and -1, a training with zero gradients. The gradients are free in the model; that two real trainings with different weights would see different gradients is not denied: the statement concerns what is left when they are the same. C70_decay, C70_difference for all histories in which no step raises (a step that raises may have changed some layers only), all structures and settings, learning rate schedules and skipped steps included. C70_forgets, C70_remembers and C70_rate are the cases without momentum, without weight decay, and over ordered fields.
* **C71 Without weight decay the learning rate scales the way the weights go, and nothing else** (proved). Method: RateSpec.v: groups and calls that differ in the learning rates by a factor. RateFacts.v: two runs side by side (invariant two: everything but groups and parameters is the same; gradients are the same; weights of the second are initial weights plus r times the displacement of the first; buffers agree), by induction over the calls; for learning rate zero the same invariant is used without the claim on buffers. The way a training script starts with other learning rates is modelled as an edit of the parameter groups right after construction. C71_gradients follows from the superposition of C69 with factors r and 1 - r, the second training having zero gradients and hence constant weights (C70). C71_scaled for all histories, structures, settings, schedules and factors, raising and skipped steps included; it needs weight decay zero, and C71_decay_refuted shows that it fails otherwise. C71_still needs no such assumption. C71_gradients is stated for histories in which no step raises and no gradient is present at construction. Exact arithmetic (any field).

Not settled here: numerical accuracy in low precision (error bounds), run time and memory claims.

## 4. Mutation tests

`seeded/LOG.jsonl`: every line is one wrong program (one definition edited in a copy), the claim it breaks, and the theorems
whose proofs (or the proofs they depend on) fail.
