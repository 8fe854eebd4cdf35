{"id": "C01", "title": "zeros and eye represent the zero and identity matrix", "statement": "For every structured matrix class and every dimension, `cls.zeros(n).to_dense()` is the n x n zero matrix and `cls.eye(n).to_dense()` is the n x n identity matrix; the only exception is that `eye(0)` of the two Toeplitz classes raises IndexError.", "quantifier": "all structured classes (including every nesting of the recursive templates and every block size), all dimensions n >= 0", "why_tests_cant": "Tests check the handful of dimensions in DIMS; the remainder handling (n not a multiple of the block size, n smaller than the structural pieces) gives infinitely many shapes.", "anchors": [{"file": "singd/structures/base.py", "symbol": "zeros / eye"}, {"file": "singd/structures/dense.py", "symbol": "zeros / eye"}, {"file": "singd/structures/diagonal.py", "symbol": "zeros / eye"}, {"file": "singd/structures/blockdiagonal.py", "symbol": "zeros / eye"}, {"file": "singd/structures/hierarchical.py", "symbol": "zeros / eye"}, {"file": "singd/structures/recursive.py", "symbol": "zeros / eye"}, {"file": "singd/structures/triltoeplitz.py", "symbol": "zeros / eye"}, {"file": "singd/structures/triutoeplitz.py", "symbol": "zeros / eye"}]}
{"id": "C02", "title": "Product of two structured matrices is the structured form of the dense product", "statement": "For two structured matrices of the same class and dimension, `(a @ b)` succeeds, is again of that class and dimension, and `(a @ b).to_dense() == a.to_dense() @ b.to_dense()`. No information is lost: the class is closed under multiplication.", "quantifier": "all classes, all dimensions, all entries of both factors (not only symmetric inputs)", "why_tests_cant": "Tests use a few random symmetric inputs; closure under products of products is a statement about all entries and all dimensions.", "anchors": [{"file": "singd/structures/base.py", "symbol": "__matmul__"}, {"file": "singd/structures/dense.py", "symbol": "__matmul__"}, {"file": "singd/structures/diagonal.py", "symbol": "__matmul__"}, {"file": "singd/structures/blockdiagonal.py", "symbol": "__matmul__"}, {"file": "singd/structures/hierarchical.py", "symbol": "__matmul__"}, {"file": "singd/structures/recursive.py", "symbol": "__matmul__"}, {"file": "singd/structures/triltoeplitz.py", "symbol": "__matmul__"}, {"file": "singd/structures/triutoeplitz.py", "symbol": "__matmul__"}]}
{"id": "C03", "title": "Multiplying a structured matrix onto a tensor equals the dense multiplication", "statement": "`a @ X == a.to_dense() @ X` for every tensor X with matching number of rows, and an exception (never a silently wrong result) if the number of rows does not match.", "quantifier": "all classes, all dimensions, all numbers of columns, all entries", "why_tests_cant": "Infinitely many shapes and values; remainder blocks and boundary indices are easy to get wrong outside of the tested sizes.", "anchors": [{"file": "singd/structures/base.py", "symbol": "__matmul__"}, {"file": "singd/structures/dense.py", "symbol": "__matmul__"}, {"file": "singd/structures/diagonal.py", "symbol": "__matmul__"}, {"file": "singd/structures/blockdiagonal.py", "symbol": "__matmul__"}, {"file": "singd/structures/hierarchical.py", "symbol": "__matmul__"}, {"file": "singd/structures/recursive.py", "symbol": "__matmul__"}, {"file": "singd/structures/triltoeplitz.py", "symbol": "__matmul__"}, {"file": "singd/structures/triutoeplitz.py", "symbol": "__matmul__"}]}
{"id": "C04", "title": "rmatmat multiplies with the transpose", "statement": "`a.rmatmat(X) == a.to_dense().T @ X` for every tensor X with matching number of rows.", "quantifier": "all classes except block-diagonal (see C05), all dimensions, numbers of columns and entries", "why_tests_cant": "Tests only build `a` from symmetric matrices, where a missing transpose cannot be seen for several classes.", "anchors": [{"file": "singd/structures/base.py", "symbol": "rmatmat"}, {"file": "singd/structures/dense.py", "symbol": "rmatmat"}, {"file": "singd/structures/diagonal.py", "symbol": "rmatmat"}, {"file": "singd/structures/blockdiagonal.py", "symbol": "rmatmat"}, {"file": "singd/structures/hierarchical.py", "symbol": "rmatmat"}, {"file": "singd/structures/recursive.py", "symbol": "rmatmat"}, {"file": "singd/structures/triltoeplitz.py", "symbol": "rmatmat"}, {"file": "singd/structures/triutoeplitz.py", "symbol": "rmatmat"}]}
{"id": "C05", "title": "Transpose products of block-diagonal matrices", "statement": "`rmatmat` of a block-diagonal matrix multiplies with the transpose and `from_inner` extracts from `a.T @ X @ X.T @ a`, also for matrices the optimizer itself produces. (The code multiplies without transposing, so this can only hold for symmetric blocks; whether an optimizer run keeps its blocks symmetric is part of the property.)", "quantifier": "all block sizes, dimensions and entries; all preconditioners reachable by optimizer steps", "why_tests_cant": "The test-suite constructs block-diagonal matrices from symmetric matrices only, so the missing transpose is invisible to it; the reachable set of preconditioners is infinite.", "anchors": [{"file": "singd/structures/blockdiagonal.py", "symbol": "BlockDiagonalMatrixTemplate.rmatmat"}, {"file": "singd/structures/blockdiagonal.py", "symbol": "BlockDiagonalMatrixTemplate.from_inner"}, {"file": "singd/optim/optimizer.py", "symbol": "SINGD._update_preconditioner"}, {"file": "singd/optim/optimizer.py", "symbol": "SINGD._compute_natural_gradient"}]}
{"id": "C06", "title": "Sum, scalar multiple and their in-place versions agree with the dense operations", "statement": "`(a + b).to_dense() == a.to_dense() + b.to_dense()`, `(a * c).to_dense() == c * a.to_dense()`, `a.add_(b, alpha)` makes `a` represent `a + alpha * b`, `a.mul_(c)` makes it represent `c * a`; the class and dimension are unchanged.", "quantifier": "all classes, dimensions, entries and scalars", "why_tests_cant": "Values and shapes are unbounded; in-place updates walk over registered tensors pairwise, which is only right if the order and number of tensors always agree.", "anchors": [{"file": "singd/structures/base.py", "symbol": "__add__ / __mul__"}, {"file": "singd/structures/dense.py", "symbol": "__add__ / __mul__"}, {"file": "singd/structures/diagonal.py", "symbol": "__add__ / __mul__"}, {"file": "singd/structures/blockdiagonal.py", "symbol": "__add__ / __mul__"}, {"file": "singd/structures/hierarchical.py", "symbol": "__add__ / __mul__"}, {"file": "singd/structures/recursive.py", "symbol": "__add__ / __mul__"}, {"file": "singd/structures/triltoeplitz.py", "symbol": "__add__ / __mul__"}, {"file": "singd/structures/triutoeplitz.py", "symbol": "__add__ / __mul__"}, {"file": "singd/structures/base.py", "symbol": "add_"}, {"file": "singd/structures/base.py", "symbol": "mul_"}]}
{"id": "C07", "title": "from_dense extracts the documented structure of a symmetric matrix", "statement": "For a symmetric matrix M, `cls.from_dense(M)` succeeds and represents the documented projection: dense keeps M; diagonal keeps the diagonal; block-diagonal keeps the diagonal blocks; hierarchical keeps A, diagonal C, E and doubles the off-diagonal parts B and D; the Toeplitz classes average every diagonal (off-diagonals doubled); the recursive templates double the off-diagonal block and recurse.", "quantifier": "all classes, dimensions, symmetric matrices", "why_tests_cant": "Tests compare with a second implementation on a few sizes.", "anchors": [{"file": "singd/structures/base.py", "symbol": "from_dense"}, {"file": "singd/structures/dense.py", "symbol": "from_dense"}, {"file": "singd/structures/diagonal.py", "symbol": "from_dense"}, {"file": "singd/structures/blockdiagonal.py", "symbol": "from_dense"}, {"file": "singd/structures/hierarchical.py", "symbol": "from_dense"}, {"file": "singd/structures/recursive.py", "symbol": "from_dense"}, {"file": "singd/structures/triltoeplitz.py", "symbol": "from_dense"}, {"file": "singd/structures/triutoeplitz.py", "symbol": "from_dense"}]}
{"id": "C08", "title": "from_dense inverts to_dense", "statement": "Converting a structured matrix to dense and back gives the same structured matrix: `cls.from_dense(a.to_dense())` equals `a`. Users of the template classes rely on this because the base class implements `+`, `*`, `@` and `diag_add_` through this round trip.", "quantifier": "all classes and nestings, dimensions, entries", "why_tests_cant": "The round trip is never exercised on non-symmetric representable matrices by the tests.", "anchors": [{"file": "singd/structures/base.py", "symbol": "from_dense / to_dense"}, {"file": "singd/structures/dense.py", "symbol": "from_dense / to_dense"}, {"file": "singd/structures/diagonal.py", "symbol": "from_dense / to_dense"}, {"file": "singd/structures/blockdiagonal.py", "symbol": "from_dense / to_dense"}, {"file": "singd/structures/hierarchical.py", "symbol": "from_dense / to_dense"}, {"file": "singd/structures/recursive.py", "symbol": "from_dense / to_dense"}, {"file": "singd/structures/triltoeplitz.py", "symbol": "from_dense / to_dense"}, {"file": "singd/structures/triutoeplitz.py", "symbol": "from_dense / to_dense"}]}
{"id": "C09", "title": "Structure extraction from inner products", "statement": "`a.from_inner(X)` represents the class projection (C07) of `a.T @ X @ X.T @ a`, `a.from_inner()` that of `a.T @ a`, `a.from_inner2(XXT)` that of `a.T @ XXT @ a` for symmetric XXT, `cls.from_mat_inner(X)` that of `X @ X.T`, without computing the dense matrix.", "quantifier": "all classes (block-diagonal: see C05), dimensions, entries, numbers of columns of X", "why_tests_cant": "The specialised implementations re-derive the projection entry by entry; the tests sample symmetric `a` only.", "anchors": [{"file": "singd/structures/base.py", "symbol": "from_inner / from_inner2 / from_mat_inner"}, {"file": "singd/structures/dense.py", "symbol": "from_inner / from_inner2 / from_mat_inner"}, {"file": "singd/structures/diagonal.py", "symbol": "from_inner / from_inner2 / from_mat_inner"}, {"file": "singd/structures/blockdiagonal.py", "symbol": "from_inner / from_inner2 / from_mat_inner"}, {"file": "singd/structures/hierarchical.py", "symbol": "from_inner / from_inner2 / from_mat_inner"}, {"file": "singd/structures/recursive.py", "symbol": "from_inner / from_inner2 / from_mat_inner"}, {"file": "singd/structures/triltoeplitz.py", "symbol": "from_inner / from_inner2 / from_mat_inner"}, {"file": "singd/structures/triutoeplitz.py", "symbol": "from_inner / from_inner2 / from_mat_inner"}]}
{"id": "C10", "title": "average_trace is the trace divided by the dimension", "statement": "`a.average_trace() == trace(a.to_dense()) / n` for every structured matrix of dimension n >= 1.", "quantifier": "all classes, dimensions, entries", "why_tests_cant": "Unbounded shapes and values.", "anchors": [{"file": "singd/structures/base.py", "symbol": "average_trace"}, {"file": "singd/structures/dense.py", "symbol": "average_trace"}, {"file": "singd/structures/diagonal.py", "symbol": "average_trace"}, {"file": "singd/structures/blockdiagonal.py", "symbol": "average_trace"}, {"file": "singd/structures/hierarchical.py", "symbol": "average_trace"}, {"file": "singd/structures/recursive.py", "symbol": "average_trace"}, {"file": "singd/structures/triltoeplitz.py", "symbol": "average_trace"}, {"file": "singd/structures/triutoeplitz.py", "symbol": "average_trace"}]}
{"id": "C11", "title": "diag_add_ adds to the diagonal only", "statement": "After `a.diag_add_(v)` the represented matrix is the old one plus v times the identity, in the same class and dimension.", "quantifier": "all classes, dimensions, entries, v", "why_tests_cant": "Unbounded shapes and values; some classes update through views, some through a dense round trip.", "anchors": [{"file": "singd/structures/base.py", "symbol": "diag_add_"}, {"file": "singd/structures/dense.py", "symbol": "diag_add_"}, {"file": "singd/structures/diagonal.py", "symbol": "diag_add_"}, {"file": "singd/structures/blockdiagonal.py", "symbol": "diag_add_"}, {"file": "singd/structures/hierarchical.py", "symbol": "diag_add_"}, {"file": "singd/structures/recursive.py", "symbol": "diag_add_"}, {"file": "singd/structures/triltoeplitz.py", "symbol": "diag_add_"}, {"file": "singd/structures/triutoeplitz.py", "symbol": "diag_add_"}]}
{"id": "C12", "title": "infinity_vector_norm is the largest absolute entry of the represented matrix", "statement": "`a.infinity_vector_norm()` equals the maximum absolute entry of `a.to_dense()`: it bounds every entry and is attained, for dimension n >= 1.", "quantifier": "all classes, dimensions >= 1, entries", "why_tests_cant": "A norm claim is a claim about all entries of all matrices.", "anchors": [{"file": "singd/structures/base.py", "symbol": "infinity_vector_norm"}, {"file": "singd/structures/dense.py", "symbol": "infinity_vector_norm"}, {"file": "singd/structures/diagonal.py", "symbol": "infinity_vector_norm"}, {"file": "singd/structures/blockdiagonal.py", "symbol": "infinity_vector_norm"}, {"file": "singd/structures/hierarchical.py", "symbol": "infinity_vector_norm"}, {"file": "singd/structures/recursive.py", "symbol": "infinity_vector_norm"}, {"file": "singd/structures/triltoeplitz.py", "symbol": "infinity_vector_norm"}, {"file": "singd/structures/triutoeplitz.py", "symbol": "infinity_vector_norm"}]}
{"id": "C13", "title": "frobenius_norm is the Frobenius norm of the represented matrix", "statement": "`a.frobenius_norm()` squared equals the sum of the squared entries of `a.to_dense()` and it is non-negative.", "quantifier": "all classes, dimensions, entries", "why_tests_cant": "Multiplicities of implicitly repeated entries (Toeplitz) must be right for every dimension.", "anchors": [{"file": "singd/structures/base.py", "symbol": "frobenius_norm"}, {"file": "singd/structures/dense.py", "symbol": "frobenius_norm"}, {"file": "singd/structures/diagonal.py", "symbol": "frobenius_norm"}, {"file": "singd/structures/blockdiagonal.py", "symbol": "frobenius_norm"}, {"file": "singd/structures/hierarchical.py", "symbol": "frobenius_norm"}, {"file": "singd/structures/recursive.py", "symbol": "frobenius_norm"}, {"file": "singd/structures/triltoeplitz.py", "symbol": "frobenius_norm"}, {"file": "singd/structures/triutoeplitz.py", "symbol": "frobenius_norm"}]}
{"id": "C14", "title": "Recursive templates work for every nesting depth", "statement": "Every class built from the two recursive templates over dense, diagonal and Toeplitz classes (to any depth, with any maximum dimensions) satisfies C01-C13.", "quantifier": "all class trees, all dimensions", "why_tests_cant": "There are infinitely many user-definable classes; the tests fix four.", "anchors": [{"file": "singd/structures/recursive.py", "symbol": "RecursiveTopRightMatrixTemplate"}, {"file": "singd/structures/recursive.py", "symbol": "RecursiveBottomLeftMatrixTemplate"}]}
{"id": "C15", "title": "Malformed components are rejected at construction", "statement": "Constructing a structured matrix from components succeeds exactly if the components have the documented shapes; otherwise a ValueError is raised, so no malformed structured matrix can exist.", "quantifier": "all component shapes of block-diagonal, hierarchical and recursive matrices", "why_tests_cant": "The set of malformed shapes is infinite.", "anchors": [{"file": "singd/structures/blockdiagonal.py", "symbol": "BlockDiagonalMatrixTemplate.__init__"}, {"file": "singd/structures/hierarchical.py", "symbol": "HierarchicalMatrixTemplate.__init__"}, {"file": "singd/structures/recursive.py", "symbol": "RecursiveTopRightMatrixTemplate.__init__"}, {"file": "singd/structures/recursive.py", "symbol": "RecursiveBottomLeftMatrixTemplate.__init__"}]}
{"id": "C16", "title": "Toeplitz helper functions", "statement": "`toeplitz_matmul(coeffs, X)` multiplies the Toeplitz matrix with entries coeffs[N-1+j-i] onto X for every coefficient vector of length 2N-1 and rejects other lengths; `all_traces(M)` returns the sums along all diagonals of a rectangular matrix, from the bottom-left to the top-right one.", "quantifier": "all N, numbers of columns, rectangular shapes, values", "why_tests_cant": "Convolution/padding index arithmetic must be right for every size.", "anchors": [{"file": "singd/structures/utils.py", "symbol": "toeplitz_matmul"}, {"file": "singd/structures/utils.py", "symbol": "all_traces"}]}
{"id": "C17", "title": "lowest_precision picks the lowest supported precision", "statement": "`lowest_precision(d1,...,dk)` returns one of its arguments, is independent of the order and repetition of its arguments, and raises NotImplementedError exactly if some argument is not float16, bfloat16 or float32.", "quantifier": "all finite non-empty argument lists", "why_tests_cant": "Argument lists are unbounded.", "anchors": [{"file": "singd/structures/utils.py", "symbol": "lowest_precision"}]}
{"id": "C18", "title": "all_reduce reduces every tensor in place", "statement": "After `a.all_reduce(op)` on every rank, the structured matrix on each rank represents the reduction (sum or mean) of the matrices of all ranks.", "quantifier": "all classes, world sizes, entries and memory layouts of the component tensors", "why_tests_cant": "The distributed test-suite has two ranks and matrices created in one way; memory layout of components is not varied.", "anchors": [{"file": "singd/structures/base.py", "symbol": "StructuredMatrix.all_reduce"}]}
{"id": "C19", "title": "Hyper-parameter validation", "statement": "Constructing the optimizer raises ValueError if lr, lr_cov, alpha1, momentum or weight_decay is not valid (documented: non-positive values are rejected), kfac_approx or loss_average is unknown, TypeError for DP/DDP wrapped models, and succeeds otherwise.", "quantifier": "all hyper-parameter values of all python number types, all param groups", "why_tests_cant": "The hyper-parameter space is infinite; per-group overrides multiply it.", "anchors": [{"file": "singd/optim/optimizer.py", "symbol": "SINGD.__init__"}, {"file": "singd/optim/optimizer.py", "symbol": "SINGD._check_param_groups"}]}
{"id": "C20", "title": "Parameters of one layer must be in the same group", "statement": "Construction is rejected with ValueError exactly if some supported leaf layer has parameters in more than one parameter group; otherwise every parameter's hyper-parameters are those of the group it was passed in.", "quantifier": "all models, all distributions of parameters over groups", "why_tests_cant": "Unbounded models and groupings.", "anchors": [{"file": "singd/optim/optimizer.py", "symbol": "SINGD._check_param_groups"}, {"file": "singd/optim/optimizer.py", "symbol": "SINGD._get_param_group_entry"}]}
{"id": "C21", "title": "Exactly the parameters handed to the optimizer are trained", "statement": "With an explicit parameter list, a step changes only parameters in that list; with `params=None`, exactly the trainable parameters of supported leaf layers are handed to the optimizer.", "quantifier": "all models, all parameter lists, all gradients", "why_tests_cant": "Requires considering every subset of parameters of every model.", "anchors": [{"file": "singd/optim/optimizer.py", "symbol": "SINGD._get_trainable_parameters"}, {"file": "singd/optim/optimizer.py", "symbol": "SINGD._install_hooks"}, {"file": "singd/optim/optimizer.py", "symbol": "SINGD._compute_natural_gradient"}, {"file": "singd/optim/optimizer.py", "symbol": "SINGD._step"}]}
{"id": "C22", "title": "Preconditioners keep class and dimension for the whole training", "statement": "Preconditioners start as identity of the layer's dimensions (inputs incl. bias column, outputs), momenta start at zero and are only allocated when alpha1 != 0; after any history of calls every preconditioner and momentum still has the class of its group's structure and the layer's dimensions.", "quantifier": "all models, histories of forward/backward/step calls", "why_tests_cant": "An invariant over unbounded histories.", "anchors": [{"file": "singd/optim/optimizer.py", "symbol": "SINGD._initialize_buffers"}, {"file": "singd/optim/optimizer.py", "symbol": "SINGD.preconditioner_dims"}, {"file": "singd/optim/optimizer.py", "symbol": "SINGD._update_preconditioner"}]}
{"id": "C23", "title": "Update schedule", "statement": "Every successful step increases `optimizer.steps` by one (also skipped ones); preconditioners and their momenta change only in steps t with t % T == 0; in n successful steps with T fixed exactly ceil(n/T) update opportunities occur.", "quantifier": "all histories, all T >= 1 per group", "why_tests_cant": "History length is unbounded.", "anchors": [{"file": "singd/optim/optimizer.py", "symbol": "SINGD.step"}, {"file": "singd/optim/optimizer.py", "symbol": "SINGD._update_preconditioner"}]}
{"id": "C24", "title": "Curvature accumulators are consumed exactly once", "statement": "Statistics collected in backward passes before a step at an update step are used in this step and then dropped; a step at an update step succeeds only if each layer has seen a backward pass of a forward pass made at an update step (otherwise KeyError); at other steps no statistics are collected or used.", "quantifier": "all interleavings of forward, backward and step calls", "why_tests_cant": "Interleavings are unbounded.", "anchors": [{"file": "singd/optim/optimizer.py", "symbol": "SINGD._accumulate_H_terms"}, {"file": "singd/optim/optimizer.py", "symbol": "SINGD._hook_accumulate_H_terms"}, {"file": "singd/optim/optimizer.py", "symbol": "SINGD._update_preconditioner"}]}
{"id": "C25", "title": "Gradient scale bookkeeping never loses the previous scale", "statement": "At every time the scale of the previous step is available, at most two scales are stored, and looking up the previous scale during backward or step never raises.", "quantifier": "all histories of set_current_grad_scale, step (successful, skipped, failing) and checkpoint calls", "why_tests_cant": "Invariant over unbounded histories.", "anchors": [{"file": "singd/optim/optimizer.py", "symbol": "SINGD.step"}, {"file": "singd/optim/optimizer.py", "symbol": "SINGD._get_grad_scale"}, {"file": "singd/optim/optimizer.py", "symbol": "SINGD._remove_used_grad_scales"}, {"file": "singd/optim/optimizer.py", "symbol": "SINGD.set_current_grad_scale"}]}
{"id": "C26", "title": "Training is invariant under gradient scaling", "statement": "Training with losses scaled by any sequence of positive scales (announced to the optimizer) yields the same parameters, preconditioners and momenta after every step as training without scaling.", "quantifier": "all scale sequences, losses, layers, hyper-parameters, histories", "why_tests_cant": "Scale sequences and histories are infinite.", "anchors": [{"file": "singd/optim/optimizer.py", "symbol": "SINGD._accumulate_H_terms"}, {"file": "singd/optim/optimizer.py", "symbol": "SINGD._update_preconditioner"}, {"file": "singd/optim/optimizer.py", "symbol": "SINGD._compute_natural_gradient"}, {"file": "singd/optim/optimizer.py", "symbol": "SINGD.set_current_grad_scale"}]}
{"id": "C27", "title": "A step with non-finite gradients is skipped", "statement": "If the scaler reports a non-finite gradient, the step changes no parameter, momentum, preconditioner or preconditioner momentum, drops all accumulated statistics, and still advances the step counter and scale bookkeeping.", "quantifier": "all optimizer states", "why_tests_cant": "Every reachable state is a case.", "anchors": [{"file": "singd/optim/optimizer.py", "symbol": "SINGD.step"}]}
{"id": "C28", "title": "The preconditioner update implements the documented recurrence", "statement": "One preconditioner update replaces K by K (I - beta m_K) and C by C (I - beta m_C) with m the Riemannian momentum built from the projected curvature, damping and old momentum as documented (INGD and KFAC-like variant); structured classes do the same on their dense representations.", "quantifier": "all classes, dimensions, hyper-parameters, accumulated statistics", "why_tests_cant": "Equality of two functions on an infinite domain.", "anchors": [{"file": "singd/optim/optimizer.py", "symbol": "SINGD._update_preconditioner"}]}
{"id": "C29", "title": "The update direction is the gradient multiplied by both preconditioners and is never an ascent direction", "statement": "The direction for a layer with gradient matrix G (bias as last column) is C C^T G K K^T, reshaped like the parameters, and its inner product with the gradient is non-negative.", "quantifier": "all layers, gradients, preconditioners (block-diagonal: see C05)", "why_tests_cant": "Holds for every gradient and preconditioner or it is useless as descent guarantee.", "anchors": [{"file": "singd/optim/optimizer.py", "symbol": "SINGD._compute_natural_gradient"}]}
{"id": "C30", "title": "Momentum and weight decay", "statement": "After n steps the momentum buffer is the geometrically weighted sum of all past (direction + weight_decay * parameter) terms and each parameter has decreased by lr times the buffer; with momentum 0 no buffer is kept.", "quantifier": "all histories, hyper-parameters", "why_tests_cant": "Closed form over unbounded histories.", "anchors": [{"file": "singd/optim/optimizer.py", "symbol": "SINGD._step"}]}
{"id": "C31", "title": "Gradient accumulation", "statement": "Accumulating the gradients of several micro-batches before a step gives the same update as one backward pass on the whole mini-batch.", "quantifier": "all splits into micro-batches, all loss averages, both update variants", "why_tests_cant": "Infinitely many splits; the failing configurations are skipped by the test-suite.", "anchors": [{"file": "singd/optim/optimizer.py", "symbol": "SINGD._accumulate_H_terms"}, {"file": "singd/optim/utils.py", "symbol": "linear_process_grad_output"}, {"file": "singd/optim/utils.py", "symbol": "linear_process_input"}]}
{"id": "C32", "title": "Distributed training equals single-device training", "statement": "With the batch split evenly over any number of ranks, every rank performs the update a single device would perform on the whole batch, and all ranks hold the same preconditioners and parameters.", "quantifier": "all world sizes, batches, loss averages", "why_tests_cant": "World size and data are unbounded.", "anchors": [{"file": "singd/optim/optimizer.py", "symbol": "SINGD._accumulate_H_terms"}, {"file": "singd/optim/optimizer.py", "symbol": "SINGD._compute_natural_gradient"}, {"file": "singd/structures/base.py", "symbol": "StructuredMatrix.all_reduce"}]}
{"id": "C33", "title": "Ranks issue matching collectives", "statement": "All ranks issue the same sequence of collective operations, so no rank blocks forever: this must hold for every history, including steps in which gradients overflow.", "quantifier": "all histories of calls on all ranks", "why_tests_cant": "Deadlocks depend on rank-local data such as overflows.", "anchors": [{"file": "singd/optim/optimizer.py", "symbol": "SINGD.step"}, {"file": "singd/optim/optimizer.py", "symbol": "SINGD._step"}, {"file": "singd/optim/optimizer.py", "symbol": "SINGD._accumulate_H_terms"}]}
{"id": "C34", "title": "Checkpointing resumes the same run", "statement": "Saving with state_dict at any point between steps, restoring into a freshly built optimizer and model, and continuing gives exactly the run without interruption.", "quantifier": "all histories before and after the checkpoint", "why_tests_cant": "Crash points and continuations are unbounded.", "anchors": [{"file": "singd/optim/optimizer.py", "symbol": "SINGD.state_dict"}, {"file": "singd/optim/optimizer.py", "symbol": "SINGD.load_state_dict"}]}
{"id": "C35", "title": "state_dict is a snapshot and load_state_dict leaves its argument alone", "statement": "A dictionary returned by state_dict does not change when training continues, loading it does not modify it (so it can be loaded again), and loading does not couple two optimizers.", "quantifier": "all histories after taking/loading a state dict", "why_tests_cant": "Aliasing shows only under later mutation histories.", "anchors": [{"file": "singd/optim/optimizer.py", "symbol": "SINGD.state_dict"}, {"file": "singd/optim/optimizer.py", "symbol": "SINGD.load_state_dict"}]}
{"id": "C36", "title": "Parameter groups are independent", "statement": "One optimizer with several parameter groups behaves like separate optimizers, one per group; a layer's update depends only on its own state, gradients and group.", "quantifier": "all models, groupings, histories", "why_tests_cant": "Non-interference over unbounded histories.", "anchors": [{"file": "singd/optim/optimizer.py", "symbol": "SINGD._step"}, {"file": "singd/optim/optimizer.py", "symbol": "SINGD._update_preconditioner"}]}
{"id": "C37", "title": "Normalised preconditioner learning rates are safe", "statement": "With normalize_lr_cov the preconditioner changes by K -> K (I - B) with all entries of B bounded by lr_cov, the Riemannian momentum stays bounded by the largest bound of its increments, and for lr_cov times dimension below one the preconditioner never becomes singular.", "quantifier": "all histories of statistics", "why_tests_cant": "Invariant over unbounded histories of arbitrary data.", "anchors": [{"file": "singd/optim/optimizer.py", "symbol": "SINGD._update_preconditioner"}]}
{"id": "C38", "title": "KFAC-like updates track KFAC's damped curvature", "statement": "With kfac_like, alpha1 = 0 and a dense structure, P = K K^T is updated to P - beta (P (U + damping I) P - P) up to an explicit positive semi-definite beta^2 term; constructing with kfac_like forces alpha1 to 0 and allocates no momenta.", "quantifier": "all K, statistics, beta, damping", "why_tests_cant": "Identity over all matrices.", "anchors": [{"file": "singd/optim/optimizer.py", "symbol": "SINGD._update_preconditioner"}, {"file": "singd/optim/optimizer.py", "symbol": "SINGD._check_param_groups"}]}
{"id": "C39", "title": "Layer statistics match the preconditioner dimensions", "statement": "For every supported layer (bias or not, any kernel, stride, padding, dilation, groups, any number of shared axes) the processed layer inputs have as many columns as K and the processed output gradients as many as C.", "quantifier": "all layer configurations and input shapes", "why_tests_cant": "Infinitely many layer configurations.", "anchors": [{"file": "singd/optim/utils.py", "symbol": "process_input"}, {"file": "singd/optim/utils.py", "symbol": "process_grad_output"}, {"file": "singd/optim/optimizer.py", "symbol": "SINGD.preconditioner_dims"}]}
{"id": "C40", "title": "Scaling of the layer statistics", "statement": "With expand, A^T A is the average over all batch and shared positions of a a^T; with reduce, the average over the batch of the shared-axis means; output gradients are rescaled so that B^T B is the same quantity whether the loss is averaged over batch, batch and sequence, or summed up to the documented factor.", "quantifier": "all inputs, shapes, loss averages", "why_tests_cant": "Identity over all data.", "anchors": [{"file": "singd/optim/utils.py", "symbol": "linear_process_input"}, {"file": "singd/optim/utils.py", "symbol": "linear_process_grad_output"}, {"file": "singd/optim/utils.py", "symbol": "conv2d_process_input"}, {"file": "singd/optim/utils.py", "symbol": "conv2d_process_grad_output"}]}
{"id": "C41", "title": "Averaged patches equal the average of the extracted patches", "statement": "For every convolution configuration the memory-efficient averaged patch extraction equals the average over output positions of the unfolded patches.", "quantifier": "all inputs, kernel sizes, strides, paddings, dilations, groups", "why_tests_cant": "The two implementations are unrelated; tests compare one configuration.", "anchors": [{"file": "singd/optim/utils.py", "symbol": "_extract_patches"}, {"file": "singd/optim/utils.py", "symbol": "_extract_averaged_patches"}]}
{"id": "C42", "title": "Extracted patches are the convolution's effective inputs", "statement": "The convolution's output at every position is the kernel matrix times the patch extracted for this position plus bias, i.e. the layer is treated as linear in the extracted inputs.", "quantifier": "all inputs and configurations of Conv2d (groups, padding modes)", "why_tests_cant": "Identity over all data and configurations.", "anchors": [{"file": "singd/optim/utils.py", "symbol": "_extract_patches"}, {"file": "singd/optim/utils.py", "symbol": "conv2d_process_input"}]}
{"id": "C43", "title": "KFAC is exact where it should be", "statement": "For a layer whose output-gradients do not depend on the sample (deep linear network with square loss), the Kronecker product of the two statistics equals the exact Fisher block; expand and reduce coincide when there is a single shared position.", "quantifier": "all inputs and Jacobians", "why_tests_cant": "Identity over all data.", "anchors": [{"file": "singd/optim/utils.py", "symbol": "linear_process_input"}, {"file": "singd/optim/utils.py", "symbol": "linear_process_grad_output"}]}
{"id": "C44", "title": "A failing constructor leaves the model untouched", "statement": "If constructing the optimizer raises, the model has no hooks installed and can be trained with another optimizer.", "quantifier": "all failing configurations", "why_tests_cant": "Every failing configuration and failure point matters.", "anchors": [{"file": "singd/optim/optimizer.py", "symbol": "SINGD.__init__"}, {"file": "singd/optim/optimizer.py", "symbol": "SINGD._install_hooks"}, {"file": "singd/optim/optimizer.py", "symbol": "SINGD._initialize_buffers"}]}
{"id": "C45", "title": "A failing step can be retried", "statement": "If step raises (e.g. closure given, missing statistics), parameters, buffers and scale bookkeeping are as before, so that the caller can fix the cause and call step again.", "quantifier": "all states, all failure points inside step", "why_tests_cant": "Each failure point in each state is a case.", "anchors": [{"file": "singd/optim/optimizer.py", "symbol": "SINGD.step"}, {"file": "singd/optim/optimizer.py", "symbol": "SINGD._step"}]}
{"id": "C46", "title": "Preconditioner data types", "statement": "With preconditioner_dtype=(d1,d2) K and its momentum keep d1, C and its momentum keep d2 and parameters keep their own type during the whole training, for every combination of supported types (None = type of the weight).", "quantifier": "all combinations of parameter and preconditioner types, all structures, all histories", "why_tests_cant": "Combinations of types, structures and histories; tests cover a few pairs.", "anchors": [{"file": "singd/optim/optimizer.py", "symbol": "SINGD._get_preconditioner_dtypes_and_device"}, {"file": "singd/optim/optimizer.py", "symbol": "SINGD._compute_natural_gradient"}, {"file": "singd/optim/optimizer.py", "symbol": "SINGD._accumulate_H_terms"}, {"file": "singd/structures/utils.py", "symbol": "lowest_precision"}]}
{"id": "C47", "title": "The warning about a forgotten initial gradient scale", "statement": "set_current_grad_scale warns exactly if called before the first step with a scale different from 1 while the optimizer was built with the default initial scale.", "quantifier": "all histories", "why_tests_cant": "Histories are unbounded.", "anchors": [{"file": "singd/optim/optimizer.py", "symbol": "SINGD.set_current_grad_scale"}]}
{"id": "C48", "title": "Evaluation passes have no effect", "statement": "Forward passes without gradients, and forward passes whose graph is never differentiated, do not change the optimizer's behaviour in any later step.", "quantifier": "all positions of evaluation passes in a training history", "why_tests_cant": "Non-interference over unbounded histories.", "anchors": [{"file": "singd/optim/optimizer.py", "symbol": "SINGD._hook_accumulate_H_terms"}]}
{"id": "C49", "title": "Preconditioner dimensions of a layer", "statement": "For Linear(d_in, d_out) the dimensions are (d_in [+1 with bias], d_out); for Conv2d they are (c_in/groups * k1 * k2 [+1 with bias], c_out); the gradient matrix of the layer always has exactly these dimensions.", "quantifier": "all layer configurations", "why_tests_cant": "Infinitely many configurations.", "anchors": [{"file": "singd/optim/optimizer.py", "symbol": "SINGD.preconditioner_dims"}, {"file": "singd/optim/optimizer.py", "symbol": "SINGD._compute_natural_gradient"}]}
{"id": "C50", "title": "Layers used several times in one pass", "statement": "Statistics of a layer used several times before a step are added up; the result does not depend on the order of the backward hooks.", "quantifier": "all numbers and orders of uses", "why_tests_cant": "Orders and multiplicities are unbounded.", "anchors": [{"file": "singd/optim/optimizer.py", "symbol": "SINGD._accumulate_H_terms"}]}
{"id": "C51", "title": "Regular training raises no exception", "statement": "A script that builds the optimizer with positive update intervals and a positive scale, and in every iteration (edits groups if it likes,) runs forward and backward passes through all hooked layers, lets all parameters have gradients, announces positive scales and calls step(), never sees an exception from a hook, a scale call or step(). In any history, step() raises no exception iff a scale is available and (an overflow was found or) every layer has its group, gradients and, if an update is due, both statistics, a non-zero scale and, with Riemannian momentum, its momenta.", "quantifier": "all models, structures, hyper-parameters, numbers and orders of passes, group edits between iterations, scales, overflows; all histories for the exact conditions", "why_tests_cant": "Needs all interleavings of passes, edits, scales and skipped steps over unbounded histories.", "anchors": [{"file": "singd/optim/optimizer.py", "symbol": "SINGD.step"}, {"file": "singd/optim/optimizer.py", "symbol": "SINGD._accumulate_H_terms"}, {"file": "singd/optim/optimizer.py", "symbol": "SINGD._update_preconditioner"}]}
{"id": "C52", "title": "Preconditioners do not depend on weights, gradients, learning rate, momentum and weight decay", "statement": "Two optimizers built with the same arguments for models with different weights, driven by the same calls with different gradient values and with different learning rates, momenta and weight decays in the groups (for instance two schedulers), have the same preconditioners, Riemannian momenta, statistics, scales, counters and warnings after every prefix, and the same calls raise.", "quantifier": "all pairs of models with equal layer shapes, all structures and hyper-parameters, all pairs of histories that agree but for these values", "why_tests_cant": "A statement on pairs of unbounded histories.", "anchors": [{"file": "singd/optim/optimizer.py", "symbol": "SINGD._update_preconditioner"}, {"file": "singd/optim/optimizer.py", "symbol": "SINGD._accumulate_H_terms"}, {"file": "singd/optim/optimizer.py", "symbol": "SINGD._step"}]}
{"id": "C53", "title": "The order of the samples in a batch does not matter", "statement": "Permuting the samples (entries along the first axis) of the layer inputs seen by forward hooks and of the output gradients seen by backward hooks, in any way in every call, changes nothing the optimizer holds after the run: preconditioners, momenta, statistics, weights, scales, counter; and the same calls raise.", "quantifier": "all models of Linear and Conv2d layers, all structures, approximations, loss averages, batch sizes, permutations, histories", "why_tests_cant": "All permutations of all batches in all histories; floating-point tests only see approximate equality.", "anchors": [{"file": "singd/optim/utils.py", "symbol": "process_input"}, {"file": "singd/optim/utils.py", "symbol": "process_grad_output"}, {"file": "singd/optim/optimizer.py", "symbol": "SINGD._accumulate_H_terms"}]}
{"id": "C54", "title": "Training does not depend on the orthonormal bases of the features", "statement": "If the inputs and outputs of the linear layers are written in other orthonormal bases (weights P^T W Q, biases P^T b, inputs x Q, output gradients g P), training without normalisation gives, after any history, exactly the weights of the original training in the new bases, and preconditioners Q^T K Q and P^T C P; so both models compute the same function. This holds for all orthogonal matrices with dense structures, for permutations of the features with changes of sign with diagonal structures, and for every structure whose extraction commutes with the change of basis.", "quantifier": "all models, orthonormal bases per layer, structures that admit them, hyper-parameters, histories of calls including failing ones", "why_tests_cant": "All orthogonal matrices and all histories; rounding hides exact equality.", "anchors": [{"file": "singd/optim/optimizer.py", "symbol": "SINGD._update_preconditioner"}, {"file": "singd/optim/optimizer.py", "symbol": "SINGD._compute_natural_gradient"}, {"file": "singd/optim/optimizer.py", "symbol": "SINGD._accumulate_H_terms"}, {"file": "singd/optim/optimizer.py", "symbol": "SINGD._step"}]}
{"id": "C55", "title": "Loading a checkpoint replaces the whole state or nothing; what is accepted", "statement": "load_state_dict either raises and leaves every value, buffer, preconditioner and counter as it was, or it replaces the complete state of the optimizer by the saved one, so that the further training is that of the optimizer that was saved, whatever the loading optimizer did before. A checkpoint is accepted exactly if it has the same number of groups and the same numbers of parameters per group; an accepted checkpoint belongs to the model.", "quantifier": "all pairs of optimizers, checkpoints, histories before saving, before loading and after loading", "why_tests_cant": "All histories before the load and all foreign checkpoints; tests load into a fresh optimizer.", "anchors": [{"file": "singd/optim/optimizer.py", "symbol": "SINGD.load_state_dict"}, {"file": "singd/optim/optimizer.py", "symbol": "SINGD.state_dict"}, {"file": "singd/optim/optimizer.py", "symbol": "SINGD.STATE_ATTRIBUTES"}]}
{"id": "C56", "title": "How many numbers the optimizer keeps", "statement": "At any time the optimizer holds, for each side of each trained layer, at most three matrices (preconditioner, Riemannian momentum, statistics; two if alpha1 is zero), each with exactly the number of entries its structure needs for the layer's dimension; this is never more than for the dense structure and at most 31 n for every other supported structure. Momentum buffers have the shape of their parameter.", "quantifier": "all models, structures, hyper-parameters, histories of calls including failing ones", "why_tests_cant": "All dimensions and all histories: leaks show only after long runs.", "anchors": [{"file": "singd/structures/base.py", "symbol": "StructuredMatrix"}, {"file": "singd/structures/hierarchical.py", "symbol": "HierarchicalMatrixTemplate"}, {"file": "singd/structures/blockdiagonal.py", "symbol": "BlockDiagonalMatrixTemplate"}, {"file": "singd/optim/optimizer.py", "symbol": "SINGD._initialize_buffers"}, {"file": "singd/optim/optimizer.py", "symbol": "SINGD._accumulate_H_terms"}]}
{"id": "C57", "title": "The accumulated statistics have the signs of a covariance", "statement": "The statistics H_K and H_C collected for the next update of the preconditioners have a non-negative diagonal and trace at any time, and they are positive semi-definite.", "quantifier": "all models, structures, hyper-parameters, inputs and output gradients, histories of calls including failing ones", "why_tests_cant": "All vectors, inputs and histories; loss of definiteness needs particular inputs.", "anchors": [{"file": "singd/optim/optimizer.py", "symbol": "SINGD._accumulate_H_terms"}, {"file": "singd/structures/base.py", "symbol": "StructuredMatrix.from_inner"}, {"file": "singd/structures/triltoeplitz.py", "symbol": "TrilToeplitzMatrix"}, {"file": "singd/structures/hierarchical.py", "symbol": "HierarchicalMatrixTemplate.from_inner"}]}
{"id": "C58", "title": "A structure matters only through the matrices it extracts", "statement": "Two optimizers for the same model and hyper-parameters whose structures extract the same matrices for the dimensions of the layers train the model in exactly the same way: same weights, momentum buffers, preconditioners and exceptions after any calls. In particular all structures agree for dimension one, hierarchical15_15 agrees with dense up to dimension 15 and block30diag up to dimension 30, and triltoeplitz on a model agrees with triutoeplitz on the model with reversed features.", "quantifier": "all models, pairs of structures, hyper-parameters with or without normalisation, inputs and gradients, histories of calls including failing ones", "why_tests_cant": "Equality of whole training runs for all dimensions up to the bound and all inputs; the tests compare single operations of one structure with dense matrices.", "anchors": [{"file": "singd/structures/base.py", "symbol": "StructuredMatrix"}, {"file": "singd/structures/hierarchical.py", "symbol": "HierarchicalMatrixTemplate"}, {"file": "singd/structures/blockdiagonal.py", "symbol": "BlockDiagonalMatrixTemplate.rmatmat"}, {"file": "singd/structures/triltoeplitz.py", "symbol": "TrilToeplitzMatrix"}, {"file": "singd/structures/triutoeplitz.py", "symbol": "TriuToeplitzMatrix"}, {"file": "singd/optim/optimizer.py", "symbol": "SINGD.step"}]}
{"id": "C59", "title": "Without preconditioner learning rate SINGD is SGD with momentum and weight decay", "statement": "As long as lr_cov is 0 (as a constant, or during the warm-up phase of a schedule), the preconditioners stay the identity, and all parameters and momentum buffers are exactly those of stochastic gradient descent with momentum, weight decay, gradient un-scaling and skipped steps, whatever the structures, damping, update interval T, approximation, number of passes and gradient scales.", "quantifier": "all models, structures, hyper-parameters and schedules, inputs, gradients, histories of calls (learning rates may change between steps)", "why_tests_cant": "Exact equality of whole trajectories for all structures, schedules, scale changes and skipped steps; floating-point tests compare a few steps up to tolerance for one structure.", "anchors": [{"file": "singd/optim/optimizer.py", "symbol": "SINGD.step"}, {"file": "singd/optim/optimizer.py", "symbol": "SINGD._update_preconditioner"}, {"file": "singd/optim/optimizer.py", "symbol": "SINGD._compute_natural_gradient"}]}
{"id": "C60", "title": "KFAC-like preconditioners converge to the inverse of the damped curvature", "statement": "With kfac_like=True, alpha1=0 and normalize_lr_cov=False, a preconditioner update is one Newton-type step for the inverse of the damped curvature: on a constant curvature U the products K K^T converge geometrically to (U + damping I)^-1, preconditioners that an update leaves unchanged are exact inverse factors, and the resulting update direction is the exact Kronecker-factored Newton step; the stored statistics are exactly K^T M K for the second moments M of the passes since the last update.", "quantifier": "all models, dense and diagonal structures (the statistics: all but block-diagonal), inputs, gradients, gradient scales, skipped steps, schedules, histories of calls", "why_tests_cant": "A limit statement with an explicit rate over all curvatures in a ball and all histories; a test sees finitely many steps of one curvature up to tolerance.", "anchors": [{"file": "singd/optim/optimizer.py", "symbol": "SINGD._update_preconditioner"}, {"file": "singd/optim/optimizer.py", "symbol": "SINGD._accumulate_H_terms"}, {"file": "singd/optim/optimizer.py", "symbol": "SINGD._compute_natural_gradient"}]}
{"id": "C61", "title": "NaNs never disappear, and finite gradients do not guarantee finite weights", "statement": "In floating point arithmetic: once an entry of a parameter, a momentum buffer or a preconditioner is NaN, it stays NaN whatever API calls follow; one NaN in a dense preconditioner, or in a gradient of a step that is not skipped, turns every entry of the layer's weight and bias into NaN at the next step, for good; so does a gradient scale that is NaN, and it makes all statistics of the output gradients NaN; skipping steps with non-finite gradients (found_inf) is enough to keep the weights finite.", "quantifier": "all floating point formats, configurations, states (reachable or not), structures (spreading: dense), histories of calls", "why_tests_cant": "Tests would have to try every entry, structure and continuation; overflow of the statistics depends on magnitudes which tests with normal inputs never produce.", "anchors": [{"file": "singd/optim/optimizer.py", "symbol": "SINGD.step"}, {"file": "singd/optim/optimizer.py", "symbol": "SINGD._update_preconditioner"}, {"file": "singd/optim/optimizer.py", "symbol": "SINGD._compute_natural_gradient"}, {"file": "singd/structures/base.py", "symbol": "StructuredMatrix.add_"}]}
{"id": "C62", "title": "The constructor warns about exactly what it ignores", "statement": "With params=None and warn_unsupported=True the constructor warns about a layer exactly if it is an unsupported leaf module with a trainable parameter, once, even if the call fails afterwards; it warns about a parameter group exactly if it has kfac_like=True and a non-zero alpha1, and then (and only then) sets its alpha1 to zero; if it warns about no layer, every trainable parameter of the model is trained.", "quantifier": "all models, parameter arguments, hyper-parameters; failing calls included", "why_tests_cant": "Needs all module trees and groups; tests construct a few models and none with parameters in containers.", "anchors": [{"file": "singd/optim/optimizer.py", "symbol": "SINGD._get_trainable_parameters"}, {"file": "singd/optim/optimizer.py", "symbol": "SINGD._check_param_groups"}, {"file": "singd/optim/optimizer.py", "symbol": "SINGD.__init__"}]}
{"id": "C63", "title": "A layer is trained through its matrix view only", "statement": "A model in which linear layers with bias are replaced by linear layers without bias that get inputs extended by a constant one (the bias being the last column of the weight), or in which convolutions are replaced by linear layers on the patches of their inputs, is trained exactly as the original: the constructor accepts it, every call returns or raises the same, all preconditioner factors, momenta, counters and scales agree, and values, gradients and momentum buffers of the parameters are the same matrices at any time.", "quantifier": "all models, subsets of replaced layers, hyper-parameters, structures, histories of calls (failing ones included)", "why_tests_cant": "Relates two trainings of different models over all histories; tests compare a few layers after a few steps with tolerances.", "anchors": [{"file": "singd/optim/utils.py", "symbol": "process_input"}, {"file": "singd/optim/utils.py", "symbol": "process_grad_output"}, {"file": "singd/optim/optimizer.py", "symbol": "SINGD.preconditioner_dims"}, {"file": "singd/optim/optimizer.py", "symbol": "SINGD._compute_natural_gradient"}, {"file": "singd/optim/optimizer.py", "symbol": "SINGD._step"}]}
{"id": "C64", "title": "The order in which modules, groups and parameters are listed does not matter", "statement": "Registering the layers of the model in another order, handing the parameters over in another order, or giving the parameter groups in another order (and addressing them at their new positions later) leads to the same training, as long as no step raises and no two layers share a parameter: the constructor accepts both, all calls return or raise the same, and preconditioners, momenta, parameters, buffers, scales, step counter and warnings agree at any time. With a raising step or shared parameters the order matters.", "quantifier": "all models, permutations, hyper-parameters, structures, histories of calls without raising step", "why_tests_cant": "Quantifies over all permutations and histories; a dependence (e.g. a module reading another one's entries, or groups looked up by position) may show up only for particular combinations.", "anchors": [{"file": "singd/optim/optimizer.py", "symbol": "SINGD._step"}, {"file": "singd/optim/optimizer.py", "symbol": "SINGD._get_param_group_entry"}, {"file": "singd/optim/optimizer.py", "symbol": "SINGD._check_param_groups"}, {"file": "singd/optim/optimizer.py", "symbol": "SINGD._install_hooks"}, {"file": "singd/optim/optimizer.py", "symbol": "SINGD._initialize_buffers"}]}
{"id": "C65", "title": "Performance warnings are issued for naive implementations only", "statement": "Building an optimizer issues no warning about naive implementations. Training with dense, diagonal, block-diagonal or hierarchical structures issues none either, in any call, whether it returns or raises. With Toeplitz structures a backward pass through a layer issues one warning for each Toeplitz factor, a step one for each Toeplitz factor of each layer whose update is due, and all other calls issue none. Methods listed in WARN_NAIVE_EXCEPTIONS never trigger a warning. Structures built from the recursive templates warn in every from_inner, naming their own class.", "quantifier": "all models, hyper-parameters, structures, histories of calls; all matrices and factors", "why_tests_cant": "The absence of warnings is claimed for all histories and all paths through step, including those that raise; which base class method ends up being called depends on the class, the argument and the mode.", "anchors": [{"file": "singd/structures/base.py", "symbol": "StructuredMatrix._warn_naive_implementation"}, {"file": "singd/structures/base.py", "symbol": "StructuredMatrix.from_inner"}, {"file": "singd/structures/base.py", "symbol": "StructuredMatrix.from_mat_inner"}, {"file": "singd/structures/triltoeplitz.py", "symbol": "TrilToeplitzMatrix.WARN_NAIVE_EXCEPTIONS"}, {"file": "singd/structures/triutoeplitz.py", "symbol": "TriuToeplitzMatrix.WARN_NAIVE_EXCEPTIONS"}, {"file": "singd/structures/dense.py", "symbol": "DenseMatrix.WARN_NAIVE"}, {"file": "singd/optim/optimizer.py", "symbol": "SINGD._update_preconditioner"}, {"file": "singd/optim/optimizer.py", "symbol": "SINGD._accumulate_H_terms"}]}
{"id": "C66", "title": "Without weight sharing the settings for weight sharing have no effect", "statement": "If every sample uses the weights of every layer once (no or trivial dimensions between batch and features, convolutions applied at a single position), then two trainings that differ only in kfac_approx (expand or reduce) and in loss_average being batch or batch+sequence, in the constructor's arguments, in single groups or in later assignments to param_groups, coincide: the same calls raise the same exceptions, and preconditioners, statistics, parameters and momenta are the same after every history.", "quantifier": "all models, hyper-parameters, structures and histories of calls without weight sharing", "why_tests_cant": "Equality of whole trajectories under a change of settings, over all layer shapes, groups and histories, including failing calls.", "anchors": [{"file": "singd/optim/utils.py", "symbol": "process_input"}, {"file": "singd/optim/utils.py", "symbol": "process_grad_output"}, {"file": "singd/optim/utils.py", "symbol": "conv2d_process_input"}, {"file": "singd/optim/utils.py", "symbol": "linear_process_grad_output"}, {"file": "singd/optim/optimizer.py", "symbol": "SINGD._accumulate_H_terms"}, {"file": "singd/optim/optimizer.py", "symbol": "SINGD.__init__"}]}
{"id": "C67", "title": "Components of structured matrices are registered and listed under distinct names, and in-place operations change exactly these components", "statement": "register_tensor and register_substructure refuse a name in use with ValueError and change nothing, otherwise bind the name and append it. Every matrix of a class lists the same distinct names in the same order, and the tensors handed to its constructor under them, at any nesting depth, so that add_ pairs components of equal names; the names are attribute paths. mul_ and add_ change the components of self, and only these, to those of the multiple and of the sum, also if self and other share tensors or are the same object; a failing add_ changes nothing.", "quantifier": "all classes at any nesting depth, all tensors, all sharing of tensors between matrices", "why_tests_cant": "Nested classes and patterns of sharing are unbounded; tests check values of freshly built matrices, where no tensor is shared and names are not looked at.", "anchors": [{"file": "singd/structures/base.py", "symbol": "StructuredMatrix.register_tensor"}, {"file": "singd/structures/base.py", "symbol": "StructuredMatrix.named_tensors"}, {"file": "singd/structures/base.py", "symbol": "StructuredMatrix.mul_"}, {"file": "singd/structures/base.py", "symbol": "StructuredMatrix.add_"}, {"file": "singd/structures/recursive.py", "symbol": "RecursiveStructuredMatrix.register_substructure"}, {"file": "singd/structures/recursive.py", "symbol": "RecursiveStructuredMatrix.named_tensors"}]}
{"id": "C68", "title": "Asynchronous all_reduce is equivalent to the synchronous one once its handles are ready", "statement": "all_reduce(async_op=True) never waits, returns one handle per component in the order of named_tensors, and changes no tensor itself. For every interleaving of the processes and every order in which the backend performs the collectives: each component holds its old value until its collective is performed and the total over the processes afterwards; a handle becomes ready only after all processes have started the collective; nothing blocks; and after one process has waited for all its handles, all processes hold what the synchronous version gives. The components may be used as soon as the call returns and written before waiting.", "quantifier": "all numbers of processes, structures, tensors, memory layouts, schedules and completion orders", "why_tests_cant": "The interleavings of processes and collectives are unbounded and not under the control of a test; races show rarely.", "anchors": [{"file": "singd/structures/base.py", "symbol": "StructuredMatrix.all_reduce"}, {"file": "singd/structures/recursive.py", "symbol": "RecursiveStructuredMatrix.named_tensors"}]}
{"id": "C69", "title": "Trainings superpose: weights and momentum buffers are linear in initial weights and gradients", "statement": "Three optimizers are built with the same arguments and driven by the same calls (forward and backward passes, gradient scales, scaler events, group edits, steps). If initial weights and the gradients of the third are x times those of the first plus y times those of the second, then after every history, with weight decay, momentum, gradient scales, skipped and failing steps, weights and momentum buffers of the third are x times those of the first plus y times those of the second, and the same calls raise the same exceptions. In particular zero weights with zero gradients stay zero whatever the passes are. The same holds if the loss is scaled, i.e. if the passes scale with the gradients.", "quantifier": "all models, structures, settings, call histories, weights, gradients and factors x, y", "why_tests_cant": "Histories, weights, gradients and factors are unbounded; floating-point tests can only compare approximately on samples.", "anchors": [{"file": "singd/optim/optimizer.py", "symbol": "SINGD._step"}, {"file": "singd/optim/optimizer.py", "symbol": "SINGD._compute_natural_gradient"}]}
{"id": "C70", "title": "Initial weights are forgotten through weight decay only", "statement": "If two trainings with the same arguments receive the same calls and gradients but start from different weights, and no step raises, then the differences of their weights and of their momentum buffers follow the scalar recursion of momentum and weight decay with the settings in force at the steps that are not skipped; gradients, passes, scales and preconditioners do not enter. Without momentum the difference is multiplied by 1 - lr * weight_decay per step that is not skipped, hence falls geometrically if these factors are bounded below one; without weight decay it never changes and the momentum buffers are equal. A single training whose gradients are all zero follows the same recursion.", "quantifier": "all models, structures, settings, schedules, call histories without raising steps, weights, gradients, entries", "why_tests_cant": "Histories, weights and gradients are unbounded, and floating-point tests can only compare approximately on samples.", "anchors": [{"file": "singd/optim/optimizer.py", "symbol": "SINGD._step"}, {"file": "singd/optim/optimizer.py", "symbol": "SINGD.step"}]}
{"id": "C71", "title": "Without weight decay the learning rate scales the way the weights go, and nothing else", "statement": "Given the same gradients and calls, multiplying every learning rate ever put in force by r multiplies the displacement of every weight from its initial value by r at any time, if there is no weight decay; momentum buffers, preconditioners, statistics, scales, step counter, warnings and exceptions stay the same. With learning rate zero the weights keep their values whatever momentum, weight decay, gradients and passes are. Without weight decay, gradients r times as large have the same effect on the weights as learning rates r times as large, while momentum buffers become r times as large, if no step raises. (With weight decay the first part does not hold.)", "quantifier": "all models, structures, settings, schedules, call histories, weights, gradients, factors r", "why_tests_cant": "Histories, factors and gradients are unbounded, and floating-point tests can only compare approximately on samples.", "anchors": [{"file": "singd/optim/optimizer.py", "symbol": "SINGD._step"}, {"file": "singd/optim/optimizer.py", "symbol": "SINGD.step"}]}
