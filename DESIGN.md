# Formal model of automl/neps

## Layout

The Coq development is in `rocq/theories`. For each area `X` there is

* `X_model.v`: Gallina transcription of the Python functions. Every definition cites file and lines in `/repo`. No proofs.
* `X_spec.v`: the small specification that the theorems refer to, written without the model's helpers.
* `X_proofs.v`, `X_..._proofs.v`: lemmas.
* `X_props.v`: the property theorems, each followed by `Print Assumptions`, with an `Example` of a concrete case that meets
  the hypotheses.

`properties.jsonl` states the properties in terms of the API, `MANIFEST.json` maps them to theorems,
`seeded/LOG.jsonl` records the edits of the model by which the theorems were tested.

## Conventions

* Python exceptions are values (`Err e`). External calls (the user's function, random numbers, clocks, uuid4, the surrogate
  models, log and exp, the file parser) are arguments or section variables that are discharged, so the theorems quantify
  over them. Section hypotheses on them (such as: log and exp are increasing and inverse to each other) appear as premises.
* Each section of code that holds a file lock is one atomic step of an interleaving model; the theorems about several
  workers quantify over all interleavings (inductive reachability). The crash models go below that, to single file operations:
  a crash is any prefix of the list of operations.
* Numbers. Finite floats in stored data are integers in multiples of 2^-1074 with explicit NaN and infinities (`fl`);
  sums of costs are exact there. Domains, encoders, parameters, search spaces, ifBO and priors are written over an abstract
  arithmetic (`arith T`); theorems of exact arithmetic are for the instance `Qar` (rationals, with oracles for log and exp),
  and the ones that fail because of rounding have a `_refuted` theorem for the instance `Bar 53 1024` (binary64, Coq's executable
  specification SpecFloat). Structural theorems hold for every arithmetic.
* Loops that may not end take fuel, with the error value `OutOfFuel`; theorems say how much fuel suffices, or that none does.
* A claim that is false of the model gets a theorem `..._refuted` with a witness, and the strongest true part that was found gets a
  theorem `..._partial`, or a theorem with its conditions spelled out.

## Trusted base

* Coq 8.16.1's kernel (checked also with `coqchk`). No axioms: `Print Assumptions` says "Closed under the global context" for
  all of the 660 theorems in MANIFEST.json. Section variables are discharged. No plugins, no functors, no disabled checks.
* The reading of `/repo` that is recorded in the model files. It was read as text, not run.
* What the models leave to the outside: mutual exclusion by portalocker; uuid4 not repeating; YAML, JSON and pickle reproducing plain
  data (where they do not, such as tuples and exceptions in YAML, this is modelled); atomicity of a single `open(..., "w")`,
  `write`, `mkdir`, `touch`; the behaviour of pandas, numpy and torch functions as described next to the definitions that
  transcribe them.

## What is not modelled

* The numerical quality of surrogates (Gaussian processes, FT-PFN, deep GP): they are arbitrary functions. Wall-clock performance.
* Of the plots (`neps/plot`) the mean over seeds, scales, fonts, colours and the surfaces of `Plotter3D`; acquisition functions and acquisition samplers; of graph search spaces
  (`neps/search_spaces/architecture`) everything but the strings of one unconstrained grammar (C59, C101 to C103).
* Correctness of PyTorch, botorch, numpy, pandas, ConfigSpace themselves. Devices; dtypes only as far as integer dtypes truncate.
* File systems other than local ones (NFS semantics of locks); power loss (as opposed to a killed process).

## Modelled code, file by file

* **`Base.v`** (5 definitions)
  Results with Python exceptions as values.
  Cited: neps/exceptions.py 1-54.
* **`Store_model.v`** (18 definitions)
  Model of one versioned, lock-protected shared resource.
  neps/state/protocols.py (VersionedResource, Synced) on top of
  neps/state/filebased.py:67-83 (FileVersioner).
  Every operation of [Synced] holds the resource's file lock for its whole
  duration, hence is one atomic step here (mutual exclusion of portalocker is
  trusted).  Crashes in the middle of an operation are modelled in
  Fs_model.v, Repo_model.v and Init_model.v.  Versions are natural numbers taken from a counter:
  [uuid4().hex] is assumed never to repeat.
  Cited: neps/state/filebased.py 67-83, 79-83; neps/state/protocols.py 159-163, 165-209, 211-251, 258-269, 271-292, 441-489; protocols.py 253-256, 294-296, 356-397, 399-439, 491-494, 500-503, 505-523; filebased.py 458-486.
* **`Py.v`** (20 definitions)
  Python values used by the model.
* **`Trial_model.v`** (26 definitions)
  neps/state/trial.py
  Cited: neps/state/trial.py 27-41, 39-41, 44-60, 63-79, 74, 81-94, 96-122, 113-118, 125-137, 139-165, 172-196, 198-201, 203-207, 209-252, 223-230, 254-256, 258-268; neps_state.py 166; neps/state/neps_state.py 166.
* **`Eval_model.v`** (13 definitions)
  neps/state/_eval.py
  Cited: neps/state/settings.py 10-32; neps/state/_eval.py 21-28, 31-82, 75-82, 78, 85-164.
* **`Fs_model.v`** (28 definitions)
  One trial directory at the granularity of single file-system operations.
  neps/state/filebased.py:67-83 (FileVersioner), 213-257 (ReaderWriterTrial),
  458-487 (FileLocker.lock), neps/state/protocols.py:165-292 (VersionedResource),
  neps/utils/files.py:14-69 (serialize, deserialize).
  Cited: neps/state/filebased.py 67-83, 73-77, 79-83, 217-221, 223-238, 240-257; neps/state/protocols.py 165-292, 165-209, 211-251, 258-269, 271-292; neps/utils/files.py 14-69, 14-41, 44-55, 58-69; files.py 49-55.
* **`Repo_model.v`** (29 definitions)
  The repository of trials in a directory, used by any number of worker processes.
  neps/state/filebased.py:86-210 (TrialRepoInDirectory), and the parts of
  neps/state/neps_state.py:49-62, 201-223 that go through it.
  Cited: neps/state/filebased.py 86-210, 93-100, 102-146, 148-191, 193-201, 203-210; neps/state/neps_state.py 49-62, 201-223, 201-215, 221-223; filebased.py 91, 97, 131, 170, 178, 210; neps/state/protocols.py 491-494; runtime.py 434.
* **`Init_model.v`** (38 definitions)
  Opening a result directory: neps/state/filebased.py:562-671
  create_or_load_filebased_neps_state, with the readers and writers of the four
  shared resources (filebased.py:260-424) and Synced.new_or_load
  (protocols.py:441-489), at the granularity of single file operations.
  Cited: neps/state/filebased.py 562-671; filebased.py 260-424, 274-318, 320-354, 364-367, 371-373, 386-396, 398-402, 411-417, 419-424, 490-559, 606-608, 607; protocols.py 441-489; neps/state/err_dump.py 17-35; neps/state/optimizer.py 10-44; runtime.py 519-528.
* **`Runtime_model.v`** (55 definitions)
  Several workers running neps/runtime.py:123-488 DefaultWorker on one NePSState
  (neps/state/neps_state.py).  Every section of code that holds a file lock is one
  atomic step of the worker executing it; between two such sections any other
  workers may act.  The stored trials are one cell (version, trial) each
  (Store_model / Repo_model describe how the cells are kept on disk, crashes in the
  middle of a lock section are in Fs_model, Repo_model and Init_model).
  Simplifications.  Trial ids are the numbers 0, 1, 2, ... in order of creation
  ([tid] gives the string).  Loading a trial that is not in the cache and the
  following sync of it are one step (the loaded value is not used).  sample_trial
  reads all trials in one step (it holds the optimizer lock, so no trial is added
  meanwhile, but a report may be stored half way).  Trials with a previous trial and
  callbacks of _set_global_trial are left out.  An exception object counts as true
  in a condition.
  Cited: neps/runtime.py 123-488; neps/state/settings.py 35-53, 58-171; runtime.py 46-47, 138-153, 183, 196-366, 208-213, 208-280, 282-307, 309-315, 309-322, 322-366, 324-333, 344-348, 368-381, 382, 394, 395-412, 415-441, 421, 444-474, 476-480; filebased.py 94-98, 205-209, 210; neps_state.py 162-167, 169-177, 179-189, 211, 215; protocols.py 258-269, 271-292; neps/state/neps_state.py 68-144.
* **`Status_model.v`** (17 definitions)
  Status of a run: neps/status/status.py and neps/utils/types.py:61-74.
  Cited: neps/utils/types.py 61-74, 61-69; status.py 20-95, 44-55, 57-66, 60, 65, 80-93, 282-347, 310, 310-315, 350-377; trial.py 130; types.py 71-74.
* **`Ladder_model.v`** (18 definitions)
  Rungs, budgets and sizes of a successive-halving bracket.
  neps/optimizers/multi_fidelity/successive_halving.py:109-214
  Cited: neps/optimizers/multi_fidelity/successive_halving.py 109-214; numerical.py 134-135; successive_halving.py 126-128, 126-136, 168-173, 175-194, 178-184, 187-193, 196-214, 199-205, 211-213; hyperband.py 85-93.
* **`Sh_model.v`** (53 definitions)
  Successive halving, ASHA, Hyperband and asynchronous Hyperband: which configuration
  at which fidelity comes next.
  neps/optimizers/multi_fidelity/successive_halving.py:217-454, 486-546,
  neps/optimizers/multi_fidelity/promotion_policy.py:36-111,
  neps/optimizers/multi_fidelity/hyperband.py:44-268, 357-450
  Cited: neps/optimizers/multi_fidelity/successive_halving.py 217-454, 486-546; neps/optimizers/multi_fidelity/promotion_policy.py 36-111; neps/optimizers/multi_fidelity/hyperband.py 44-268, 357-450; base_optimizer.py 17-42, 23-25; successive_halving.py 49-67, 217-220, 222-253, 226-253, 246-248, 255-273, 268-270, 275-301, 284, 288-294, 321-364, 327-349, 385-390, 392-402, 404-454, 420, 487-494, 515-546; promotion_policy.py 59-86, 98-111; float.py 121-131; integer.py 137-149; hyperband.py 128-173, 186-268, 211-212, 213-255, 405-450; neps_state.py 95-140.
* **`Mf_model.v`** (56 definitions)
  The table of observations of multi-fidelity optimizers.
  neps/optimizers/multi_fidelity/utils.py:11-219,
  neps/optimizers/bayesian_optimization/models/ftpfn.py:19-37
  Cited: neps/optimizers/multi_fidelity/utils.py 11-219; neps/optimizers/bayesian_optimization/models/ftpfn.py 19-37; utils.py 28-54, 38-39, 46-50, 64-66, 86-89, 91-116, 118-137, 130-131, 139-144, 149-164, 166-173, 178-199, 212-219; ftpfn.py 19-37.
* **`Pb_model.v`** (56 definitions)
  PriorBand: how much weight the prior, the incumbent and random search get, and what is
  sampled.
  neps/optimizers/multi_fidelity_prior/priorband.py:36-299,
  neps/optimizers/multi_fidelity_prior/async_priorband.py:300-332,
  neps/optimizers/multi_fidelity_prior/utils.py:106-166,
  neps/optimizers/multi_fidelity/sampling_policy.py:95-272, 275-405,
  neps/optimizers/multi_fidelity/mf_bo.py:133-204,
  neps/optimizers/multi_fidelity/hyperband.py:421-437
  Cited: neps/optimizers/multi_fidelity_prior/priorband.py 36-299; neps/optimizers/multi_fidelity_prior/async_priorband.py 300-332; neps/optimizers/multi_fidelity_prior/utils.py 106-166; neps/optimizers/multi_fidelity/sampling_policy.py 95-272, 275-405; neps/optimizers/multi_fidelity/mf_bo.py 133-204; neps/optimizers/multi_fidelity/hyperband.py 421-437; priorband.py 46, 53, 55, 59-70, 72-102, 76-86, 104-126, 128-170, 147-155, 157-160, 172-213, 174-198, 215-231, 223-225, 233-239, 241-248, 250-299, 271-282, 283-287; utils.py 106-129, 132-150, 153-166; search_space.py 687-730; successive_halving.py 222-253, 252-253; sampling_policy.py 46-48, 178-185, 222-235, 293-301, 346-347, 350-405; async_priorband.py 300-316; hyperband.py 421-437; mf_bo.py 133-140, 142-163, 165-204.
* **`Dom_model.v`** (39 definitions)
  Numeric domains (neps/search_spaces/domain.py).
  The arithmetic is a parameter: [arith T] lists the operations on numbers that the code
  uses.  Two instances: [Qar], exact arithmetic with oracles for log and exp, and [Bar],
  IEEE arithmetic (Coq's executable specification, SpecFloat), of any precision.
  Tensors are handled element by element; shapes only in [translate].  Devices and dtypes
  are not modelled, except that a domain with integer bounds truncates its values to int64.
  Python integers are exact.
  Cited: domain.py 71-104, 106-138, 117-129, 141-169, 172-200, 203-216, 218-249, 246-247, 251-282, 284-332, 307-310, 324, 339-398, 423-436, 439.
* **`Enc_model.v`** (30 definitions)
  Encoding configurations as tensors (neps/search_spaces/encoding.py).
  A tensor of shape (n, ncols) is the list of its rows.  Devices and dtypes are not modelled:
  the numbers have the type [T] of the arithmetic.
  Cited: encoding.py 76-85, 88-110, 99-103, 113-114, 129-136, 139-158, 161-163, 177-181, 184-204, 207-209, 241-247, 249-264, 266-274, 276-319, 321-345, 333-336, 348-408, 392-406.
* **`Param_model.v`** (80 definitions)
  Hyperparameters (neps/search_spaces/hyperparameters/float.py, integer.py, numerical.py,
  categorical.py, constant.py and neps/search_spaces/parameter.py).
  The numbers have the type [T] of the arithmetic (Dom_model); a Python integer given as a
  value is one of these numbers, the bounds and the value of an integer parameter are [Z].
  Methods that change the object return the object afterwards, also when they raise.
  Random draws are arguments.  Type errors (strings for numbers, truth values that are not)
  and tblogger settings are not modelled.
  Cited: float.py 41-45, 47-76, 79-91, 94-112, 115-131, 134-151, 154-162, 165-174, 177-201; integer.py 37-41, 46-93, 88-89, 99-111, 114-115, 118-127, 130-149, 152-154, 157-158, 161-162, 165-167, 170-196; categorical.py 49-53, 55-107, 110-119, 121-132, 137-143, 157-163, 166-189, 192-208, 211-236, 247-261, 264-273, 281-283; numerical.py 97-153, 118, 134-153, 156-168, 172-178, 185-211, 214-231, 233-242, 276-279; parameter.py 62-75, 198-205, 251-269, 271-289; constant.py 43-50, 76-100, 103-127, 129-140.
* **`Space_model.v`** (61 definitions)
  Search spaces and configurations (neps/search_spaces/search_space.py), what is done with
  them in neps/optimizers/multi_fidelity_prior/utils.py, and grid search and random search
  (neps/optimizers/grid_search/optimizer.py, neps/optimizers/random_search/optimizer.py).
  A space is a list of named parameters (a dict in the order of the names); a configuration
  is a space whose parameters have values.  Graph parameters and tabular spaces are not
  modelled.  Random draws are functions of the name of the parameter and of the number of
  the attempt.  Methods that change objects in place return the changed space; the state
  after such a method has raised is not modelled.
  Cited: parameter.py 62-75, 77-80, 152-160, 198-205, 208-230, 271-289, 292-293; categorical.py 83; constant.py 49, 53-54, 57-60, 72-73; integer.py 114-115; search_space.py 192-254, 236-249, 328-374, 376-409, 376-438, 413-438, 440-472, 474-503, 553-558, 560-565, 567-647, 606-633, 649-658, 660-670, 672-675, 687-724, 726-730, 732-810, 824-865, 849-865, 853-863; utils.py 29-73, 40-72, 76-103, 87-91; numerical.py 250-269; base_optimizer.py 72-76; grid_search/optimizer.py 32-44; random_search/optimizer.py 46-62; bayesian_optimization/optimizer.py 141-218.
* **`Ifbo_model.v`** (33 definitions)
  ifBO (neps/optimizers/multi_fidelity/ifbo.py and
  neps/optimizers/bayesian_optimization/models/ftpfn.py).
  The arithmetic is a parameter (Dom_model).  Configurations without their fidelity, and the
  rows that they are encoded to, are opaque: [enc] and [dec] stand for the encoder.  The
  surrogate (a neural network) is seen only through the scores that it gives to rows, which
  are arbitrary, as are the samples of new configurations and the position of the greatest
  score.  Everything is computed in one precision; the code uses 32 bits for budgets and
  numbers of configurations, so a number above 2^24 is not modelled faithfully.
  Cited: ifbo.py 32-83, 61-71, 89-164, 128-164, 166-286, 172, 190, 275, 283, 285; ftpfn.py 19-37, 109-192, 154, 172-181, 212-297, 246-251, 256-294, 262, 269-271, 287, 292-294.
* **`Prior_model.v`** (47 definitions)
  Samplers and priors (neps/sampling), and how Bayesian optimization uses them.
  Tensors of shape (..., ncols) are the list of their rows, in row-major order: the final
  [view] of the samplers is not modelled.  What is drawn at random is an argument.  Devices are
  not modelled; of dtypes only that an integer one truncates.  The numbers given to [cast_one]
  and [to_unit_one], which the code stores in float32 first, are taken as they are.
  Cited: domain.py 374-398, 394-396; samplers.py 124-129, 136-173, 189-208, 216-281, 225-233, 264-278, 278, 285-340, 301-340, 336-337; priors.py 112-143, 125, 132-141, 146-253, 197-251, 209-233, 283-296, 304-338, 329-338, 341-364, 382-386, 388-412; distributions.py 21-24, 33-229, 44, 124-126, 129-130, 139-142, 145-148, 167-200, 202-203, 213-224, 227-229; float.py 75; integer.py 80; categorical.py 107; optimizer.py 30-56, 123-126, 127-129, 130-132, 186-193; ifbo.py 143; initial_design.py 103; pibo.py 33-47; gp.py 347-358.
* **`Set_model.v`** (59 definitions)
  Arguments of neps.run: keyword arguments, the YAML file given as run_args, their merge, and
  how the searcher is chosen and configured (neps/api.py, neps/utils/run_args.py,
  neps/utils/common.py).
  Dictionary keys are strings.  Objects that are not plain values (functions, classes, search
  spaces, optimizers) are [VObj]; what Python says about them is given by functions of [env].
  Cited: run_args.py 44-446, 44-116, 71-84, 92-102, 147-178, 161-167, 201-203, 206-248, 251-284, 287-308, 311-373, 376-389, 407-422, 423-446, 449-488, 504-607, 509-550, 518-534, 540-545, 552-570, 572-580, 582-588, 594-599; api.py 28-144, 29-57, 128-144, 164-208, 216-223, 258-426, 298-309, 312-357, 312-422, 341-350, 383-403; optimizers/__init__.py 25-42; search_space.py 45-95, 65-93, 291-294; common.py 184-237, 197-208, 211-237, 244-255.
* **`Yam_model.v`** (53 definitions)
  Search spaces written in YAML: neps/search_spaces/yaml_search_space_utils.py and
  neps/search_spaces/search_space.py:98-168 pipeline_space_from_yaml.
  Strings are ASCII (Python also takes other digits and blanks), dictionary keys are strings.
  The constructors of the parameters are given by [build]; so is the content of the file.
  Functions that change the dictionary they are given return it, also when they raise.
  Lists shared between two parameters by YAML aliases are not modelled as shared.
  Cited: neps/search_spaces/search_space.py 98-168; search_space.py 98-168.
* **`Cfg_model.v`** (52 definitions)
  Grammars of architectures: neps/search_spaces/architecture/cfg.py, mutations.py, crossover.py and
  graph_grammar.py:270-315.
  Strings are lists of ASCII characters.  Random choices are arguments: [draws] are the indices
  drawn by numpy one after the other, [coins] the outcomes of [random.random() < probability]; an
  execution for which there are not enough of them, or for which they are out of range, or that
  is too deep for [fuel], is [Err OutOfFuel].  Probabilities only matter for compute_prior.
  Sets of symbols are lists; nothing below depends on their order.  Not modelled: nltk's own
  checks of grammars; negative positions; [return_crossover_subtrees].
  Cited: graph_grammar.py 270-315; cfg.py 21-22, 130-210; mutations.py 33-37; crossover.py 12-30.
* **`Chain_model.v`** (45 definitions)
  Chains of continued trials, what a process remembers about them, and checkpoints:
  neps/utils/common.py:20-181 (load_checkpoint, save_checkpoint,
  load_lightning_checkpoint, get_initial_directory), neps/runtime.py:57-116 (the
  globals of the process), and of sample_trial (neps_state.py:118-142), put_new
  (filebased.py:169-178) and get_trial_by_id what concerns identifiers and places.
  Simplified: paths are absolute and POSIX, ".." and links are not followed; what
  torch.save wrote torch.load reads back unchanged (weights_only=True); a checkpoint's
  path is never a directory; one step at a time (the locks of the store are in
  Store_model.v).
  Cited: neps/utils/common.py 20-181; neps/runtime.py 57-116; neps_state.py 64-66, 118-142, 166; filebased.py 126-144, 169-178; common.py 20-140, 20-60, 38-42, 44-45, 63-96, 78-80, 82-83, 85-93, 99-140, 123, 143, 149-181, 160-165, 162, 171-172; runtime.py 57, 58, 62-72, 75-77, 80-89, 100-112, 113-116, 374, 447-455, 448-455; trial.py 198-268.
* **`Cli_model.v`** (59 definitions)
  The command line: neps/utils/cli.py (options of [neps run], the directory that is looked
  at, info-config, errors, status, results, init).
  argparse is not modelled: the arguments are given as argparse returns them.  Texts of times
  and durations are functions of the floats ([stamp], [duration], [since]), which may raise.
  Text is ASCII; directories are named by text; a command runs while nobody else writes.
  Texts with more than 4300 digits, which newer Pythons do not read as integers, are read.
  The plot itself, help texts and the content of templates are left out.
  Cited: cli.py 31-51, 54-140, 143-172, 146-163, 165-172, 175-214, 179-185, 192-212, 217-263, 223-233, 266-298, 270-281, 311-313, 316-322, 325-327, 330-464, 335-346, 376-379, 382-395, 409-426, 471-479, 512-514, 520-572, 526-537, 541, 544-549, 561-569, 653-726, 729-988, 981-988; api.py 28-144; filebased.py 504-514; neps_state.py 64-66.
* **`Tb_model.v`** (35 definitions)
  The logger for TensorBoard: neps/plot/tensorboard_eval.py (class tblogger), with the callbacks at
  the end of a trial (neps/runtime.py:92-116).
  The process and the trials are those of Chain_model.v; its root directories are the directories
  of configurations, the run's directory is their parent.  A SummaryWriter is the directory it
  writes to; making one makes the directory; closing one loses nothing, and one that was closed
  writes to the same directory again (torch/utils/tensorboard/writer.py).  Left out: the contents
  of images (their places in a grid are in [grid_places]) and whether the run's directory exists.
  Cited: neps/runtime.py 92-116; tensorboard_eval.py 66-83, 85-108, 110-112, 114-142, 144-154, 156-193, 172-173, 176-192, 195-252, 254-287, 289-368, 370-410, 412-444, 446-470, 479-530; runtime.py 92-97, 113-116, 447-475; common.py 143, 176-181.
* **`Bo_model.v`** (42 definitions)
  Bayesian optimization: neps/optimizers/bayesian_optimization/optimizer.py (ask),
  neps/optimizers/initial_design.py, the data and the choice of categories in
  neps/optimizers/bayesian_optimization/models/gp.py, the check in
  acquisition_functions/cost_cooling.py, and get_loss, get_cost of
  neps/optimizers/base_optimizer.py.
  An encoded configuration is the list of its numbers, as exact multiples of 2^-1074 (Py.v).  The
  samplers, the encoder and the optimization of the acquisition function are given from outside:
  what they return is arbitrary.  Of the gaussian process only this is kept: botorch's Standardize
  raises for no observations, and SingleTaskGP raises for targets that are not finite after it
  (InputDataError, here RuntimeError).  Overflow in the mean and the deviation of finite targets
  is left out.
  Cited: initial_design.py 16-129, 21, 23-25, 62-93, 97-100, 103-111, 125; gp.py 44-51, 69-128, 131-218, 172-176, 189-206, 221-273, 239-250, 246-250, 263, 264, 360-403; cost_cooling.py 46; optimizer.py 121-139, 139, 141-218, 151-163, 152-153, 173-182, 182; base_optimizer.py 23-36, 39, 51-64, 67, 104-107, 127-142, 144-158.
* **`Plot_model.v`** (54 definitions)
  Plots of runs: neps/plot/read_results.py, neps/plot/plotting.py, neps/plot/plot.py and the
  identifiers in neps/plot/plot3D.py.
  A run is the list of its stored trials.  Floats do not round.  Of a figure only what is drawn
  where is kept: the axes, the labels and, for every seed, the positions and heights of its
  curve; the mean over the seeds and its standard error (plotting.py:90-92), scales, fonts and
  colours are not modelled.  pandas and numpy are modelled as far as they are used, for numpy
  1.24 or later and pandas 2 (pyproject.toml allows numpy ^1 and pandas ^2).
  Cited: plotting.py 16-20, 60-64, 86-87, 90-92, 119-164, 119-155, 125-128, 135, 138, 142-149, 144, 151, 158-164, 160-163, 162, 164, 167-183; read_results.py 13-70, 27-28, 36, 38, 40-47, 45, 53-63, 67, 70; status.py 54; neps/state/trial.py 44-60; plot.py 17-31, 17-145, 67-68, 74-83, 75-96, 84-133, 101-111, 113-115, 116-133, 127-128.
* **`Call_model.v`** (12 definitions)
  How the user's function is called: neps/state/_eval.py:137-164 evaluate_trial,
  neps/state/_eval.py:85-94 and Python's binding of keyword arguments.
  Values are of any type; [path] makes a [Path] of a location.
  Cited: neps/state/_eval.py 85-94, 137-164; _eval.py 93-94, 94, 96, 145-158, 157.
* **`Lock_model.v`** (14 definitions)
  Environment variables (neps/env.py) and the time for which a lock is waited for
  (neps/state/filebased.py:430-487 FileLocker, with portalocker 2, pyproject.toml:60).
  Cited: neps/state/filebased.py 430-487; env.py 15-23, 26-28, 28, 31-84, 33, 34, 38, 39; filebased.py 447-456, 458-487, 469-475, 472.
* **`Rng_model.v`** (23 definitions)
  Snapshots of the random number generators (neps/state/seed_snapshot.py), their files
  (neps/state/filebased.py:261-354) and the list of searchers (neps/optimizers/info.py).
  Cited: neps/state/filebased.py 261-354; seed_snapshot.py 16, 17, 22-35, 37-45, 47-65, 67-79, 79, 81-114; filebased.py 261-354, 275-319, 323-354; neps/state/neps_state.py 86-141; info.py 23-38, 40-59, 61-80, 82-100.
* **`Prune_model.v`** (17 definitions)
  Pruning graphs of architectures:
  neps/search_spaces/architecture/core_graph_grammar.py:110-113, 725-826.
  A graph (networkx.DiGraph) is its nodes and edges, in the order in which they were added, without
  their attributes.  The order in which [nx.topological_sort] gives the nodes is an argument.
  Python's limit of recursion is not modelled.
  Cited: neps/search_spaces/architecture/core_graph_grammar.py 110-113, 725-826; core_graph_grammar.py 110-113, 725-796, 730-740, 755, 774-790, 782-788, 799, 799-825, 800-812, 802, 805, 817-824, 818, 819-820.
* **`Compose_model.v`** (10 definitions)
  From the text of a parse tree to the composition of topologies and primitives:
  neps/search_spaces/architecture/core_graph_grammar.py:878-960, 977-998.
  [topology]: which terminals stand for topologies, the others stand for primitives; the object
  that a topology makes of its arguments is just a pair of both.
  Cited: neps/search_spaces/architecture/core_graph_grammar.py 878-960, 977-998; core_graph_grammar.py 878-960, 893-894, 902-904, 905-947, 909-921, 917, 919-920, 927-945, 940-941, 977-983, 986-998.
* **`Net_model.v`** (30 definitions)
  The module made of a graph, and topologies that are called themselves:
  neps/search_spaces/architecture/graph.py:221-345, topologies.py:26-187.
  A graph (nodes, edges) is as in Prune_model, what is at its edges and nodes is given by functions.
  The generated source is a list of statements here instead of a text; [X] are the values (tensors).
  Not modelled: graphs at nodes (graph.py:239-248), [parse], writing the source to a file
  (graph.py:331-334), the names of operations (topologies.py:27-60).
  Cited: neps/search_spaces/architecture/graph.py 221-345; topologies.py 26-187, 27-60, 61-74, 79-106, 86-106, 109-187, 117, 120-122, 132-136, 140, 147, 153, 158, 166, 180, 183-184; graph.py 221-345, 231-237, 236, 237-307, 239-248, 250-272, 254-263, 258, 260, 261, 267, 284-307, 287-306, 290, 298, 299, 307, 309, 316-321, 316, 331-334.
* **`Flat_model.v`** (10 definitions)
  Flattening graphs: neps/search_spaces/architecture/core_graph_grammar.py:828-876.
  A graph with operations at its edges is the list of them, in the order in which networkx gives
  them; the attributes of nodes are not modelled.  [A]: operations that are no graphs.
  Cited: neps/search_spaces/architecture/core_graph_grammar.py 828-876; core_graph_grammar.py 828-876, 834-835, 836, 837-876, 838-866, 841-845, 852-853, 859, 862-863, 868, 868-874, 873-874.
* **`Arch_model.v`** (23 definitions)
  Architecture parameters: neps/search_spaces/architecture/graph_grammar.py:31-362, api.py:40-165.
  [V]: the graphs that [value] gives; [repr]: from_stringTree_to_graph_repr (graph_grammar.py:257-266,
  with the default new_graph_repr_func=False).  Texts that are sampled, mutated and so on are
  arguments.  [normalized_value] is not modelled, neither is the graph that the parameter is itself,
  which [clear_graph] empties.
  Cited: neps/search_spaces/architecture/graph_grammar.py 31-362; api.py 40-165, 40-51, 44-51, 54-59, 54-164, 65-72, 102-110, 139-155, 157-160; graph_grammar.py 70-75, 80-96, 98-102, 137-141, 162-185, 191-234, 191-205, 226-230, 236-244, 246-268, 257-266, 270-299, 300-315, 321-327, 333-338, 352-356; neps/search_spaces/parameter.py 62-71.
* **`Pool_model.v`** (11 definitions)
  The pool of candidates of the acquisition sampler:
  neps/optimizers/bayesian_optimization/acquisition_samplers/mutation_sampler.py, random_sampler.py,
  base_acq_sampler.py.
  [X]: configurations; sizes are natural numbers (a [mutate_size] that is a fraction is the number
  int(mutate_size * pool_size) of lines 118-121); losses and acquisition values are multiples of one
  unit, as integers.
  Cited: mutation_sampler.py 22-45, 32, 88-106, 108-174, 123-130, 126-129, 140-164, 142-164, 143-164; random_sampler.py 18-21; base_acq_sampler.py 28-31.
* **`Con_model.v`** (24 definitions)
  Grammars with constraints: neps/search_spaces/architecture/cfg_variants/constrained_cfg.py:14-191, 330-357,
  441-496, 574-594.
  As in Cfg_model, random choices are arguments.  Not modelled: priors (user_priors, compute_prior), the
  rest of _compute_current_context (358-439), which is an argument here, and the rest of crossover.
  Cited: neps/search_spaces/architecture/cfg_variants/constrained_cfg.py 14-191, 330-357; constrained_cfg.py 75-92, 94-104, 106-192, 121-127, 150-191, 151-152, 153-154, 155-191, 160-166, 165-182, 169-182, 187-188, 189-191, 330-357, 332-345, 332, 340-341, 441-496, 446-474, 456-474, 478-496, 498-507, 574-594, 576.
* **`Acq_model.v`** (23 definitions)
  Acquisition functions: weights put on them, costs that cool down, decaying priors, upper confidence bounds
  and expected improvement: neps/optimizers/bayesian_optimization/acquisition_functions/ (all files but
  pibo.py, which is in Prior_model), and how gp.py:347-403 nests weights.
  Numbers are rationals; [None] for a value is NaN or an infinity.  Logarithms, powers and roots are
  arguments.  Not modelled: gradients, devices, the values of the expected improvement (ei.py:75-114).
  Cited: gp.py 347-403, 347-358, 360-403; ei.py 75-114, 116-127, 126; weighted_acquisition.py 90-153, 96-126, 117, 118-122, 129-153, 145, 152; cost_cooling.py 18-37, 37, 40-54; prior_weighted.py 28, 30-55, 38, 40-54, 48, 49, 52, 53, 57-68; ucb.py 17-40, 33-40, 42-57.
* **`Near_model.v`** (11 definitions)
  Distances of configurations, neighbours of the incumbent, and when priors are used:
  neps/search_spaces/search_space.py:505-550, neps/optimizers/multi_fidelity_prior/utils.py:106-129,
  neps/optimizers/multi_fidelity/sampling_policy.py:71-92, 128-159, 303-347.
  Numbers are rationals.  The Euclidean norm is an argument, random samples and numbers are arguments.
  Cited: neps/search_spaces/search_space.py 505-550; neps/optimizers/multi_fidelity_prior/utils.py 106-129; neps/optimizers/multi_fidelity/sampling_policy.py 71-92, 128-159, 303-347; categorical.py 239-240; search_space.py 505-550, 529-548; utils.py 106-129, 120, 125-127; sampling_policy.py 30-32, 76-79, 87-92, 128-159, 141-159, 329-344.
* **`Sub_model.v`** (16 definitions)
  Building the graph of an architecture from its terminals:
  neps/search_spaces/architecture/core_graph_grammar.py:280-290, 308-318, 351-358, 370-392, 415, 440-455
  (from_stringTree_to_graph_repr, edge-attributed).
  Simplification: the string is given by its terminals in order, without nonterminals and brackets
  (320-349; Cfg_model is about these).  Not modelled: node attributes, subtree maps, subgraphs and what is
  pruned after the loop.
  Cited: neps/search_spaces/architecture/core_graph_grammar.py 280-290, 308-318, 351-358, 370-392, 415, 440-455; core_graph_grammar.py 280, 288-289, 312-316, 320, 351-358, 370-373, 370-392, 381, 382-392, 383-390, 415, 440-455, 442, 449, 450, 455.
* **`Wts_model.v`** (10 definitions)
  Priors of grammars: how they are checked when they are set, and how trees are sampled with them
  (neps/search_spaces/architecture/cfg.py:41-128; called from graph_grammar.py:232-241).
  Grammars are those of Cfg_model.  Numbers are rational, sums are exact.  A prior has strings as keys.  [us]: the
  numbers from [0, 1) that numpy draws for np.random.choice one after the other; an execution for which there
  are not enough of them, or that is too deep for [fuel], is [Err OutOfFuel].  Exception is [RuntimeError].
  Sampling without a prior is in Cfg_model, the value of a prior (compute_prior) too.
  Cited: neps/search_spaces/architecture/cfg.py 41-128; graph_grammar.py 232-241; cfg.py 46-66, 48-62, 59, 91-128, 106-112, 112, 116-126.
* **`Dual_model.v`** (4 definitions)
  Topologies with the operations on nodes instead of edges:
  neps/search_spaces/architecture/core_graph_grammar.py:245-266 (to_node_attributed_edge_list).
  Edges and the first and last node are those of Sub_model.
  Cited: neps/search_spaces/architecture/core_graph_grammar.py 245-266; core_graph_grammar.py 245-266, 249, 255-264, 256, 264.

## Properties

147 properties: 35 proved, 112 partial. "Proved" means that the statement in properties.jsonl holds as it stands in the model; "partial" that some clause is refuted or has conditions, which the note names. All theorems are closed under the global context.

### C01 No lost updates on a shared resource

A worker's put on a shared resource is accepted exactly when nobody else has put to that resource since this worker's handle was last created, loaded, synced or itself put; a rejected put raises VersionMismatchError and leaves the stored data untouched. Hence the accepted puts form one linear history and no accepted update is ever overwritten by a worker that had not seen it.

Status: **proved**. All schedules, any number of workers; versions (uuid4) assumed collision free, lock sections atomic.

* `store_refines_register` (Store_props.v): for every schedule of operations by any workers that follow the calling discipline, everything the callers observe (which puts are accepted, which values are returned, which errors are raised) is what an append-only log of accepted writes would show.
* `store_disk_is_last_accepted` (Store_props.v): and what is on disk is the last accepted write (nothing else).
* `put_accepted_iff_nothing_stored_since` (Store_props.v): C01, without any calling discipline: after an operation [o] that brought [w] up to date, a put by [w] is accepted exactly when nobody stored anything since; an accepted put stores exactly [x]; a rejected one leaves the disk as it is.

### C02 A synced read returns the latest accepted write

After any history of operations by any number of workers, synced() (and the value yielded by acquire()) returns exactly the data of the last accepted put (or of the creation when there was none), provided nobody mutates the returned object in place without putting it. With in-place mutation followed by a rejected or failed put, the guarantee is lost.

Status: **partial**. Holds for callers that try to put their in-place modifications before asking again; refuted otherwise (the returned object is the cache).

* `store_refines_register` (Store_props.v): for every schedule of operations by any workers that follow the calling discipline, everything the callers observe (which puts are accepted, which values are returned, which errors are raised) is what an append-only log of accepted writes would show.
* `store_disk_is_last_accepted` (Store_props.v): and what is on disk is the last accepted write (nothing else).
* `synced_after_failed_put_refuted` (Store_props.v): the object returned by synced() is the cache itself. If a worker modifies it and its put then fails to get the lock, the next synced() returns the modified value although nothing was stored.

### C03 Concurrent creation elects one creator

If any number of workers call new_or_load on the same resource in any order, exactly one of them creates it, all others load it, nobody gets an error, and until somebody puts, all of them hold the creator's data (the data argument of the others is ignored).

Status: **proved**. Both lock sections of new_or_load interleave freely.

* `new_or_load_elects_one_creator` (Store_props.v): if [c] is the first of any number of workers to enter new_or_load and the others are scheduled in any order [ws], then [c] and nobody else creates the resource, nobody gets an error, the data on disk is [c]'s, everybody who returned holds [c]'s data, and everybody scheduled at least twice has returned.

### C04 A trial is evaluated at most once

Whatever the number of workers and the schedule, no sampled trial is evaluated twice: once a worker has managed to mark a trial as evaluating, no other worker evaluates it.

Status: **partial**. Refuted in general: between listing pending trials and re-reading the chosen one another worker can take it. Proved: per worker always, and overall when no such late re-read happens.

* `evaluated_at_most_once_partial` (Runtime_props.v): C04. Full statement: [NoDup (evaluated (start cs b errs r n) es)] for all schedules; it is refuted below. Holds when no trial is re-read after another worker took it.
* `each_worker_evaluates_once` (Runtime_props.v): each worker evaluates a trial at most once, so [W] workers evaluate it at most [W] times.
* `single_worker_evaluates_once` (Runtime_props.v): in particular a single worker.
* `evaluated_at_most_once_refuted` (Runtime_props.v): workers 0 and 1 list config_0 as pending, worker 1 evaluates and reports it, then worker 0 reads it again, claims it successfully and evaluates it again.

### C05 Of the workers that fetched the same trial version, exactly one claims it

If several workers obtained a trial at the same stored version and all try to mark it as evaluating, the first to do so succeeds and every other one is told VersionMismatchError and does not evaluate, and the stored trial names the winner as evaluating worker.

Status: **proved**. From every reachable state, for any number of competing workers and anything happening in between.

* `first_claim_wins` (Runtime_props.v): C05

### C06 Losing a claim race is harmless

A worker whose attempt to mark a trial as evaluating is rejected retries with the next trial; it gives up with WorkerFailedToGetPendingTrialsError only after 10 rejected attempts in a row.

Status: **partial**. Outcome of a rejected claim characterised for all histories; the claim itself is refuted: before the first accepted attempt a rejection ends the worker with UnboundLocalError.

* `rejected_claim_partial` (Runtime_props.v): C06. Full statement: a rejected worker goes on ([PStart]) unless this was the 10th rejection in a row. Refuted below for workers that never had an attempt accepted; here is what happens in all cases.
* `rejected_claim_refuted` (Runtime_props.v): workers 0 and 1 try to claim config_0, the second to do so has had no attempt before and dies with an UnboundLocalError.

### C07 Reported results are final

Once a worker's report of a trial is stored, the trial's stored status is a final one (success, failed, crashed), and neither status nor report changes afterwards.

Status: **partial**. Refuted by the race of C04; proved when no trial is re-read after another worker took it.

* `reported_is_final_partial` (Runtime_props.v): C07. Full statement: the same without [no_late_refetch]; refuted below.
* `report_never_rejected_partial` (Runtime_props.v): and a finished evaluation's report is never rejected. Full statement: for all schedules; refuted below.
* `reported_is_final_refuted` (Runtime_props.v): in the situation of C04 the successful trial becomes "evaluating" again.
* `report_never_rejected_refuted` (Runtime_props.v): and a worker whose trial was taken over in this way dies when it stores its report.

### C08 Cost accounting never loses a report

Whatever the interleaving of any number of workers sampling and reporting, the used cost budget stored in the optimizer state equals its initial value plus the sum of the costs of all reports whose accounting step has run; sampling does not change it; resources without a budget stay without one.

Status: **proved**. All schedules, including restarts and kills while sampling; exact float addition.

* `used_cost_is_sum_of_charged` (Runtime_props.v): C08
* `stored_reports_are_charged_once` (Runtime_props.v): every stored report is charged exactly once, unless its worker is killed or has not come to it yet.

### C09 The shared error log is complete

Whatever the interleaving of reporting workers, the shared error dump contains exactly one entry per reported error, in the order in which the workers entered the critical section, no entry is lost, duplicated or altered, and reports without an error add nothing.

Status: **proved**. All schedules, including restarts and kills while sampling.

* `error_log_is_complete` (Runtime_props.v): C09
* `stored_errors_are_logged_once` (Runtime_props.v): every stored report with an error is logged exactly once, the others are not, unless its worker is killed or has not come to it yet.

### C10 Stopping decision

A worker continues exactly when none of its limits is reached: own error (unless errors are ignored), own evaluation count, own cost, wall clock, own evaluation time, any shared error (in the *_ANY_ERROR modes), total evaluations, total cost, total evaluation time; it raises instead of stopping exactly in the RAISE_* modes; a limit of n stops at n, not n+1.

Status: **proved**. Exact characterisation of continue/stop/raise; every_evaluation_reported_partial ties it to a running worker.

* `stopping_decision` (Limit_props.v): C10. A worker goes on exactly when nothing stops it; it raises only for errors and only in the raising modes.
* `evaluations_counted` (Limit_props.v): the number of evaluations is determined by the trials
* `every_evaluation_reported_partial` (Limit_props.v): a worker that is alone, at the top of its loop in any reachable state, decides by the stored trials and errors; it ends in the decided way without an evaluation, or makes exactly one, whose trial then has a report and a final status, and is back at the top of the loop.

### C11 A single worker performs exactly max_evaluations_total evaluations

A single worker that samples successfully, starting from a state with r reported trials, evaluates exactly max(0, n - r) trials when only max_evaluations_total = n is set, whatever the evaluations return (errors ignored), and then stops; with max_evaluations_per_run = m it evaluates exactly m.

Status: **proved**. For all histories, outcomes that can be read or raise, and optimizers that answer.

* `single_worker_total` (Limit_props.v): C11. A single worker with only a total limit makes exactly the missing evaluations, and then stops for good.
* `single_worker_own` (Limit_props.v): C11. With a limit per worker it makes exactly that many, whatever is stored.

### C12 Bounded overshoot of max_evaluations_total with several workers

With W workers and max_evaluations_total = n, at most n + W - 1 trials are ever reported, whatever the schedule (each worker may finish the one evaluation it had started); the bound is attained.

Status: **proved**. All schedules, restarts, numbers of workers; the bound is attained by overshoot_attained_example.

* `overshoot_of_total_evaluations` (Runtime_props.v): C12

### C13 Cost limit overshoots by at most the last evaluation

For a single worker with max_cost_total = c and non-negative costs, the sum of the costs of all reported trials except the last one is below c; so the overshoot is at most the cost of one evaluation.

Status: **proved**. Sums are exact in the model; a NaN cost is excluded by the hypothesis and shown to disable the limit.

* `cost_overshoot` (Limit_props.v): C13. Single worker with a total cost limit: at any moment, without the trial whose report was stored last, the stored costs are below the limit (whatever was stored before the run, if anything was evaluated at all).
* `nan_cost_refuted` (Limit_props.v)

### C14 Error policy

With ignore_errors a crashing evaluation never stops a worker and is recorded as a crashed trial with the configured default loss/cost; without it the worker that saw the error raises after having stored the report, and every other worker raises at its next check (or stops there, if a limit of its own is reached).

Status: **proved**. The reading without the clause on own limits is refuted.

* `crash_is_recorded` (Limit_props.v): C14. A raising function gives a crashed trial with the configured default values.
* `ignored_errors` (Limit_props.v): C14. With ignored errors, errors play no part in the decision to stop.
* `own_error_ends_worker` (Limit_props.v): C14. Otherwise a worker whose evaluation raised never evaluates again; unless the report could not be stored (C07) the error is on the shared log before the worker looks whether to go on, and then it raises (or stops, in the modes that say so).
* `any_error_ends_others` (Limit_props.v): C14. In RAISE_ANY_ERROR mode every other worker raises at its next check once an error is on the shared log, unless one of its own limits lets it stop.
* `any_error_raises_refuted` (Limit_props.v)

### C15 Sampling is reproducible from the seed state

The k-th sampled configuration depends only on the initial shared random state and the optimizer, not on which workers sample, on what random numbers they draw in between, or on how sampling interleaves with evaluations, for any optimizer whose proposal depends only on the random state and the number of existing trials.

Status: **proved**. Two arbitrary runs with different workers, settings, schedules and results.

* `sampling_is_reproducible` (Runtime_props.v): two runs of different workers, with different settings, schedules, evaluation results and private random states, that started from the same configurations and the same stored random state, sampled the same configurations (as far as both got).

### C16 A crash while a trial is being created never blocks the run

If a worker is killed at any point while it creates a new trial, the other workers and later runs can still list and read all trials.

Status: **partial**. Exact: killed before the directory exists or after the state file is written, everything keeps working (the theorems about listings include such kills); killed in between, every process is blocked for ever.

* `crash_while_creating` (Fs_props.v): the worker is killed after any number [k] of file operations while creating a trial (the directory itself exists). The trial can be loaded, and is then the complete trial, exactly when the state file had been written; otherwise loading raises.
* `killed_while_creating_blocks_for_ever` (Repo_props.v): killed during the creation of a trial, before the state file is written: whatever happens afterwards (other trials created, workers restarted, ...) no process can ever again list the trials or get a pending one, and the id cannot be reused either. With [harmless] kills all theorems above apply, so this is an exact characterisation.
* `crash_while_creating_never_blocks_refuted` (Repo_props.v)
* `next_pending_is_oldest` (Repo_props.v): after any history, in a quiescent moment, every process is handed a pending trial with the smallest sampling time, and none if there is none.
* `get_all_trials_is_what_is_stored` (Repo_props.v)

### C17 A crash while a trial is being updated leaves the old or the new trial

If a worker is killed at any point while it stores an update of a trial, readers afterwards see either the trial before the update or after it, entirely; and if the version number moved then they see the trial after it.

Status: **partial**. Every crash point between single file operations. The clause about moved versions and cached readers is proved; fresh readers may see a mixture (proved to consist of old and new parts) or fail.

* `completed_put_stores_trial` (Fs_props.v): A completed put leaves the directory holding exactly the new trial under the new version (so a directory behaves like the single cell of Store_model).
* `crash_while_updating_version_moved` (Fs_props.v): the worker is killed after any number [k] of file operations while updating; if the version on disk is no longer the old one, every reader (fresh or holding the old version) sees the whole new trial.
* `crash_while_updating_cached_reader_partial` (Fs_props.v): workers that had read the trial before keep seeing it as it was.
* `crash_while_updating_fresh_reader_partial` (Fs_props.v): what they read, if they can read, consists of complete old and new parts; no other data appears.
* `crash_while_updating_atomic_refuted` (Fs_props.v): C17 is false for fresh readers: after some crash points they see a trial that is neither the old nor the new one (status success but no report), under the old version, while a worker that had it cached sees the old one; after others they cannot read it at all.

### C18 Start-up is idempotent, safe under races and resumable

Opening the same result directory any number of times with the same optimizer description succeeds and leaves an existing state unchanged; opening it with a different description fails without changing any stored data; concurrent first openings and openings after a crash at any point succeed.

Status: **partial**. Idempotence and refusal proved; crash points characterised exactly; races: who fails is characterised and refuted in general.

* `first_opening_creates_state` (Init_props.v): opening a directory that does not exist.
* `reopening_changes_nothing` (Init_props.v): opening a complete state (whatever its contents are by now) with an equal description succeeds, gives the stored state and changes nothing; hence so do all further openings.
* `loading_gives_stored_state` (Init_props.v): ... and so does loading without a description.
* `other_description_refused` (Init_props.v): another description is refused and nothing changes.
* `opening_after_crash_succeeds_iff` (Init_props.v): C18 after a crash: the process that opens the directory first is killed after [k] file operations. A later opening with the same description succeeds exactly for these [k]; otherwise it fails (and so does every further one, as nothing changes).
* `opening_after_crash_refuted` (Init_props.v)
* `opening_after_crash_state_refuted` (Init_props.v): Even when it succeeds the state may be damaged: killed after 12 operations, numpy's random state is read as empty.
* `opening_directory_without_info_fails` (Init_props.v): an existing but empty directory (e.g. made by the user) cannot be used.
* `opening_empty_directory_refuted` (Init_props.v)
* `same_description_accepted_refuted` (Init_props.v): a description with a tuple is refused when it is used again (it is stored as a list).
* `racing_first_opener_never_fails` (Init_props.v): C18 under races: any number of processes with the same description open the directory for the first time, in any interleaving. (1) Those that look before anybody created the directory never fail.
* `racing_late_opener_never_fails` (Init_props.v): (2) Those that start after the description is on disk never fail.
* `racing_openers_agree` (Init_props.v): (3) All that succeed hold the same state.
* `racing_openers_fail_only_on_missing_info` (Init_props.v): (4) Whoever fails, fails because the description was not there or not complete.
* `racing_first_opening_refuted` (Init_props.v): (5) They do fail: a process that looks between the creation of the directory and the writing of the description.

### C19 Stored trials read back equal

Writing a trial to its directory and reading it back yields the same config, metadata, status and report.

Status: **partial**. Proved for plain data; refuted for tuples, for a dropped report and for values YAML cannot write.

* `stored_trial_reads_back_partial` (Fs_props.v): writing a trial and reading it back gives the trial, for all trials of plain data (no tuples or foreign objects), whatever was in the directory before, unless the trial has no report but the directory has one.
* `completed_put_stores_trial` (Fs_props.v): A completed put leaves the directory holding exactly the new trial under the new version (so a directory behaves like the single cell of Store_model).
* `stored_tuple_reads_back_refuted` (Fs_props.v): C19 is false for tuples (they come back as lists, which compare unequal).
* `stored_without_report_reads_back_refuted` (Fs_props.v): C19 is false for a trial without report stored over one with a report (e.g. after reset): the old report comes back.
* `unwritable_report_poisons_trial_refuted` (Fs_props.v): a report with an object YAML cannot write: the write raises TypeError, but only after the state file says "success" and the report file was emptied; from then on every fresh reader of this trial raises.

### C20 Trial ids survive the directory encoding

The set of ids reported for a result directory is exactly the set of ids of the trials put there, and each listed id can be fetched.

Status: **partial**. Proved exactly for ids that do not contain 'config_'.

* `directory_name_gives_back_id_iff` (Repo_props.v): which ids survive the encoding as directory name.
* `listed_ids_are_the_put_ids_partial` (Repo_props.v): C20, for ids without "config_" (all optimizers of this code base use numbers, and numbers joined by "_"): after any history of operations by any number of processes, the listed ids are exactly those put, and every process can fetch each of them.
* `listed_ids_refuted` (Repo_props.v): C20 is false for ids that contain "config_": such a trial is listed under another id, fetching fails, and with it the listing of all trials (for every later worker).

### C21 Putting a trial under an existing id is refused

Putting a new trial whose id already exists raises TrialAlreadyExistsError and leaves the stored trial as it was; otherwise the trial is stored and every other trial is unchanged.

Status: **proved**. One process at a time (sampling holds the optimizer lock).

* `put_new_refuses_existing_id` (Repo_props.v): an existing id is refused and nothing changes.
* `put_new_stores_new_id` (Repo_props.v): a new id is stored (with its location filled in), all else stays.

### C22 Pending trials are handed out oldest first

In a quiescent repository the next pending trial is a pending trial with the smallest sampling time, all pending trials and nothing else are listed, and none is handed out when nothing is pending.

Status: **proved**. All histories of sampling, updating, listing, restarting processes with their caches; plain data. worker_takes_oldest_pending is the same inside the worker loop.

* `next_pending_is_oldest` (Repo_props.v): after any history, in a quiescent moment, every process is handed a pending trial with the smallest sampling time, and none if there is none.
* `pending_lists_exactly_pending_in_order` (Repo_props.v)
* `get_all_trials_is_what_is_stored` (Repo_props.v)
* `worker_takes_oldest_pending` (Oldest_props.v): C22. After any history of any number of workers: a worker that looks for a trial while the others pause takes the pending trial that was sampled first, and samples a new one only when none is pending.

### C23 Equality of reports is an equivalence that treats NaN as equal to itself

Report equality is reflexive, symmetric and transitive even when loss or cost are NaN, and two equal reports agree in every field up to the error's text.

Status: **partial**. Symmetry, transitivity and the field-by-field meaning hold for all reports; reflexivity fails for NaN in the learning curve; 'no error' equals an error with text None.

* `report_eq_means_same_report` (Trial_props.v): two reports compare equal exactly when they agree field by field.
* `report_eq_symmetric` (Trial_props.v): symmetric, for all reports.
* `report_eq_transitive` (Trial_props.v): transitive, for all reports.
* `report_eq_reflexive_partial` (Trial_props.v): only for reports without NaN outside loss and cost (the full statement, for all reports, is refuted below).
* `report_eq_reflexive_refuted` (Trial_props.v): a NaN in the learning curve (which the setting learning_curve_if_not_provided="loss" produces whenever the loss is NaN) makes a report unequal to an identical one.
* `report_eq_error_presence_refuted` (Trial_props.v): no error at all is not distinguished from an error whose text is "None".

### C24 User results are parsed as documented

A number is taken as loss; a dictionary must contain loss, may contain cost and learning_curve (also inside info_dict), every other entry ends up unchanged in extra, defaults are used exactly for missing entries, and anything that is not convertible is rejected with an error.

Status: **proved**. float() is a parameter that leaves floats alone.

* `parse_plain_result` (Eval_props.v): anything that is not a dictionary is taken as the loss, with the default cost and curve; it is accepted exactly when [float()] accepts it.
* `parse_dict_result_sound` (Eval_props.v): an accepted dictionary is read as specified; nothing is lost or invented.
* `parse_dict_result_complete` (Eval_props.v): every dictionary that has a reading is accepted, so everything else is rejected with an exception.
* `parse_dict_without_loss` (Eval_props.v): a dictionary without a loss is rejected with KeyError.

### C25 Every evaluation ends in a stored report

Whatever the user's function does (return anything or raise), the trial ends with a status success or crashed and a stored report, and the worker is ready for the next trial.

Status: **partial**. Holds for raising functions and readable results; refuted for unreadable results (worker dies, trial stays EVALUATING, process unusable).

* `evaluation_outcome` (Eval_props.v): a raising function always gives a crashed trial with the configured defaults; a returned value that can be read gives a successful trial with exactly the read values; a value that cannot be read raises.
* `every_evaluation_reported_partial` (Limit_props.v): a worker that is alone, at the top of its loop in any reachable state, decides by the stored trials and errors; it ends in the decided way without an evaluation, or makes exactly one, whose trial then has a report and a final status, and is back at the top of the loop.
* `every_evaluation_reported_refuted` (Eval_props.v): so not every evaluation ends in a report: a function that returns normally with a dictionary without loss, with None, or with a bad info_dict, makes the worker raise.
* `evaluation_always_reported_refuted` (Limit_props.v): C25 refuted: a function that returns a string ends the worker; the trial stays EVALUATING without a report, and a later run in the same process fails with NePSError at its first evaluation.

### C26 Resetting a trial restores its freshly sampled state

reset() makes a trial indistinguishable from the same trial just after sampling.

Status: **partial**. Holds exactly for trials that were never reported.

* `trial_identity_never_changes` (Trial_props.v): whatever happened to a trial, its identity, configuration, directory, predecessor and sampling information stay what they were at sampling.
* `reset_restores_new_iff_unreported` (Trial_props.v): after any history, reset gives back the freshly sampled trial exactly when no report has been attached in that history.
* `reset_keeps_only_report_partial` (Trial_props.v): and in general it differs from it in the report only.
* `reset_restores_new_refuted` (Trial_props.v): C26 is false for reported trials: reset keeps the old report.

### C27 Status summary: best configuration

The reported best loss is the smallest loss over all successfully evaluated trials, the reported best config/id/metadata belong to a trial attaining it, it is infinite/None exactly when no successful trial has a loss below infinity, and the evaluated and error counts equal the number of reported and of non-successful reported trials.

Status: **proved**. For every set of trials in any listing order; trials read from the directory.

* `summary_of_best` (Status_props.v): C27. [pyfloat]: Python's float().
* `evaluated_reports_are_plain` (Status_props.v): The reports evaluate_trial makes are plain (see Status_spec), provided info_dict, if the function returned one, is a dictionary.

### C28 Status summary: pending counts

The summary's pending count equals the number of trials that are pending or evaluating, and the with-worker count the number being evaluated.

Status: **partial**. Refuted: both counts are 0 whatever the trials; pending_counts_partial proves that.

* `pending_counts_refuted` (Status_props.v)
* `pending_counts_partial` (Status_props.v): What holds: both counts are always 0, so they are right exactly when no trial is pending or being evaluated.

### C29 The CSV summary never goes backwards

When several workers write the CSV summary, the number of evaluated configurations in the file never decreases, whatever the order in which they computed and wrote their summaries.

Status: **partial**. Refuted: summaries are computed before the lock is taken; proved when nobody writes between computing and writing.

* `csv_never_backwards_refuted` (Status_props.v)
* `csv_never_backwards_partial` (Status_props.v): What holds: it never goes backwards when nobody else computes or writes a summary between a worker's computing and writing.

### C30 Fidelity ladder

For successive halving with eta >= 2, the budget of each rung lies between the minimal and maximal fidelity, the highest rung has exactly the maximal fidelity, budgets increase strictly from rung to rung, each rung gets eta times the previous one (up to integer truncation), and early_stopping_rate s removes exactly the lowest s rungs.

Status: **partial**. Ladder proved for every logarithm that is never rounded up; removal of rungs for exact logarithms, refuted for the float quotient (243, eta 3). Exact rational budgets.

* `fidelity_ladder` (Ladder_props.v): within the bounds, up to the maximal fidelity, strictly growing by a factor of eta up to truncation, for every bracket.
* `early_stopping_removes_rungs` (Ladder_props.v): early_stopping_rate s removes exactly the lowest s rungs, and is refused when there are no more rungs; when the logarithm is exact.
* `early_stopping_rounded_refuted` (Ladder_props.v): with the logarithm computed in floats, which loses a rung at 243 = 3^5, the brackets disagree: full statement (with [never_above] in place of [exact]) refuted. Rung 1 gets budget 9 in the bracket with early stopping rate 0 and 3 with 1, and the highest rungs are 4 and 5.

### C31 Configuration ids are never reused

Over any history of asks and reports in any order, each ask of a successive-halving optimizer returns an id that no existing trial has, so no result is overwritten.

Status: **proved**. All four optimizers; any logarithm, sorting and listing order. Ids as pairs of numbers.

* `ids_never_reused` (Sh_props.v): an ask never returns an id that exists: all four optimizers, any logarithm, any sorting, any order of the trials.

### C32 A promotion continues an existing, finished evaluation

Whenever a successive-halving style optimizer promotes, the returned trial names as predecessor an existing finished trial of the same configuration exactly one rung below, keeps all its hyperparameters except the fidelity, sets the fidelity to the budget of the new rung, and the same promotion is never made twice.

Status: **proved**. promotion_fidelity for exact logarithms.

* `promotion_continues` (Sh_props.v): a promoted trial names an existing, finished trial one rung below with the same hyperparameters, no two trials name the same one, and a trial that names none is the lowest of its configuration.
* `promotion_fidelity` (Sh_props.v): every trial's fidelity is the budget of its rung (when the logarithm is exact).

### C33 Asynchronous promotions come from the top 1/eta of a rung

The asynchronous policy promotes only a configuration that is among the best floor(n/eta) of the n finished configurations of its rung, never from the highest rung, never a configuration already promoted, and promotes from the highest rung where that is possible.

Status: **partial**. Proved relative to the configurations whose highest evaluation is at the rung; refuted relative to all configurations evaluated there, and failed configurations get promoted with ignore_errors.

* `asynchronous_promotion` (Sh_props.v): an asynchronous promotion is from a rung below the top where at least eta configurations wait; it takes a best one of those waiting there, and nowhere higher do eta configurations wait. A new configuration is only started when no eta configurations wait anywhere from the drawn bracket's lowest rung on.
* `asynchronous_promotion_all_evaluated_refuted` (Sh_props.v): C33 counted over all configurations ever evaluated at the rung (as ASHA is published) is false: of 3 configurations at rung 0 with eta = 2, two get promoted.
* `failed_not_promoted_refuted` (Sh_props.v)

### C34 Synchronous promotions wait for a full rung

The synchronous policy promotes from a rung only when the rung holds at least as many finished configurations as its configured size, takes only among the best ones, and never from the highest rung.

Status: **proved**. SuccessiveHalving and Hyperband, all histories; exact logarithm; without ignore_errors (with it see C64).

* `synchronous_promotion` (Sh_props.v): a synchronous promotion from rung r is within a bracket whose rung r has exactly its configured number of evaluations, all finished; the promoted configuration has fewer than z' configurations of the bracket strictly better than it at that rung, z' being the number of places at the next rung (so r is not the highest rung).

### C35 The optimizer's view does not depend on directory order

The table of observed configurations a multi-fidelity optimizer derives from finished trials holds, for each configuration, the performance at its highest finished rung, independent of the order in which the trials are listed, except that configurations with a running higher rung show that rung as pending.

Status: **proved**. All histories.

* `table_content` (Sh_props.v): what the table holds.
* `table_order` (Sh_props.v): the order in which trials are listed changes neither the table ...
* `answer_order` (Sh_props.v): ... nor the answer.

### C36 Bracket sizes

Each successive-halving bracket starts at most as many configurations at each rung as configured, rung sizes shrink from rung to rung by eta, and the lowest rung of hyperband bracket s has ceil((s_max+1)/(s+1) * eta^s) configurations as in the paper (up to the code's rounding).

Status: **partial**. Sizes and that no run exceeds them proved for all histories; sizes differ from the paper's.

* `bracket_sizes` (Ladder_props.v): a rung has floor((L+1)/(L-s+1)) * eta^(L-r) places, L being the highest rung, so sizes shrink by exactly eta from rung to rung.
* `bracket_never_overfull` (Sh_props.v): no run ever starts more evaluations at a rung of a bracket than configured.
* `bracket_sizes_against_paper` (Ladder_props.v)
* `paper_sizes_refuted` (Ladder_props.v): it is not the size of the paper: 9 instead of 12 for s = 1 with four rungs.

### C37 Observed-data table operations are all-or-nothing

Adding or updating observations for a set of (configuration, budget) keys either changes exactly these keys or, when one of them conflicts, changes nothing and raises/warns as documented; next_config_id is larger than every stored id.

Status: **partial**. Proved for all tables and arguments, except that a failing update of a new column leaves the column behind (refuted) and that one call may add a label twice (refuted).

* `add_adds_all` (Mf_props.v): New labels are all added, with their data, and nothing else changes.
* `add_adds_nothing` (Mf_props.v): If one of the labels exists already nothing is added.
* `add_error_unchanged` (Mf_props.v): Whatever the arguments: when the call raises, the table is unchanged.
* `update_updates_all` (Mf_props.v): An update of existing labels and columns changes exactly the cells given.
* `update_updates_nothing` (Mf_props.v): If one of the labels does not exist nothing is updated.
* `update_error_unchanged_partial` (Mf_props.v): Whatever the labels and values: when an update of existing columns raises, the table is unchanged.
* `update_error_unchanged_refuted` (Mf_props.v): For columns that do not exist yet it is not: the update fails, but the column stays.
* `tables_well_formed` (Mf_props.v): Tables made by any sequence of calls are well-formed if no call adds a label twice.
* `labels_added_twice_refuted` (Mf_props.v): One call can add a label twice.
* `next_id_larger` (Mf_props.v): The next id is larger than all stored ones.

### C38 Keeping only the highest budget

Reducing to the highest seen budget keeps exactly one row per configuration, namely the one with the largest budget, with its performance unchanged.

Status: **partial**. One row per configuration with the largest budget proved; the performance is that of a lower budget when the evaluation at the largest one is pending (refuted).

* `reduced_ids` (Mf_props.v): One row per configuration, in the order of the ids ...
* `reduced_row` (Mf_props.v): ... with the largest budget and, column by column, the latest value there is.
* `reduced_unchanged_partial` (Mf_props.v): Where nothing is missing in the row of the largest budget, it is that row.
* `reduced_unchanged_refuted` (Mf_props.v): Otherwise the performance of a lower budget appears at the largest one.
* `highest_levels` (Mf_props.v): The highest level of each configuration.
* `kept_highest` (Mf_props.v): The same for the rows of a tensor, however ties are sorted.

### C39 PriorBand sampling weights are probabilities

The weights for sampling from the prior, around the incumbent and at random are non-negative and sum to one for every rung, every eta and every weighting option, also when the incumbent is inactive.

Status: **partial**. Proved for all trials, rungs, eta and options in exact arithmetic; the conditions are needed: scores that are all zero give NaN, all-NaN results raise, linear weights need a bracket from rung 0, decay overflows for float fidelities, hypersphere needs two different configurations.

* `priorband_weights_valid` (Pb_props.v): the weights are non-negative numbers that sum to one, and the incumbent has no weight while it is not used.
* `priorband_weights_exist` (Pb_props.v): and there are weights, for every rung, eta, type of weights and style, except where the following theorems show that there are none.
* `dynamic_weights_refuted` (Pb_props.v): C39 for the dynamic style: densities of the best configurations that are all zero in floats give NaN, and nothing can be sampled.
* `dynamic_nan_refuted` (Pb_props.v): C39 for the dynamic style: ValueError when the evaluations so far have all given NaN.
* `linear_weights_refuted` (Pb_props.v): C39 for linear weights: IndexError at the highest rung of a bracket that does not start at rung 0.
* `decay_weights_overflow` (Pb_decay_props.v): C39 for the decay style and a float fidelity: OverflowError once 1024 times eta * max_budget are spent.
* `nearest_neighbour_refuted` (Pb_props.v): C39 for "hypersphere": ValueError when all configurations are at distance zero from the incumbent.

### C40 Incumbent search terminates and returns the best configuration

find_incumbent returns a configuration with the smallest performance among the observed ones, with and without a rung argument.

Status: **partial**. Proved without a rung; with a rung the loop never ends.

* `incumbent_best` (Pb_props.v): without a rung, the configuration with the smallest value of all that have one is found; if there is none that has one, ValueError.
* `priorband_incumbent_best` (Pb_props.v): PriorBand's incumbent is one of those.
* `incumbent_at_rung_refuted` (Pb_props.v): with a rung, no number of steps suffices.

### C41 IFBO continues existing learning curves

Whenever ifBO proposes to continue a configuration, the predecessor it names exists.

Status: **partial**. All histories, scores and samples, in exact arithmetic. Proved for every float fidelity, and for integer fidelities with steps that are long compared to their number; refuted for integer fidelities in general (epochs 1 to 4 with the default step 1).

* `ifbo_predecessor_float_partial` (Ifbo_run_props.v): ** The predecessor exists
* `ifbo_predecessor_integer_partial` (Ifbo_run_props.v)
* `ifbo_predecessor_refuted` (Ifbo_run_props.v)

### C42 IFBO step adjustment

Adjusting the fidelity range to the step size keeps the upper bound, moves the lower bound up by less than one step, and makes the range an exact multiple of the step.

Status: **partial**. Proved in exact arithmetic for floats, and for integers with integer steps; refuted for integers with fractional steps, for defaults below the new bound (refused with ValueError), and in binary64.

* `step_adjustment_float` (Ifbo_props.v): The upper bound stays, the lower bound moves up by less than a step, and the range becomes a multiple of the step; nothing else of the space changes.
* `step_adjustment_float_possible` (Ifbo_props.v): It succeeds for every step up to the width of the range, provided that the default is not below the new lower bound.
* `step_adjustment_integer_partial` (Ifbo_props.v)
* `step_adjustment_default_refuted` (Ifbo_props.v): With a default below the new lower bound it is refused.
* `step_adjustment_integer_refuted` (Ifbo_props.v): A step that is not an integer and an integer fidelity: the lower bound is rounded.
* `step_adjustment_binary64_refuted` (Ifbo_props.v)

### C43 Decoded values respect the bounds

Every value produced from a unit-interval value by a domain lies within the domain's bounds and is an integer for integer domains, and on the bin grid for binned ones; unit values 0 and 1 map to the lower and upper bound.

Status: **partial**. Proved in exact arithmetic for all ranges with at least two values, log and exp being oracles; refuted for domains with one value and, because of rounding, in double precision.

* `decoded_values_legal` (Dom_props.v): a number of the unit interval is decoded to a legal value: within the bounds, an integer for ranges of integers, on a bin for binned ranges.
* `decoded_ends` (Dom_props.v): zero and one are decoded to the bounds.
* `decoded_monotone` (Dom_props.v): decoding keeps the order.
* `decoded_integer_share` (Dom_props.v): each of the n integers of a linear range is decoded from the k-th part of length 1/n.
* `decode_single_value_refuted` (Dom_props.v): C43, refuted for domains with one value, such as those of categoricals with one choice: every number is decoded to NaN (then cast to int64).
* `decode_bounds_binary64_refuted` (Dom_props.v): -5.0 .. -1.8, linear: 1.0 is decoded to a number above -1.8.
* `decode_log_bounds_binary64_refuted` (Dom_props.v): 1e-05 .. 0.1, logarithmic. The values of log and exp are those of the C library.

### C44 Numeric encoding round-trips

Encoding a legal value to the unit interval and decoding it returns the value, for integer and float, linear and log domains.

Status: **partial**. Proved in exact arithmetic except for logarithmic or binned ranges of integers, for which it is refuted; in double precision rounding refutes it for floats.

* `encoded_in_unit` (Dom_props.v): legal values are encoded in the unit interval.
* `encode_decode_roundtrip` (Dom_props.v): encoding and then decoding returns the value: linear ranges of integers, and all ranges of numbers.
* `encode_decode_ends` (Dom_props.v): the bounds themselves return for all ranges, logarithmic ranges of integers included.
* `decode_encode_roundtrip` (Dom_props.v): decoding and then encoding returns the unit value, for numbers without bins.
* `log_integer_roundtrip_refuted` (Dom_props.v): C44, refuted for logarithmic ranges of integers: 1..4, where 2 comes back as 3. The conditions on log and exp hold of the real ones (4^(2/3) = 2.52).
* `binned_integer_roundtrip_refuted` (Dom_props.v): C44, refuted for ranges of integers with bins: 0..3 in three bins, where 2 comes back as 3.
* `roundtrip_binary64_refuted` (Dom_props.v): 0.0 .. 10.0, where 0.9 comes back as 0.8999999999999999.

### C45 Casting between domains agrees with going through the unit interval

Casting a value from one domain to another gives the same result as normalising it in the source domain and denormalising it in the target domain, in particular it stays in the target's bounds; casting to the same domain is the identity on legal values.

Status: **partial**. Proved in exact arithmetic; refuted when the target's bounds are the logarithms of the source's bounds.

* `cast_through_unit` (Dom_props.v): a cast gives what normalising and denormalising gives, a legal value of the target. Excepted are casts between logarithmic or binned ranges of integers with the same bounds, and the case that the bounds of the target are the logarithms of those of the source.
* `cast_same_domain` (Dom_props.v): a cast to the same domain returns the value; all ranges.
* `cast_log_bounds_outside` (Dom_props.v): the logarithms of the bounds 1 .. e of the source are the bounds 0 .. 1 of the target; the cast returns the exponential of the value, outside of the target. For all increasing and mutually inverse functions with ln 1 = 0.
* `cast_log_bounds_refuted` (Dom_props.v): In particular the claim is false.
* `unit_shortcut_never_taken` (Dom_props.v): the flag that the shortcut for the unit interval asks for is never set.

### C46 Configurations round-trip through the encoder

Encoding a list of configurations to a tensor and decoding it returns the configurations (restricted to encoded parameters, plus the constants), column order depends only on the names, and each configuration is encoded independently of the others.

Status: **partial**. Round trip, shape, range of the codes, independence, column order and legality of whatever is decoded, for all parameters except logarithmic integers, the logarithmic range 1..e and the space without anything, where it is false (_refuted). Values in exact rational arithmetic with arbitrary mutually inverse increasing log and exp; the structural theorems hold in any arithmetic.

* `encode_decode_configs` (Enc_props.v): what is encoded and decoded comes back: numbers equal, a choice equal to the value of the configuration, with the constants and nothing else. [sound] excludes logarithmic ranges of integers and the logarithmic range from 1 to e.
* `encoded_in_range` (Enc_props.v): the tensor has a row per configuration and a column per parameter; a number is encoded in the unit interval, a choice as its position.
* `encode_independent` (Enc_props.v): each configuration is encoded independently of the others, in any arithmetic.
* `encode_ignores_other_keys` (Enc_props.v): only the values of the encoded parameters matter.
* `decode_independent` (Enc_props.v): each row is decoded independently of the others.
* `column_order_by_name` (Enc_props.v): the encoder, with the order of its columns, does not depend on the order in which the parameters are given; so the encoding does not either.
* `columns_alphabetical` (Enc_props.v): one column for each parameter, in alphabetical order of the names.
* `decoded_configs_legal` (Enc_props.v): any tensor in the range of the codes decodes to configurations with legal values, whatever an acquisition function came up with.
* `column_domains` (Enc_props.v): the domains that the encoder announces for its columns are those of the codes.
* `default_encoder_exists` (Enc_props.v): there is an encoder for all of these parameters, constants and transformers.
* `log_integer_configs_refuted` (Enc_props.v)
* `log_unit_configs_outside` (Enc_props.v): C46, refuted for the logarithmic range from 1 to e: e is encoded as e^e, which is not in the unit interval, and decoded as another value.
* `log_unit_configs_refuted` (Enc_props.v): In particular the claim is false.
* `empty_space_configs_refuted` (Enc_props.v): C46, refuted for a space with neither parameters nor constants: any number of (empty) configurations comes back as none.

### C47 Parameter values are always legal

Any sequence of set_value, sample, clone and mutation operations on a numeric or categorical parameter leaves its value within its bounds/choices, and a rejected assignment leaves the parameter unchanged.

Status: **partial**. Floats: in full, for every arithmetic including binary64. Integers (exact arithmetic): without loading values outside the bounds and without refused defaults, where it is false (_refuted). Categorical parameters: without refused values, where it is false (_refuted: the refused value stays and the parameter can no longer be cloned or sampled).

* `float_value_within` (Param_props.v): Whatever is done with a float parameter, also after a method has raised, its value is between its bounds. For every arithmetic, so also for binary64.
* `float_refusal_harmless` (Param_props.v): A float parameter that has refused a value, a default or a confidence is what it was.
* `float_accepts_iff` (Param_props.v): A value outside the bounds is refused and one inside them is taken.
* `integer_value_within` (Param_props.v): The value of an integer parameter is between its bounds, if nothing outside of them was loaded and no default was refused.
* `integer_set_value` (Param_props.v): An integer parameter refuses exactly the numbers outside its bounds, takes the nearest integer of the others, and is what it was after it has refused a value.
* `categorical_value_choice` (Param_props.v): The value of a categorical parameter is one of its choices, and its index is the position of the first equal choice, if no value was refused.
* `constant_keeps_value` (Param_props.v): A constant keeps its value, whatever it is asked to be.
* `float_sample_total` (Param_props.v): Sampling always succeeds and gives a legal value, whatever is drawn (NaN included).
* `float_sample_is_draw` (Param_props.v): A draw that is legal (on the scale of the parameter) is the value that is sampled.
* `integer_sample_total` (Param_props.v)
* `categorical_sample_total` (Param_props.v)
* `integer_default_refuted` (Param_props.v): Refuted: an integer parameter that has refused a default has it all the same, and can then neither be cloned nor sampled.
* `integer_load_refuted` (Param_props.v): Refuted: loading a stored value does not check it.
* `categorical_refused_refuted` (Param_props.v): Refuted: a categorical parameter that has refused a value has it all the same, keeps the index of the old one, and can then neither be cloned nor sampled.
* `categorical_sample_nan_refuted` (Param_props.v): Refuted without the condition on NaN: NaN is accepted as a choice, but drawing it raises.

### C48 Grid covers the space without repetition

The grid of a search space contains each combination of the per-parameter grid values exactly once (constants and fidelities fixed).

Status: **partial**. Proved in exact arithmetic: size, points and all combinations, and no repetitions as long as integers are linear and at least as many as the points. Refuted otherwise for integers, for the fidelity (which is gridded) and, by rounding, for the upper bound of floats.

* `grid_points` (Space_more_props.v): The grid of a space exists, has the product of the numbers of points of the parameters many entries, and each has for each parameter one of its points.
* `grid_combinations` (Space_more_props.v): Every combination of points is there.
* `grid_distinct_partial` (Space_more_props.v): And only once: any two entries differ, if there are at least as many integers as points and no integers on a log scale.
* `grid_repetitions` (Space_more_props.v): With more points than integers there are repetitions, though they are said to be removed.
* `grid_repetition_refuted` (Space_more_props.v)
* `grid_fidelity_refuted` (Space_more_props.v): The fidelity is not fixed.
* `grid_binary64_refuted` (Space_more_props.v)

### C49 Grid search visits every grid point exactly once

Over a run, grid search proposes every grid point exactly once and then refuses, whatever the seed.

Status: **partial**. Proved for a fixed shuffle (a seed); refuted without a seed, the default.

* `grid_search_each_once_partial` (Space_more_props.v): With a seed, grid search proposes every configuration of the grid exactly once and refuses after that. [shuffled] are the positions in the order the seed gives.
* `grid_search_no_seed_refuted` (Space_more_props.v): Without a seed, which is the default, the order is drawn anew each time: a configuration can be proposed twice and another one never.

### C50 Random search, grid search and Bayesian optimization never reuse an id

Each proposal's id differs from the ids of all trials proposed before in the run.

Status: **proved**. Every answer becomes a trial before the next one is asked for (the lock of C08).

* `decimal_injective` (Space_more_props.v): The decimal representations of different numbers differ.
* `random_search_ids` (Space_more_props.v): Random search never gives an identifier twice.
* `bayesian_ids` (Space_more_props.v): Nor does Bayesian optimisation, whatever the model proposes.
* `bayesian_design_first` (Space_more_props.v): The initial design is proposed first and in order.
* `grid_search_ids` (Space_more_props.v): Nor does grid search, whether it shuffles the same way each time or not.

### C51 Border sampler enumerates the corners

Asked for at least 2^d points the border sampler returns every corner of the unit hypercube exactly once; asked for fewer it returns that many distinct corners.

Status: **proved**. For any target domains, any number or shape asked for; requests for more than 2^d points as a shape are refused.

* `border_corners` (Prior_props.v): Asked for [n] points of [d] columns, the border sampler gives different corners of the ranges asked for: [n] of them, or all [2^d] if [n] is at least that.
* `border_shape` (Prior_props.v): Asked for a shape it gives the points of that shape, or refuses if there are too many.
* `corners_differ` (Prior_props.v): Different corners are different points.

### C52 Prior log-probability is the sum over the parameters

The log-probability of a configuration under a centered prior equals the sum of the log-probabilities of its parameters under their own distributions.

Status: **partial**. Proved if at most the first parameter has a prior; refuted otherwise: all but the first informed distribution are divided by the number of parameters, and a parameter without a prior before one with a prior raises IndexError.

* `log_prob_sum_partial` (Prior_props.v): The claim holds if at most the first parameter has a prior.
* `log_prob_value` (Prior_props.v): What is computed if the parameters with a prior come first: all but the first of them are divided by the number of parameters.
* `log_prob_gap_fails` (Prior_props.v): If a parameter without a prior precedes one with a prior there is no result, in any arithmetic: with the right number of columns it is an IndexError.
* `log_prob_gap_error` (Prior_props.v)
* `log_prob_index_fails` (Prior_props.v): C52 refuted: for a parameter without a default followed by one with a default there is an IndexError instead of the log-probability.
* `log_prob_index_refuted` (Prior_props.v): In particular the claim of C52 is false.
* `log_prob_weight_wrong` (Prior_props.v): C52 refuted: with two parameters the second counts half.
* `log_prob_weight_refuted` (Prior_props.v): And also where there is no error.

### C53 Categorical prior weights

The weights of a categorical parameter's prior are non-negative, sum to one, give the default the configured confidence and all others the same weight.

Status: **partial**. Proved for make_centered with a categorical domain of indices; refuted for priors built from parameters, which treat choices as ordered numbers, and for categorical domains of other integers.

* `categorical_weights` (Prior_more_props.v): Given such a domain over the indices [0 .. n-1], the centre gets the confidence and every other index the same share of the rest.
* `categorical_weights_unused` (Prior_more_props.v): C53 refuted: the domain of a categorical parameter's indices is not one that is treated as categorical, so a prior made of parameters never has these weights.
* `categorical_prior_is_normal` (Prior_props.v): C53 refuted: for a categorical parameter the prior is a normal distribution over the indices; a choice next to the default is likelier than one farther away.
* `categorical_prior_refuted` (Prior_props.v): C53 refuted: of three choices, the first being the default, the second is likelier than the third.
* `categorical_offset_refuted` (Prior_more_props.v): Refuted: for a categorical domain of other integers than the indices the index drawn is taken for a value; of the values 5, 6 and 7 only 5 can be had.

### C54 Prior columns correspond to encoder columns

When a prior is built from the same parameters as an encoder, column i of the prior describes the parameter encoded in column i.

Status: **partial**. Exact characterisation: it holds iff every numerical name precedes every categorical name.

* `columns_partial` (Prior_more_props.v): ** C54: the columns of the prior are those of the encoder
* `columns_refuted` (Prior_more_props.v): Refuted: a categorical parameter named before a numerical one; the prior's columns are in the other order than the encoder's, whose rows it is asked about.

### C55 Settings priority

When run arguments are given both in code and in YAML, an explicit code argument wins over YAML, YAML wins over the default, searcher options are merged key by key with code winning, and unknown keys are rejected.

Status: **partial**. Priority and merging proved for all arguments and files. Refuted: misspelt keys without a value, and misspelt keywords of the call, are accepted; options of a YAML searcher reach another searcher chosen in the code.

* `settings_priority` (Set_props.v): ** C55: code over YAML over defaults
* `yaml_values` (Set_props.v): What the YAML file says is the leaves of the file.
* `yaml_options` (Set_props.v)
* `yaml_names` (Set_props.v): Every argument of the run but run_args itself can be given in the file.
* `yaml_unknown_rejected` (Set_props.v): An unknown name in the YAML file is an error.
* `yaml_options_leak_refuted` (Set_props.v): Options written in the YAML file for one searcher are given to another one, chosen in the code.
* `yaml_unknown_null_refuted` (Set_props.v): A misspelt name without a value is accepted.
* `unknown_keyword_refuted` (Set_props.v): A misspelt keyword of the call is accepted as an option of the searcher; if NePS picks the searcher it has no effect.

### C56 Flattening of run arguments

Flattening a nested YAML mapping keeps every leaf exactly once under its own name and keeps the special keys whole.

Status: **partial**. Proved where each name is used once; two leaves of the same name lose a value silently.

* `flatten_leaves` (Set_props.v): ** C56: flattening
* `flatten_specials` (Set_props.v)
* `flatten_any` (Set_props.v): Names used several times: one of the values is kept, and none is invented.
* `flatten_same_name_refuted` (Set_props.v): Two groups with a leaf of the same name: the first value is lost, without an error.

### C57 Default searcher choice

Without an explicit searcher, the optimizer chosen is PriorBand for spaces with prior and fidelity, piBO for prior only, Hyperband for fidelity only, and Bayesian optimization otherwise.

Status: **proved**. For all spaces; further options of the call are ignored.

* `default_searcher` (Set_props.v): ** C57: the searcher NePS picks
* `default_searcher_runs` (Set_props.v): It runs with the settings of its file, and those of the run; further options have no effect.
* `default_searcher_known` (Set_props.v)

### C58 YAML number formats are understood

A YAML value written as number in scientific notation is converted to the number it denotes, other strings are left alone, and the parameter type deduced is integer iff both bounds are integers.

Status: **partial**. Proved for numbers in the form of the documentation, with correct rounding to binary64, in constants, choices, bounds and defaults. Refuted: plus signs, bare points and inner blanks stay texts; integers above 2^53 in scientific notation are inexact. Aside: characters outside ASCII.

* `nearest_double_unique` (Yam_props.v): The double nearest to a number (half to even) is unique, so the statements below determine it.
* `const_read_right` (Yam_props.v): Constants: a text that is a number in scientific notation (as in the documentation: digits, maybe a point with digits on both sides, maybe minus signs, blanks around it) becomes the nearest double; every other value is passed on unchanged.
* `categorical_read_right` (Yam_props.v): Categorical parameters (type given, or no type and not both bounds): every choice and the default are read like constants; a default that is one of the choices still is; all other entries reach the constructor as written.
* `float_read_right` (Yam_props.v): Float parameters (type given; or no type and both bounds floats or one of them a text in the form of the documentation): the bounds and the default become the nearest doubles, from integers, floats and texts in any scientific notation; all other entries reach the constructor as written.
* `int_read_right` (Yam_props.v): Integer parameters (type given, or no type and both bounds integers): bounds and default that say an integer of up to 2^53, in digits or in scientific notation, become exactly that integer.
* `deduced_int_iff` (Yam_props.v): Without a type, with two bounds, the parameter is an integer parameter iff both bounds are integers (truth values are integers in Python).
* `constructors_get_right_types` (Yam_props.v): Whatever the details are: integer constructors get integers, float constructors floats, categorical constructors a list of choices and a default that is a text or a number.
* `integers_not_truncated` (Yam_props.v): An integer parameter is never built from something else by truncation: the bounds and the default it gets are the integers written, or equal to the double that was written.
* `space_by_parameters` (Yam_props.v): A space is read parameter by parameter: the names and their order are kept, each parameter is what it is when it is the only one, and the space is readable iff each of them is. A space inside [pipeline_space] and the same space at the top, or in a file, are the same.
* `plus_sign_stays_text_refuted` (Yam_props.v): Numbers in scientific notation that Python reads as floats, but that stay texts: with plus signs, without digits before or after the point.
* `bare_point_stays_text_refuted` (Yam_props.v)
* `inner_blank_stays_text_refuted` (Yam_props.v): Blanks are removed before the form is checked, not before the conversion: a text with a blank inside has the form but stays a text (as a bound it is a TypeError).
* `int_bound_inexact_refuted` (Yam_props.v): Integers in scientific notation above 2^53 go through a double: 1e23 becomes 99999999999999991611392.
* `mixed_bounds_refuted` (Yam_props.v): Two numbers as bounds, but an integer and a float: no type is deduced.

### C59 Replacing a subtree of an architecture string

Removing a subtree from an architecture string and concatenating the three parts gives back the string; replacing it by another balanced subtree yields a balanced string.

Status: **partial**. Proved for all strings at all positions but the first and the last word, and for all derivable trees where a subtree begins. Refuted at the root (a blank is added), for terminals with unbalanced brackets, and that mutation at the root tries again.

* `parts_make_up_the_text` (Cfg_props.v): Any text, any position other than that of the first and the last word: the parts make up the text.
* `parts_at_root_refuted` (Cfg_props.v): At the root they do not: there is a blank too many.
* `subtree_is_removed` (Cfg_props.v): Where a subtree begins, the parts are the text before it, its own text, and the text after it (and a blank instead of nothing before the root).
* `replaced_is_balanced` (Cfg_props.v): Replaced by anything with balanced brackets, the whole stays balanced.
* `bracket_terminal_refuted` (Cfg_props.v)
* `mutation_is_derived` (Cfg_props.v): A mutated string is the string of the tree with the subtree replaced by another tree of the same symbol, which is a tree of the grammar.
* `mutation_differs` (Cfg_props.v): Elsewhere than at the root the parent comes back only if [patience] samples in a row were the old subtree.
* `mutation_at_root_refuted` (Cfg_props.v): At the root the first sample is returned even if it is the parent and the second one is not.
* `mutation_without_patience` (Cfg_props.v): With no patience there is no child at all.

### C60 Checkpoint directory lookup finds the root of the chain

For any trial continued through any number of predecessors, the initial directory returned is the one of the first trial of its chain in the current run.

Status: **partial**. Proved for processes whose runs use one directory, for all chains and histories of lookups. Refuted for several result directories in one process (the cache is keyed by the identifier alone) and for results that were moved.

* `initial_directory_found` (Chain_props.v): A process whose runs all use one directory: whatever happened before the process was started and whatever it and other workers do, the initial directory of a trial (named by its directory) is that of the first trial of its chain. In particular the search along the chain ends.
* `directory_spellings` (Chain_props.v): Spellings of a directory that make no difference: slashes and "." components.
* `initial_directory_in_progress` (Chain_props.v): The same for the trial being evaluated.
* `trial_locations` (Chain_props.v): The location of a trial is its directory in the run it belongs to.
* `initial_directory_continued_partial` (Chain_props.v): With any number of runs in the process: right for continued trials, provided no run has a first trial with the identifier of the trial asked for.
* `initial_directory_two_runs_refuted` (Chain_props.v): A second run in the same process, in another directory: for a first trial of the same identifier as one looked up before, the directory of the first run is returned.
* `moved_results_refuted` (Chain_props.v): Results that have been moved: the initial directory returned is the old place, where there is nothing; and a continued trial finds no checkpoint though there is one.

### C61 Optimizers and status see what was reported

After a successful evaluation, the loss, the cost and every other entry the user returned are exactly what an optimizer is given for that trial and what the status functions show; a failed evaluation is presented to both as an error; the status functions can always read a stored report.

Status: **partial**. Proved for optimizers; status raises TypeError exactly when info_dict is not a dictionary.

* `optimizer_is_told_what_was_reported` (Eval_props.v): what an optimizer is told about a successful evaluation is what was reported: loss, cost and every other returned entry.
* `failure_is_told_as_error` (Eval_props.v): a function that raised is presented as "error" to optimizers and to the status functions.
* `status_is_told_what_was_reported` (Eval_props.v): and the status functions are told the same loss, cost and entries; the learning curve is in info_dict unless info_dict brought its own. They raise exactly when info_dict is not a dictionary.
* `status_readable_refuted` (Eval_props.v): a successful trial whose result makes every later status call raise.

### C62 No configuration is handed out twice after a kill while sampling

If the optimizer proposes different configurations from different random states, then the configurations stored by any number of workers, some of which may be killed while they sample, are pairwise different.

Status: **partial**. Refuted: a kill between put_new and put_seed_state.

* `never_sampled_twice_refuted` (Runtime_props.v): a worker killed between storing a sampled trial and storing the random state makes the next worker sample the same configuration again, also when the optimizer never repeats itself.

### C63 The post-run summary can be created for every run

Creating the CSV summary after a run succeeds whatever the outcomes of the trials, including when no trial succeeded.

Status: **partial**. Exact: succeeds iff some trial has a loss; otherwise KeyError, raised as RuntimeError.

* `post_run_summary_partial` (Status_props.v): C63. Full statement: [post_run_csv] succeeds for every run. It succeeds exactly when some trial was evaluated successfully.
* `post_run_summary_refuted` (Status_props.v)

### C64 A multi-fidelity optimizer always gives an answer

In every state a run can get into, asking successive halving, ASHA, Hyperband or asynchronous Hyperband for the next configuration ends and returns one, for every legal fidelity range, eta and early stopping rate.

Status: **partial**. Proved with conditions; each condition shown to be needed by a refutation.

* `optimizer_answers` (Sh_props.v): on any state it can get into, an optimizer gives an answer: no KeyError, IndexError, TypeError or endless loop; provided failures have a value, and some trial has finished (or pandas keeps an all-pending column numeric).
* `asha_early_stopping_raises` (Sh_props.v): ASHA with an early stopping rate never answers at all.
* `answers_with_ignored_errors_refuted` (Sh_props.v): C64 with ignore_errors: one failure, and a synchronous optimizer raises TypeError when the rung is full.
* `answers_all_pending_refuted` (Sh_props.v): C64 when pandas keeps a column of only pending evaluations as objects: TypeError if as many workers as places ask before the first result.
* `answers_float_log_refuted` (Sh_props.v): C64 with the logarithm computed in floats, as at 243 = 3^5: asynchronous Hyperband raises KeyError when bracket 1 is drawn and bracket 0 has not produced the highest rung.

### C65 Promotions are not put off

When a rung of a bracket of a synchronous optimizer is full, all evaluations of the bracket are finished and the next rung has room, the next answer is a promotion.

Status: **partial**. Proved when all evaluations have a value; refuted for NaN, which blocks its rung for ever.

* `promotes_when_possible` (Sh_props.v): when all configurations of a bracket are sampled, a rung of it is full, all its evaluations are finished with a value, and the next rung has room, then the next answer of a synchronous optimizer is a promotion.
* `nan_blocks_rung` (Sh_props.v): an evaluation that returned NaN stops all promotions from its rung of its bracket, for ever: whatever has happened, no later answer promotes from there.
* `promotes_when_finished_refuted` (Sh_props.v): C65 for evaluations finished without a value is false.

### C66 The best learning curve and the history of a configuration

For a table of observations in which evaluations may be pending, get_best_learning_curve_id returns the lowest configuration id among those whose performance at any budget is best (smallest, or largest when maximizing), get_best_seen_performance returns a recorded performance that none beats, and extract_learning_curve(i, b) returns the performances of configuration i at budgets strictly below b in increasing order of budget, with NaN where it has none.

Status: **proved**. All tables with unique labels.

* `best_learning_curve` (Mf_props.v): The best configuration is the one with the lowest id among those that reached the best performance at any budget.
* `best_learning_curve_exists` (Mf_props.v)
* `best_performance` (Mf_props.v)
* `learning_curve_before` (Mf_props.v): The learning curve before a budget consists of the performances at lower budgets, in order, with NaN where there is none.

### C67 PriorBand's weights follow the documented schedule

Random sampling gets 1 part against eta^rung parts (geometric), against linearly 1 to eta parts from the lowest to the highest rung (linear), or against 1 part (50-50). Of the rest, the incumbent, once used, gets 1/eta of the prior's part (constant), or the prior's share halves each time eta * max_budget is spent (decay), or 1/eta of the prior's part until some rung has eta evaluations (dynamic). The incumbent is never drawn while it is not used, and with valid weights exactly one policy with positive weight is drawn.

Status: **proved**. Exact arithmetic.

* `priorband_schedule` (Pb_props.v): the schedule of the weights.
* `dynamic_shares` (Pb_proofs.v)
* `policy_drawn` (Pb_props.v): with valid weights one of the three policies is drawn, and one with a positive weight; so the incumbent is never drawn while it is not used.
* `inactive_incumbent_never_drawn` (Pb_props.v)
* `crossover_partner` (Pb_props.v): the probabilities of the partner in a crossover.

### C68 When PriorBand uses the incumbent

The incumbent is used exactly when the configurations in the table have cost at least what one full successive-halving bracket with continuation costs and some evaluation at the highest rung has finished; once it is used it stays in use.

Status: **partial**. Condition proved; refuted that it persists.

* `incumbent_activation` (Pb_props.v): the incumbent is used when what the configurations in the table have cost reaches the cost of a whole bracket and some evaluation at the highest rung has finished.
* `activation_kept_refuted` (Pb_props.v): a promotion takes the promoted configuration's cost out of the sum until it has finished.

### C69 The draw of a bracket in asynchronous Hyperband and PriorBand

For every eta >= 2 and number of rungs the probabilities are positive, sum to one, are proportional to eta^(K-s)/(K-s+1), do not grow with the bracket's number, and every random number selects an existing bracket.

Status: **proved**. Exact arithmetic.

* `bracket_draw` (Pb_props.v): the probabilities are positive, sum to one and do not grow with the bracket's number; whatever the random number, an existing bracket is drawn.

### C70 Model-based sampling takes over after the initial design

With model_based, the sampling policy is used until the initial design is complete (for a model per rung: some rung has init_size finished evaluations, the highest such rung being modelled), and afterwards the model returns a configuration.

Status: **partial**. Initial phase proved; afterwards the model always raises AttributeError or, for the joint model, ValueError when nothing has finished at the rung.

* `model_free_sampling` (Pb_props.v): before that, and without a model, the sampling policy decides.
* `active_rung_highest` (Pb_props.v): for a model per rung, the initial design is over when some rung has enough finished evaluations, and the highest such rung is taken.
* `joint_design_by_cost` (Pb_props.v): for a joint model, the initial design is over when the finished evaluations have cost as much as [n] evaluations at the highest fidelity.
* `model_sampling_raises` (Pb_props.v): once the initial design is done, sampling with a model always raises.
* `model_sampling_refuted` (Pb_props.v)

### C71 Translating tensors between domains

Translating a tensor casts each entry from the source domain of its column to the target domain of its column, keeping the shape; it is rejected exactly when the number of given domains is not the number of columns.

Status: **proved**. Any arithmetic.

* `translate_by_column` (Dom_props.v): every entry of a tensor is cast between the domains of its column.
* `translate_wrong_width` (Dom_props.v): it fails just if the number of domains is not the number of columns.

### C72 Clones of hyperparameters

Cloning a hyperparameter succeeds and gives an object with the same bounds or choices, scale, default, value and domain, which compares equal to the original; the confidence in the default is kept.

Status: **partial**. All attributes are kept except a confidence set after construction, which is lost (_refuted).

* `float_clone` (Param_props.v): The clone of a float parameter is the same in all its attributes, save that its confidence is the one the original was constructed with.
* `integer_clone` (Param_props.v)
* `categorical_clone` (Param_props.v)
* `clone_equal_iff` (Param_props.v): A clone is [==] to the original exactly if the confidence is the one given at construction.
* `clone_confidence_refuted` (Param_props.v): Refuted: a confidence set later is forgotten by clones (and so by samples, neighbours and children), which are then different from the original.

### C73 Mutation and crossover of hyperparameters

Mutating a hyperparameter gives a legal value different from the parent's; crossover gives two legal values, which for categorical parameters are the parents' values swapped; both succeed for every supported strategy.

Status: **partial**. Results are legal and different from the parent. The simple strategy always raises for numbers (_refuted).

* `float_mutation` (Param_props.v): A mutated parameter has a legal value that differs from the parent's.
* `integer_mutation` (Param_props.v)
* `categorical_mutation` (Param_props.v)
* `categorical_local_search_total` (Param_props.v): Local search always finds another choice.
* `numeric_crossover` (Param_props.v): The children of a crossover have legal values; two categorical parents swap theirs.
* `categorical_crossover` (Param_props.v)
* `numeric_simple_mutation_raises` (Param_props.v): Refuted: the "simple" mutation of a number raises, whatever is drawn.
* `numeric_simple_mutation_refuted` (Param_props.v): In particular it is false that it gives a neighbour or another value.

### C74 The prior of a hyperparameter

The prior of a number is centred at its current default, on the parameter's scale; the prior over choices has positive weights that add up to one, the default's being the confidence score times each of the others.

Status: **partial**. False for logarithmic integers after set_default (_refuted). The truncated normal density itself is not modelled.

* `float_prior_centre` (Param_props.v): The prior of a float is centred at its current default, on the scale of the parameter.
* `categorical_prior` (Param_props.v): The prior over choices: positive weights that add up to one, the default's being the confidence score (2, 4 or 6) times each of the others.
* `integer_prior_centre_refuted` (Param_props.v): Refuted for log integers: the prior stays at the default of the construction.

### C75 Normalised values of hyperparameters

The normalised value of a float parameter is in [0, 1] and decodes to the value; every number in [0, 1] decodes to a legal value; the search for neighbours ends as soon as enough draws are in [0, 1].

Status: **proved**. Exact arithmetic with arbitrary mutually inverse increasing log and exp.

* `normalized_value` (Param_props.v): The normalised value is in the unit interval and stands for the value.
* `normalized_decode` (Param_props.v): Decoding a number of the unit interval gives a legal value.
* `float_neighbours_total` (Param_props.v): The search for neighbours of a float ends as soon as enough draws are in the unit interval.

### C76 Making a search space

The parameters of a search space are in alphabetical order whatever the order in which they were given; a space is refused exactly when it has more than one fidelity; each parameter is exactly one of numerical, categorical, constant or the fidelity.

Status: **proved**. Graph parameters are not modelled.

* `space_alphabetical` (Space_props.v): The parameters of a space are in alphabetical order.
* `space_order_free` (Space_props.v): The order in which they are given does not matter.
* `space_one_fidelity` (Space_props.v): A space is refused just when it has more than one fidelity.
* `space_fidelity` (Space_props.v): The fidelity it names is the parameter that is one.
* `space_parts` (Space_props.v): Every parameter is exactly one of: numerical, categorical, constant, the fidelity.

### C77 Sampling a search space

A sampled configuration has exactly the parameters of the space, each with a legal value; when the fidelity is ignored it is left as it is; sampling succeeds whatever is drawn.  What random search proposes can be evaluated.

Status: **partial**. Exact arithmetic. Random search told to ignore the fidelity proposes it as None (_refuted).

* `sample_legal` (Space_props.v): A sample has the parameters of the space, each with a legal value; with [ignore_fidelity] the fidelity is as in the space.
* `sample_total` (Param_int_proofs.v)
* `random_search_fidelity_refuted` (Space_props.v): Random search told to ignore the fidelity proposes configurations without a fidelity.

### C78 Configurations survive serialisation

A complete configuration is serialised to its values and reading them back with the space gives the same values; missing values and unknown names raise.

Status: **proved**. Exact arithmetic.

* `serialize_round_trip` (Space_props.v): A complete configuration is serialised, with its values, and read back the same.
* `serialize_values` (Space_props.v): What is serialised are the values; a value that is missing raises.
* `from_dict_unknown_name` (Space_props.v): A dict with a name that the space does not have is refused.

### C79 Mutation and crossover of configurations

Mutating a configuration changes exactly one value, which is neither the fidelity nor a constant; the children of a crossover are legal configurations that have the values of the parents where they are not crossed.

Status: **partial**. Mutation with a given parent never succeeds (_refuted).

* `mutation_one_value` (Space_more_props.v): A mutated configuration has exactly one value that differs; it is not the fidelity and not a constant.
* `crossover_children` (Space_more_props.v): The children of a crossover are configurations of the space; what is not crossed is as in the first and the second parent.
* `mutation_with_parent_fails` (Space_more_props.v): Mutating with [parent=] never succeeds.
* `mutation_with_parent_refuted` (Space_more_props.v)

### C80 Default configuration, setting of values and defaults

The default configuration has every default and legal values elsewhere; it is refused exactly when a default is missing and must not be; setting the maximum fidelity or values from a dict changes just these values; current values can be made the defaults.

Status: **partial**. set_defaults_to_current_values leaves out categoricals (_refuted). set_hyperparameters_from_dict only for values.

* `default_configuration` (Space_props.v): It has every default; where there is none and that is allowed, a legal value.
* `default_missing` (Space_props.v): It is refused just when a default is missing and may not be.
* `max_fidelity` (Space_props.v): Setting to the maximum fidelity changes the fidelity only.
* `set_from_dict_values` (Space_props.v): A dict of legal values is taken over; the others stay.
* `set_defaults_refuted` (Space_props.v): Taking over the current values as defaults leaves out the categoricals.

### C81 Comparing configurations

Two configurations count as equal exactly when all their values do: floats whose normalised values differ by at most half of the eighth decimal, integers and choices that are the same; it is an equivalence relation.

Status: **partial**. Reflexive but not transitive (_refuted); any two float constants are equal (_refuted).

* `equality_iff` (Space_more_props.v): Configurations count as equal just when all their values are alike, fidelities aside if so asked.
* `equality_reflexive` (Space_more_props.v): A configuration is equal to itself and its clone.
* `equality_transitive_refuted` (Space_more_props.v)
* `equality_constants_refuted` (Space_more_props.v): Any two float constants count as equal.

### C82 Local mutation and crossover around an incumbent

Local mutation never changes the fidelity, constants or (unless asked to) categoricals; its result differs from the incumbent unless all attempts failed.  Custom crossover mixes the values of both parents, keeps the fidelity of the first, is not equal to the first, and never raises.

Status: **proved**. Exact arithmetic with arbitrary mutually inverse increasing log and exp.

* `local_mutation_changes` (Space_more_props.v): Local mutation gives a configuration of the space; the fidelity, the constants and, unless told to, the categoricals are as they were; some other value is not alike, or, when all attempts have failed, nothing has changed.
* `custom_crossover_mixes` (Space_more_props.v): Crossover of two configurations: values of one and the other, the fidelity of the first, not equal to the first; or a sample when all attempts have failed.
* `custom_crossover_total` (Space_more_props.v): It never raises, as long as the space can be sampled.

### C83 ifBO's learning curves have no gaps

In every run of ifBO with any number of workers, if a step of a configuration exists then so do all earlier steps of that configuration, and no step is beyond the number of steps of the range.

Status: **partial**. Proved for float fidelities and integer fidelities with long steps; refuted for integer fidelities with step 1.

* `ifbo_curves_partial` (Ifbo_run_props.v): ** Curves have no gaps
* `ifbo_curves_refuted` (Ifbo_run_props.v)

### C84 ifBO continues the last finished step

When ifBO continues a configuration, the predecessor it names is the last finished step of that configuration, the proposal has the same configuration, and its identifier is that of the next step.

Status: **partial**. Proved for float fidelities and integer fidelities with long steps; refuted otherwise.

* `ifbo_continues_partial` (Ifbo_run_props.v): A proposal that continues names the last finished step of a configuration, has the same configuration, and is its next step.
* `ifbo_predecessor_refuted` (Ifbo_run_props.v)

### C85 ifBO starts new configurations at the lowest fidelity

A proposal of ifBO that continues nothing has a configuration number above all existing ones, step zero, and the lowest fidelity of the adjusted range.

Status: **partial**. Proved unless the greatest fidelity is 1, in which case the fidelity proposed is NaN; with a greatest fidelity of at most 1 nothing is ever continued.

* `ifbo_new_float_partial` (Ifbo_run_props.v): A proposal that does not continue is a configuration with a new number, at the lowest fidelity.
* `ifbo_new_float_refuted` (Ifbo_run_props.v)
* `ifbo_fractions_never_continue` (Ifbo_run_props.v): With a greatest fidelity of at most one, nothing is ever continued.

### C86 ifBO takes steps of the step size

The fidelity of step k is the lower bound of the adjusted range plus k times the step size, and within the range.

Status: **partial**. Exact characterisation for floats: step k is point k of n equidistant points, so that increments are n/(n-1) times the step size; hence the claim is refuted.

* `ifbo_fidelities_float_partial` (Ifbo_run_props.v): Step [k] is at point [k] of [n] equidistant points from the lowest to the greatest fidelity, [n] being the number of steps in the range.
* `ifbo_increment_float` (Ifbo_run_props.v): In general they are [n / (n - 1)] times the step size.
* `ifbo_step_size_refuted` (Ifbo_run_props.v): Steps are longer than the step size.

### C87 ifBO's identifiers are new

The identifier that ifBO proposes is not that of an existing trial.

Status: **partial**. Proved while nothing is being evaluated; refuted otherwise.

* `ifbo_ids_new_partial` (Ifbo_run_props.v): ** Identifiers
* `ifbo_ids_new_refuted` (Ifbo_run_props.v): While 0_1 is being evaluated it is proposed again.

### C88 ifBO always has a proposal

As long as all reported losses are within [0, 1] and the surrogate gives numbers, ifBO proposes something.

Status: **partial**. Proved for at least two steps; with one step every request after the initial design fails.

* `ifbo_proposes_partial` (Ifbo_run_props.v): ** There is a proposal
* `ifbo_one_step_stops` (Ifbo_run_props.v): With one step in the range there is none after the initial design.
* `ifbo_proposes_refuted` (Ifbo_run_props.v)

### C89 ifBO rejects losses outside [0, 1]

After the initial design, a reported loss outside [0, 1] is rejected with an error.

Status: **partial**. Proved while nothing is being evaluated; refuted otherwise.

* `ifbo_losses_checked_partial` (Ifbo_run_props.v): ** The losses
* `ifbo_losses_checked_refuted` (Ifbo_run_props.v): While a trial is being evaluated the losses are not checked.

### C90 Crashed evaluations are not preferred by ifBO

The score that a crashed evaluation enters the surrogate with is not better than that of evaluations that finished.

Status: **partial**. Refuted for all histories: the score of a crashed evaluation is the greatest of all.

* `ifbo_crashed_scores_greatest` (Ifbo_run_props.v): The score of a crashed evaluation is the greatest of all.
* `ifbo_crashed_is_worst_refuted` (Ifbo_run_props.v)

### C91 Priors peak at the defaults

A prior built from parameters gives each parameter with a default a distribution whose most likely value is that default and that falls with the distance from it on the parameter's scale, with a spread depending on the confidence only; parameters without a default are uniform.

Status: **proved**. In exact arithmetic; erf and erfinv are arbitrary total functions. Aside: logarithmic ranges whose bounds have logarithms 0 and 1.

* `prior_exists` (Prior_props.v): a prior can be made of any parameters, declared with or without a default.
* `prior_peaks_at_default` (Prior_props.v): column [i] of the prior belongs to parameter [i]; no value of the parameter is likelier than its default, and every other one is less likely (for logarithmic ranges of integers it may be as likely). The case in which the bounds have the logarithms 0 and 1 aside.
* `prior_spread` (Prior_props.v): the distribution is centred at the default, with a deviation that depends on the confidence only.
* `prior_falls_with_distance` (Prior_props.v): the farther from the default, on the scale of the parameter, the less likely.
* `prior_draws_in_unit` (Prior_props.v): what a truncated normal distribution of a prior gives lies in the unit interval.

### C92 Samplers give legal values

Samples that the uniform, Sobol and centered samplers give for target domains are legal values of these domains and depend on the draws, whatever dtype is asked for.

Status: **partial**. Legality proved; with an integer dtype (which the weighted sampler asks for by default) Sobol and centered samples are always the lowest values.

* `uniform_legal` (Prior_more_props.v): Uniform draws become legal values, the dtype being no obstacle.
* `sobol_legal` (Prior_more_props.v)
* `centered_legal` (Prior_more_props.v)
* `sobol_integer_dtype` (Prior_more_props.v): Refuted: with an integer dtype, all that a Sobol sampler or a centred prior gives for integer ranges is the lowest values.
* `centered_integer_dtype` (Prior_more_props.v)
* `integer_dtype_refuted` (Prior_more_props.v): The dtype thus changes what is sampled, though all values asked for are integers; and it is the dtype a weighted sampler asks for if none is given.

### C93 Weighted sampler

The weighted sampler picks its samplers with probabilities proportional to the weights, and every row of the result is a row of the sampler picked for it, each used once.

Status: **proved**. Given what the samplers and torch.multinomial return.

* `weighted_probabilities` (Prior_more_props.v): The probabilities are the weights, divided by their sum.
* `weighted_rows` (Prior_more_props.v): Row [j] is of the sampler chosen for it: if it is the k-th row of that sampler, it is the k-th of those the sampler gave; nothing of the uninitialised tensor is left.
* `weighted_total` (Prior_more_props.v)
* `weighted_dtype_fits` (Prior_more_props.v): The dtype used if none is given holds all the values asked for.

### C94 The prior's weight in piBO decays

In Bayesian optimization with a prior, the weight of the prior decays with the number of evaluations to nothing: the acquisition is weighted with a power of the prior whose exponent falls, for all spaces with a prior.

Status: **partial**. The exponent falls; but for log acquisitions it is added, not multiplied, so that it never matters; spaces of constants and priors with gaps raise.

* `pibo_exponent_value` (Prior_more_props.v)
* `pibo_exponent_falls` (Prior_more_props.v): The exponent falls with every evaluation, from the size of the initial design on.
* `pibo_log_exponent_ignored` (Prior_more_props.v): The exponent should scale the prior's weight; for acquisition functions in log space it is added to the log-probability instead, so that it never changes which of two points is preferred.
* `pibo_log_exponent_refuted` (Prior_more_props.v): With the exponent as a factor (log of p^x is x times log p) two points change places.
* `pibo_no_columns_refuted` (Prior_more_props.v): Refuted: for a space of constants only there is no exponent.
* `pibo_gap_fails` (Prior_more_props.v): Refuted: whenever the exponent counts, the acquisition cannot be computed if a parameter without a prior precedes one with a prior.

### C95 Directories of tasks and development stages

Runs with different task or development stage identifiers write to different directories below the root directory.

Status: **partial**. Proved for identifiers without a slash, up to their text; refuted with slashes.

* `run_directories_distinct` (Set_props.v): ** C95: directories
* `run_directory_below` (Set_props.v): The run stays below the root.
* `run_directories_refuted` (Set_props.v): With a slash in an identifier two runs may share a directory.
* `run_directory_escapes_refuted` (Set_props.v): An identifier can also lead out of the directory of its task: ".." is kept.

### C96 Options reach the searcher

A searcher that was asked for gets the options of the call, else those of its configuration, else those of its default file; and the budget and error values of the run. An optimizer of the user is used unchanged.

Status: **partial**. Proved for named searchers, files and dictionaries, up to Python equality. Refuted: classes of the user do not get the budget; searcher=None, tuples as options, dictionaries with the old key 'algorithm', and some names of NePS searchers are errors.

* `chosen_searcher_arguments` (Set_props.v): ** C96: the arguments of a searcher that was chosen
* `named_searchers_run` (Set_props.v): The searchers of NePS can be asked for by the names of their files.
* `own_optimizer` (Set_props.v): An optimizer of the user is used as it is; a class of the user is called with the options.
* `own_class` (Set_props.v)
* `searcher_none_refuted` (Set_props.v): [searcher=None] is documented by the code as the choice of NePS, but ends in an error.
* `own_class_budget_refuted` (Set_props.v): The cost limit of the run does not reach an optimizer class of the user.
* `searcher_algorithm_refuted` (Set_props.v): A dictionary with the old key alone, and options that are tuples or objects, are errors.
* `searcher_tuple_option_refuted` (Set_props.v)
* `searcher_by_name_refuted` (Set_props.v): Some searchers of NePS cannot be asked for by name.

### C97 ConfigSpace spaces and mixed pipeline spaces

Parameters given as a ConfigSpace are treated like those of NePS: the searcher is chosen by what the user stated, and no parameter gets lost.

Status: **partial**. Refuted: every ConfigSpace parameter counts as having a prior, so the default searcher is piBO; parameters of the same name replace each other silently.

* `configspace_prior` (Set_props.v): Parameters of ConfigSpace always have a default: priors that nobody stated.
* `pipeline_space_name_refuted` (Set_props.v): Nothing of a pipeline space gets lost: false when parameters share a name.

### C98 Settings of a run are complete and typed

A run starts only with a pipeline to evaluate, a root directory, a space or an optimizer, and a limit; YAML settings have the types of the arguments they set.

Status: **partial**. Proved; but YAML refuses whole numbers for error values that code accepts, and a limit of 0 evaluations counts as missing.

* `settings_essential` (Set_props.v): The necessary arguments are there.
* `yaml_typed` (Set_props.v): The settings of a YAML file that is accepted have their types, and well-typed settings are accepted.
* `yaml_typed_accepted` (Set_props.v)
* `yaml_integer_loss_refuted` (Set_props.v): A whole number as the loss of a failed configuration is accepted from the code, but not from the YAML file.
* `zero_evaluations_refuted` (Set_props.v): A limit of zero evaluations counts as no limit.

### C99 Reading the same search space dictionary again

Reading a search space from a dictionary changes the dictionary, but reading the changed dictionary again gives the same space; after a failed reading the dictionary still means what it said.

Status: **partial**. Proved after a success; refuted after an error (a misspelt type is forgotten).

* `same_space_again` (Yam_props.v): Reading changes the dictionary it is given (types are taken out, numbers converted), but after a success the changed dictionary gives the same space, and does not change any more.
* `retry_after_error_refuted` (Yam_props.v): After an error this is not so: a misspelled type is an error the first time; the second time the type is gone, and the parameter is read as something else.

### C100 Problems of a search space are reported as such

Whatever is wrong in a search space given as a file or dictionary, the user gets a SearchSpaceFromYamlFileError.

Status: **partial**. The three errors that are not wrapped are exactly characterised; each occurs.

* `errors_are_space_errors_partial` (Yam_props.v): Whatever is wrong with a space, the user sees a SearchSpaceFromYamlFileError, but for three other errors: OverflowError, AssertionError, AttributeError (the last only if [pipeline_space] is not a dictionary).
* `infinite_int_bound_refuted` (Yam_props.v): The three do occur.
* `huge_constant_refuted` (Yam_props.v)
* `type_not_text_refuted` (Yam_props.v)
* `empty_space_refuted` (Yam_props.v)

### C101 Sampling architectures from a grammar

Every string sampled from a grammar stands for a tree that the grammar derives from the start symbol; every derivable tree can be sampled; a grammar in which a name is both a terminal and a nonterminal, or in which a nonterminal has no production, is rejected when it is created.

Status: **partial**. Samples are derivable. Refuted: the cache makes siblings with the same symbol identical; the checks of the constructor never fail.

* `sampled_is_derived` (Cfg_props.v): Every sampled string is the string of a tree of the grammar, in which subtrees of one node with the same symbol are the same.
* `all_trees_sampled_refuted` (Cfg_props.v)
* `constructor_accepts_all` (Cfg_props.v): The checks of the constructor never fail...
* `name_clash_noticed_refuted` (Cfg_props.v): ... although a symbol may be both terminal and nonterminal, ...
* `missing_production_noticed_refuted` (Cfg_props.v): ... and a nonterminal may lack productions, which is noticed when it is sampled.

### C102 The probability of an architecture under a prior

For every tree of a grammar, compute_prior returns the product of the probabilities of the productions the tree uses, or with log=True (the default) the sum of their logarithms.

Status: **partial**. Proved for log=False and grammars in which no right side is the beginning of another. Refuted: log=True always raises KeyError; other grammars give errors or the wrong probability.

* `prior_is_product` (Cfg_props.v): The probability of a tree is the product of those of the productions it uses, if no right side is the beginning of another one and symbols are without blanks and brackets.
* `log_prior_fails` (Cfg_props.v): With logarithms, which is the default, it always fails: the prior has strings as keys (the setter asks for them), and nonterminals are looked up.
* `log_prior_refuted` (Cfg_props.v)
* `prior_of_longer_refuted` (Cfg_props.v)
* `prior_of_shorter_refuted` (Cfg_props.v): ... or the probability of the other production.

### C103 Mutation and crossover of architectures

Mutating an architecture gives a different tree of the grammar; crossing two of them over exchanges subtrees with the same symbol and gives trees of the grammar; every subtree whose symbol has several productions can be chosen; an architecture that has such a subtree can always be mutated.

Status: **partial**. Children are derivable trees. Refuted: the first subtree is never chosen, one alone gives ValueError, the default strategy may raise an error, a donor's root is not used, terminals may be mistaken for subtrees.

* `considered_positions` (Cfg_props.v): The positions that are considered are those of subtrees whose symbol has several productions.
* `letter_and_nonterminal_refuted` (Cfg_props.v)
* `choosable_subtrees` (Cfg_props.v): rand_subtree can choose each such subtree but the first one.
* `first_subtree_refuted` (Cfg_props.v)
* `single_subtree_refuted` (Cfg_props.v)
* `mutated_child` (Cfg_props.v): A mutated architecture is a different tree of the grammar with the same start symbol.
* `default_mutation_refuted` (Cfg_props.v): "bananas", the default, goes through the subtrees and may leave all of them alone: then the parent is found to be the same as the child, and there is an error.
* `bananas_child` (Cfg_props.v): It never divides by zero, unless there is nothing to choose in the parent.
* `crossover_children` (Space_more_props.v): The children of a crossover are configurations of the space; what is not crossed is as in the first and the second parent.
* `donor_root_refuted` (Cfg_props.v): A donor that has the symbol only at its root counts as not having it.

### C104 A continued trial loads its predecessor's checkpoint

load_checkpoint in a trial that continues another returns exactly what that other trial last saved under the name (the user's values and the states of model and optimizer) and nothing if nothing was saved; different names do not interfere; Lightning checkpoints are found as documented.

Status: **partial**. Proved for names with the same base name. Refuted: names that differ only after the last point share a file; a value named model_state_dict replaces the model's state; the documentation of load_lightning_checkpoint.

* `previous_location` (Chain_props.v): The place of the previous trial that a trial records is the location of the trial it continues.
* `checkpoint_continued` (Chain_props.v): What a trial saved last under a name is what a trial that continues it loads under that name: all values of the user, and the states of model and optimizer unless a value has their key; and these are put into model and optimizer.
* `checkpoint_absent` (Chain_props.v): Nothing is loaded if nothing was saved there, or there is no previous trial.
* `checkpoint_first` (Chain_props.v)
* `lightning_checkpoint` (Chain_props.v): Checkpoints of Lightning: the only file [*.ckpt] of the directory; FileNotFoundError if there is none, ValueError if there are several.
* `lightning_first` (Chain_props.v)
* `checkpoint_names_refuted` (Chain_props.v): Different names of checkpoints may share a file: after saving "epoch.1" and "epoch.2", loading "epoch.1" gives what was saved as "epoch.2".
* `model_state_replaced_refuted` (Chain_props.v): A value of the user named "model_state_dict" silently replaces the model's state.
* `lightning_documented_refuted` (Chain_props.v): The documentation of load_lightning_checkpoint promises (None, None) if there are no checkpoint files, and the latest of several: both raise.

### C105 An evaluation does not affect later runs of the process

However an evaluation ends, later evaluations in the same process, of this or another run, can begin and reach the user's function.

Status: **partial**. Proved for evaluations that end in a report; refuted for all others: no later evaluation in the process can begin.

* `evaluation_ends_clean` (Chain_props.v): An evaluation that ends in a report leaves the process ready for the next one, in the same or any other run.
* `escaped_evaluation_blocks` (Chain_props.v): After an evaluation that did not end in a report (an unreadable result, a failing callback, an interrupt), no evaluation of any run can begin in the process.
* `interrupted_evaluation_blocks` (Chain_props.v)
* `nested_run_fails` (Chain_props.v): A run inside an evaluation cannot evaluate anything.
* `later_run_refuted` (Chain_props.v): A later run in a process is not independent of earlier ones: the same run works in a new process and fails, before calling the function, after an unreadable result.

### C106 results shows the incumbents

`neps results` lists exactly the trials whose loss is smaller than that of every trial before them, newest first, with identifier, loss and configuration; with --plot it plots each at its position among all trials. The listing does not depend on the order in which the file system lists the trials, and trials whose evaluation failed do not disturb it.

Status: **partial**. Proved for trials numbered by decimal integers whose reports all have a loss. Refuted: TypeError as soon as one evaluation failed without loss_value_on_error (exactly then); identifiers config_rung are read as integers without the underscore, so that two trials may have the same number and later trials may count as earlier.

* `results_are_incumbents` (Cli_props.v): The table: the trials that were better than all before them (in the order of their numbers), newest first.
* `results_plotted` (Cli_props.v): The plot: at every incumbent's rank among all trials, its loss.
* `results_any_order` (Cli_props.v): The order in which the trials are listed makes no difference.
* `results_fail` (Cli_props.v): The command fails exactly when some report has no loss.
* `results_crashed_refuted` (Cli_props.v): An evaluation that failed, without a loss for errors, makes the command fail.
* `results_same_number_refuted` (Cli_props.v): Identifiers of algorithms with several fidelities, [config_rung]: [int] ignores the underscore. Two trials may have the same number: then the order of listing decides.
* `results_later_refuted` (Cli_props.v): A trial that was sampled later, and is worse, is shown as an incumbent.

### C107 neps run is neps.run

`neps run` with some options does what neps.run with the corresponding arguments does, options that are absent having neps.run's defaults. Each item key=value of --searcher-kwargs gives the searcher the argument key: true/false in any case as booleans, decimal integers, decimal numbers with point or exponent rounded to the nearest float, everything else as text; the last item for a key counts, an item without = is a ValueError. No item changes another option.

Status: **partial**. Proved for all options and items that do not name a parameter of neps.run. Refuted: such items silently replace the option (root_directory=...); inf, nan and None stay texts.

* `kwargs_values` (Cli_props.v): --searcher-kwargs: what the items mean.
* `kwargs_pairs` (Cli_props.v)
* `kwargs_errors` (Cli_props.v)
* `kwargs_text` (Cli_props.v)
* `command_is_call` (Cli_props.v): The command is the call of neps.run with the options that are there; the others have the defaults of neps.run.
* `kwargs_inf_refuted` (Cli_props.v): Values that have no spelling: [inf], [nan] and [None] stay texts.
* `kwargs_none_refuted` (Cli_props.v)
* `kwargs_replace_refuted` (Cli_props.v): A searcher argument with the name of a parameter of neps.run replaces the option.

### C108 info-config shows any trial

`neps info-config id` shows identifier, state, configuration, metadata and report of the trial with that identifier, whatever its state, and says so if there is no such trial.

Status: **partial**. Proved for every evaluated trial. Refuted: pending and running trials give TypeError.

* `info_of_evaluated` (Cli_props.v): A trial that was evaluated is shown with its data.
* `info_of_unknown` (Cli_props.v): An identifier that no trial has.
* `info_of_unfinished` (Cli_props.v): A trial without duration, or start or end time, is shown only in part: then the command fails.
* `info_of_waiting_refuted` (Cli_props.v)

### C109 status is right

`neps status` shows the numbers of succeeded, failed, active and pending trials, the smallest loss and a trial with it, and lists the seven trials sampled last, newest first - or, with a filter, all trials in that state - with identifier, worker, state, loss and times.

Status: **partial**. All but the numbers of pending trials, which are always 0.

* `status_shown_right` (Cli_props.v): ** C109: status
* `status_pending_refuted` (Cli_props.v): Both numbers of pending trials are 0, whatever is pending.

### C110 Commands look where the run writes, and only look

Commands that show something look at the directory given, or at that of the run that run_config.yaml describes, or else raise ValueError; they leave files and directories as they are, apart from the plot. `neps init` does not overwrite an existing file.

Status: **partial**. Proved for directories made by runs, and all files but cli.md. Refuted: every command overwrites cli.md in the current directory; showing makes five directories in any other directory; an empty run_config.yaml gives AttributeError; task_id and development_stage_id in it are ignored.

* `root_directory_chosen` (Cli_props.v): ** C110: the directory, and what commands leave alone
* `root_directory_missing` (Cli_props.v): Without a directory and without one in the file there is a ValueError.
* `commands_only_read` (Cli_props.v): In directories that runs have made, commands change nothing but cli.md and the picture of the plot.
* `init_keeps_files` (Cli_props.v): init: a file that is there is kept, cli.md excepted; otherwise it is written.
* `empty_config_refuted` (Cli_props.v): An empty run_config.yaml is not a missing directory.
* `task_directory_refuted` (Cli_props.v): task_id in run_config.yaml: the results are in a directory below, which is not looked at.
* `showing_makes_directories_refuted` (Cli_props.v): In any other directory, a command that shows something makes directories.
* `cli_md_refuted` (Cli_props.v): Every command overwrites cli.md, even the printing of the help.

### C111 tblogger.log writes exactly what was asked for, to the directory of the first trial of the chain

Calling tblogger.log during an evaluation appends exactly the records asked for (the loss as a scalar, the hyperparameters with the loss, extra scalars, images at every n-th epoch), with the configuration of the trial being evaluated and the epoch given, to 'tbevents' in the directory of the first trial of the chain the trial continues; it raises nothing, except FileNotFoundError when a continued trial's first trial has no such directory; it changes no trial, checkpoint or state of the run; all records of one trial's loss have one tag.

Status: **partial**. Proved for every history of a process whose runs use one directory: directory, records, and the exact condition of the FileNotFoundError. Refuted: the tag of the loss changes between the first call of an evaluation and the later ones; a continued trial whose first trial did not log cannot log. Contents of images and torch's own checks are not modelled.

* `log_in_evaluation` (Tb_props.v): A call during an evaluation, whatever this process and others did before: it goes to "tbevents" in the directory of the first trial of the chain; the records are those asked for, with the configuration of the trial, and nothing else; it fails exactly if something is to be written for a continued trial whose first trial has no such directory.
* `first_call_tags` (Tb_props.v): The tags of the first call of an evaluation that writes something: below the name of the directory of the first trial.
* `later_call_tags` (Tb_props.v): Those of the calls that follow in the same evaluation: below the identifier of the trial itself.
* `log_leaves_run_alone` (Tb_props.v): No call changes trials, checkpoints, or what the process is evaluating, whatever it raises.
* `disabled_call` (Tb_props.v): While the logger is disabled a call does nothing at all: whatever happened in this process before.
* `one_curve_per_trial_refuted` (Tb_props.v): One evaluation, two calls: the losses are written under two different tags, so that there are two curves instead of one.
* `logging_never_fails_refuted` (Tb_props.v): A run that uses the logger only from some moment on (or whose first trial failed before the first call): a call in a continued trial raises FileNotFoundError, in the user's function.

### C112 tblogger's incumbent trajectory shows the best loss so far

With write_summary_incumbent the end of an evaluation appends one record to 'summary' in the run's directory: the number of trials reported and the smallest loss among them, the trial that just ended included; without it, or with the logger disabled, nothing is appended.

Status: **partial**. Proved: each record is the summary of the reports stored when the evaluation ends, and is made exactly if the last call asked for it. Refuted: the trial that ends is not included; a disabled logger still writes it; a second run writes into the first run's summary.

* `incumbent_records` (Tb_props.v): The record of the incumbent, at the end of an evaluation: made if and only if the last call asked for it; the number of reported trials and the smallest loss among them, as stored when the evaluation ends, in the directory "summary" of the run.
* `incumbent_includes_trial_refuted` (Tb_props.v): The trial that ends is not counted, since its report is stored after the record is made: with one evaluation, whose loss is 3, the only record has no trial and the loss inf.
* `disabled_writes_nothing_refuted` (Tb_props.v): A disabled logger still makes the record, at the end of a trial that makes no call.
* `incumbent_second_run_refuted` (Tb_props.v): A second run of the process, in another directory: its incumbent goes to the summary of the first.

### C113 Grids of images show every image once, without overlap

The grid tblogger builds from a batch of images contains each image in full size at its own place: all places lie within the grid and no two overlap.

Status: **partial**. Proved for at least one image. Refuted for none: an error is raised.

* `image_grid` (Tb_props.v): Grids of at least one image: all images are in the grid, in full size, and no two overlap.
* `empty_grid_refuted` (Tb_props.v): No image at all: an error instead of an empty grid.

### C114 The initial design of Bayesian optimization is what was asked for, and is gone through once

make_initial_design returns the default configuration first if asked for, then the requested number of different sampled configurations, spread over the space as the sampler drew them, all at the requested fidelities; during the initial design the optimizer hands out each of them once, by whatever process is asked.

Status: **partial**. Proved: exact contents for all draws, and that every process goes through its own design. Refuted: the rows chosen are the least in the first column; fewer or more configurations than asked for; several processes (or a continued run) have different designs, so that configurations repeat.

* `initial_design_made` (Bo_props.v): The initial design is made unless the fidelities or the number asked for cannot be met.
* `initial_design_contents` (Bo_props.v): What it consists of: the default configuration if asked for, then the least of the rows drawn, as many as asked for, each once, decoded; everywhere the wanted fidelities, all other values unchanged.
* `least_rows_determined` (Bo_props.v): The rows are determined by that, and so is their number.
* `least_rows_number` (Bo_props.v)
* `initial_design_low` (Bo_props.v): The design is not spread over the space: for every number, from twice as many different rows, half of which have a large first value, all that are chosen have a small one.
* `initial_answers` (Bo_props.v): The answers during the initial design, in any run of any processes: every process goes through one design, which it made of the rows it drew when it was asked first, by the number of trials.
* `initial_design_spread_refuted` (Bo_props.v)
* `initial_design_number_refuted` (Bo_props.v): Not as many configurations as asked for: fewer, though there are more different rows, because a row was drawn several times; or more, because the default configuration comes on top.
* `initial_answers_differ_refuted` (Bo_props.v): Several processes (or a run that is continued) do not go through one design together: although no design has a configuration twice, the second trial gets the configuration of the first.

### C115 The surrogate is trained on the evaluated trials, with the median for missing losses

encode_trials_for_gp gives for every trial with a report its encoded configuration, its loss (the median of the known losses if it has none) and its cost, in the same order; all targets are finite; exactly the trials without report are pending.

Status: **partial**. Proved for all trials, with the exact condition for finite targets. Refuted: without any known loss all targets are NaN.

* `gp_data` (Bo_props.v): The data for the model, for any trials: one row, one target and one cost for each trial with a report, in the same order; the other trials are pending.
* `target_determined` (Bo_props.v)
* `gp_targets` (Bo_props.v): The targets are all finite exactly if there are enough losses; otherwise, for instance when all evaluations have crashed, there is no target for any of them.
* `gp_targets_nan` (Bo_props.v)
* `gp_targets_refuted` (Bo_props.v)

### C116 Bayesian optimization always proposes a configuration

BayesianOptimization.ask returns a new configuration in every state of a run that is within its budget: whatever evaluations crashed, are still running or lack a cost, and also after the run was continued with a greater budget.

Status: **partial**. Proved: the exact condition for an answer. Refuted: no answer if all evaluations crashed, if none has been reported yet, with more than 30 combinations of categories, with costs after one report without cost, and after continuing with a greater max_cost_total. Numerical failures inside botorch are not modelled.

* `ask_answers` (Ifbo_run_proofs.v)
* `design_there` (Bo_props.v): A design is there unless an initial size below 1 was given (which is noticed only here).
* `ask_proposes` (Bo_props.v): What the answer is after the initial design: the number of the trial, and the point that was found with the data of these trials.
* `budget_while_going_on` (Bo_props.v): A worker that goes on with the limit for which the budget was stored has not used it up.
* `all_crashed` (Bo_props.v): All the evaluations of the initial design crashed (and errors are ignored): no further configuration is ever proposed, however many crashed.
* `none_reported` (Bo_props.v): More workers than configurations in the initial design: a worker that asks while all of them are being evaluated gets an exception.
* `many_categories` (Bo_props.v): More than 30 combinations of categories: the initial design is evaluated, then every question fails.
* `missing_cost` (Bo_props.v): With costs: one report without a cost (a crash without cost_value_on_error) and no question is ever answered again, whatever else is reported; likewise without max_cost_total.
* `all_crashed_refuted` (Bo_props.v)
* `none_reported_refuted` (Bo_props.v)
* `many_categories_refuted` (Bo_props.v)
* `missing_cost_refuted` (Bo_props.v)
* `continued_budget_refuted` (Bo_props.v)

### C117 The acquisition function is optimized for every combination of categories

optimize_acq lets botorch optimize over every possible combination of categories exactly once, with at least one restart each.

Status: **partial**. Every combination once, proved for all allowed numbers. Refuted: 0 restarts for 21 to 30 combinations.

* `every_category` (Bo_props.v): With categories: the acquisition function is optimized once for every possible choice of categories, each exactly once; with at least one restart exactly if there are at most 20.
* `categories_allowed` (Bo_props.v)
* `no_restart_refuted` (Bo_props.v): Between 21 and 30 combinations are allowed, and then botorch is called with no restart at all.

### C118 Losses and costs of results are read as documented

BaseOptimizer.get_loss and get_cost return the loss and the cost of a result or report, and treat errors as configured.

Status: **partial**. Proved for results and for losses of reports. Refuted: the cost of a report is its loss.

* `loss_and_cost` (Bo_props.v): Losses and costs of results: a number is its own; of a dictionary the entry; for an error "error" if errors are ignored, otherwise the value for errors, or an exception if there is none.
* `cost_of_report` (Bo_props.v): The cost of a report is its loss.
* `cost_of_report_refuted` (Bo_props.v)

### C119 The plot of a run shows the best loss after every evaluation

plot draws for a run one curve that over 1, 2, 3, ... shows the least loss among that many evaluations, in the order in which they were made.

Status: **partial**. Proved for all runs with numbered trials. Refuted with fidelities: identifiers 0_0, 1_0, 0_1 are drawn in the order 0_0, 0_1, 1_0, which shows losses before they were reached.

* `default_plot` (Plot_props.v): Plot of a run whose trials are numbered, at least one evaluated, all with a loss: one curve, which over 1, 2, 3, ... shows the least loss among that many evaluations in the order of their numbers.
* `order_refuted` (Plot_props.v): With fidelities (identifiers "0_0", "0_1", ...) the order is not that of the evaluations: the curve shows after two evaluations what was only reached by the third.

### C120 Every run with an evaluated configuration can be plotted

plot saves a figure for every run in which at least one configuration was evaluated successfully.

Status: **partial**. Proved: the exact condition. Refuted: one failed evaluation makes plotting raise a TypeError.

* `plot_made` (Plot_props.v): A plot is made exactly if there is an evaluation and none failed.
* `failed_evaluation` (Plot_props.v): Every run with a failed evaluation: TypeError.
* `nothing_evaluated` (Plot_props.v): Before the first report: ValueError.
* `failed_evaluation_refuted` (Plot_props.v)

### C121 The horizontal axis shows the cost asked for

With key_to_extract the cost of an evaluation is that entry of its info_dict; with consider_continuations the cost of a continued trial is reduced by that of the trial it continues, and with several workers evaluations are shown at the time at which they ended since the start of the run.

Status: **partial**. Proved: entries of info_dict, and the exact times for several workers. Refuted: continuations never reduce a cost (the key looked up is never written); times since the start are summed up as if they were durations; the start is that of the least identifier as a text.

* `key_axis` (Plot_props.v): With a key (not "fidelity"): the costs are the entries of info_dict.
* `fidelity_axis` (Plot_props.v): With the key "fidelity" also the greatest of them is returned, by which the positions are divided.
* `continuations_ignored` (Plot_props.v): Asking for the costs of continuations changes nothing, whatever the run.
* `parallel_times` (Plot_props.v): With several workers: the costs are the times from the sampling of the trial with the least identifier as a text until the evaluations ended.
* `continuation_cost_refuted` (Plot_props.v): So the cost of a continued trial is not reduced by that of the trial that it continues.
* `parallel_axis_refuted` (Plot_props.v): But the curve's positions are sums of these times: the second evaluation, which ended 20 after the start, is drawn at 30.
* `start_refuted` (Plot_props.v): And the start is not the first sampling: with trial 1 not evaluated yet, trial 10 comes before trial 2, and costs get negative.

### C122 Curves of several seeds show the incumbents of their own times

For several seeds with any costs, each seed's curve has at every position of any seed the incumbent that this seed had then, within the x_range asked for.

Status: **partial**. Proved: seeds with equal costs are drawn exactly, and for others every height is that of the seed's next point. Refuted: so incumbents are shown before they were found, also at the left end of x_range; seeds with different numbers of evaluations raise a ValueError. The mean and its error are not modelled.

* `same_costs` (Plot_props.v): Seeds with the same costs: every seed's curve goes through its own points, and stays at its last value.
* `shown_heights` (Plot_props.v): In general every seed's curve has a point at every position of any seed, whose height is that of the seed's first point at this position or later (the last one after all of them).
* `drawn_values` (Plot_props.v): Whatever x_range is, only values of the seed are drawn.
* `different_numbers` (Plot_props.v): Seeds with different numbers of evaluations cannot be drawn.
* `shown_early_refuted` (Plot_props.v): Hence an incumbent is shown before it was found.
* `range_early_refuted` (Plot_props.v): The same happens for a single seed at the left end of x_range.
* `different_numbers_refuted` (Plot_props.v)

### C123 The figure of several benchmarks has each in its own labelled axes

plot draws every benchmark and algorithm, each benchmark into axes of its own with its title; the lowest axes of every column have an x label, the leftmost of every row a y label.

Status: **partial**. Proved for all numbers of benchmarks up to 10. Refuted: more than 10 benchmarks raise a KeyError for the legend; an odd number leaves the right column without x label.

* `figure` (Plot_props.v): If all curves can be made (and, in scientific mode, there are at most 10 benchmarks), all of them are in the figure: those of a benchmark under its title in its own axes, with the algorithm as label.
* `own_axes` (Plot_props.v): The axes exist, and no two benchmarks have the same.
* `labels` (Plot_props.v): Labels: at the bottom row and at the left column.
* `many_benchmarks` (Plot_props.v): More than 10 benchmarks: no figure.
* `label_missing_refuted` (Plot_props.v): For an odd number of benchmarks the right column ends one row earlier, without a label.
* `many_benchmarks_refuted` (Plot_props.v)

### C124 Plotter3D reads configurations and epochs from the identifiers

Plotter3D takes from the identifiers of a stored run the number of the configuration and the epoch, counted from 1, for every run that was summarised.

Status: **partial**. Proved for identifiers of configurations and epochs. Refuted: runs whose identifiers are numbers raise an AttributeError.

* `epochs_read` (Plot_props.v): Identifiers of configurations and epochs are read back; epochs count from 1 if one of them is 0.
* `numbers_not_read` (Plot_props.v): A run with numbers as identifiers (of any optimizer without fidelities) cannot be drawn.
* `numbers_not_read_refuted` (Plot_props.v)

### C125 The user's function is called with the configuration and the directories it names

If the names in the configuration and the directories named by the function fit its signature, the function is called once, every parameter gets the configuration's value, the trial's directory, or its default, and everything else goes to **kwargs; the two directories are given exactly to functions that name them. If they do not fit, the function is not run and the trial is reported as crashed.

Status: **partial**. Proved for every signature. Refuted: a hyperparameter named like a directory that the function names makes every evaluation crash; a function of **kwargs is not given the directories.

* `arguments_given` (Call_props.v): A function that can be called is called: every parameter gets the configuration's value or the directory of this name, or its default; the rest of the configuration is in [**kwargs].
* `directories_given` (Call_props.v): A function that names a directory gets the one of the trial.
* `wrong_signature_crashes` (Call_props.v): Otherwise nothing of the function is run, and the evaluation is reported as crashed.
* `directory_names_clash` (Call_props.v): A hyperparameter with the name of a directory that the function names as well: always crashed.
* `directory_names_clash_refuted` (Call_props.v)
* `kwargs_directory_refuted` (Call_props.v): A function of [**kwargs] could take a directory, but is not given it.

### C126 Environment variables set the polling interval and time limit of every lock

On import every one of the ten settings is what its own environment variable says, or its default if that is not set; a value that cannot be read is an error on import; a variable never changes another setting.

Status: **partial**. Proved for every environment; float of a text is an oracle. Refuted: none is no polling interval.

* `settings_loaded` (Lock_props.v): Every setting is what its own variable says, or the default if it is not set.
* `malformed_setting` (Lock_props.v): If one of them cannot be read, the package cannot be imported.
* `poll_none_refuted` (Lock_props.v): "none" is a setting of the time limits only.

### C127 Waiting for a lock respects the time limit

A lock is only taken when nobody else holds it; waiting is given up not before the time limit, ends for every finite limit, and never with an infinite one; a lock that gets free for good within the limit is taken at most one interval later; a limit of none means no limit; is_locked tells whether the lock is held.

Status: **partial**. Proved for every schedule, for portalocker's loop. Refuted: the limit none is portalocker's 5 seconds, and NaN, which can be set, a single attempt.

* `acquired_when_free` (Lock_props.v): A lock is only taken when it is free.
* `not_given_up_early` (Lock_props.v): It is given up after the time limit at the earliest.
* `taken_in_time` (Lock_props.v): It is taken at most one interval (and delay) after it got free for good, if this is within the limit.
* `waiting_ends` (Lock_props.v): With a finite limit the waiting ends; with an infinite one it is never given up.
* `never_given_up` (Lock_props.v)
* `no_limit_refuted` (Lock_props.v): The limit "none" is 5 seconds: a lock that gets free later is given up.
* `nan_limit` (Lock_props.v): The limit NaN, which can be set, is none at all: one attempt.
* `nan_limit_refuted` (Lock_props.v)
* `is_locked_true` (Lock_props.v): is_locked tells whether somebody holds the lock now, without waiting.

### C128 Workers taking turns draw the random numbers one process would draw

Setting a snapshot of the random number generators restores each of them; so workers that ask the optimizer in turn through the shared directory together draw exactly what a single process would draw, whatever each drew before.

Status: **partial**. Proved for machines with the same equipment, and for machines without CUDA. Refuted: a worker with fewer CUDA devices always raises an IndexError; one with more keeps states of its own.

* `capture_restore` (Rng_props.v): A snapshot set on a machine with the same equipment puts every generator where it was.
* `turns_as_one` (Rng_props.v): Workers on machines with the same equipment, whatever each of them drew before, are asked in turn through the shared directory: together they draw exactly what one process would draw.
* `without_cuda` (Rng_props.v): A machine without CUDA takes over the other generators.
* `more_devices` (Rng_props.v): A snapshot of more devices than the worker has cannot be set: no configuration is ever asked for, whatever the optimizer, and the directory stays as it is.
* `more_devices_refuted` (Rng_props.v): A worker with fewer devices joins a run and dies on its first question.
* `fewer_devices_refuted` (Rng_props.v): A worker with more devices keeps the state of its own: what is drawn depends on which worker asks.

### C129 Stored snapshots of the random number generators are read as written, and compared exactly

A snapshot that is written is read again unchanged, whatever the directory held before; two snapshots are equal exactly when all their states are.

Status: **partial**. Proved without older files of torch and for equal numbers of devices. Refuted: an older state of CUDA stays and is read; snapshots of different numbers of devices are equal.

* `seed_written_read` (Rng_props.v): What is written is read again, if no older file of torch is in the directory.
* `seed_kept` (Rng_props.v): In general a missing part of torch is filled in from the older file.
* `seed_stale_refuted` (Rng_props.v): So a snapshot need not come back as it was written: an older state of CUDA stays.
* `snapshots_equal` (Rng_props.v): Snapshots compare equal exactly when they are the same, if both are of as many devices.
* `snapshots_equal_refuted` (Rng_props.v): With different numbers of devices, different snapshots are equal.

### C130 Information about searchers is that of the searcher named

The searchers listed are the shipped yaml files; the algorithms are those they name, each once; the searchers of an algorithm are those that name it; the text given for a searcher is that of its own file, and a name that is no searcher's is refused.

Status: **partial**. Proved if no searcher's name begins another's. Refuted: asha is answered with asha_prior in some orders of the directory; prefixes of names are answered.

* `searchers_listed` (Rng_props.v): The searchers listed are the names of the yaml files.
* `algorithms_listed` (Rng_props.v): The algorithms are those that some file names, each once.
* `searchers_of_algorithm` (Rng_props.v): The searchers of an algorithm are those that name it.
* `kwargs_exact` (Rng_props.v): The text of a searcher is that of its file, if no other name begins with its name.
* `kwargs_other` (Rng_props.v): If one does, there is an order of the directory in which that one's text is given.
* `kwargs_other_refuted` (Rng_props.v): The shipped files: asked for asha, the text of asha_prior.
* `kwargs_unknown` (Rng_props.v): A name with which no searcher's name begins is refused.
* `kwargs_unknown_refuted` (Rng_props.v): But other names that are no searcher's are answered.

### C131 Pruning an architecture's graph leaves exactly the paths from its input to its output

From a graph without cycles prune_unconnected_parts removes exactly the nodes that are not on a path from the input to the output, with their edges, and keeps all others; an architecture is refused as invalid exactly if there is no path from the input to the output at all.

Status: **proved**. For acyclic graphs whose output has no successors and every topological order.

* `pruned_to_paths` (Prune_props.v): What is left is exactly the part on the paths from the input to the output.
* `refused_without_path` (Prune_props.v): A graph is refused as invalid exactly if there is no path at all.
* `input_is_output` (Prune_props.v): An input that is the output is refused.

### C132 Pruning zero and identity operations preserves the function computed by the graph

With operations at the nodes, zeros are removed and identities are bypassed, so two remaining nodes are joined exactly if they were joined directly or by identities only; with primitives at the edges exactly the edges with a zero operation are removed; afterwards only paths from input to output are left; graphs with no or several inputs or outputs are refused.

Status: **partial**. Proved with operations at the nodes, and at the edges up to the names. Refuted: an operation whose name just contains the name of a zero is removed too.

* `identities_bypassed` (Prune_props.v): Operations at the nodes: the nodes with zeros and identities go, an edge leads from one of the others to another exactly if there was an edge or a path of identities, and of this graph only the paths from the input to the output are left.
* `several_ends_refused` (Prune_props.v): A graph with several inputs or outputs, or none, is refused.
* `zeros_pruned` (Prune_props.v): Primitives at the edges: those whose name contains the name of a zero go, and of this graph only the paths from the input to the output are left.
* `zero_name_refuted` (Prune_props.v): An operation that is no zero, but has a name that contains one, is pruned too.

### C133 The text of an architecture is composed as its parse tree says

Composing the text of a parse tree applies each topology to what its own children stand for, in their order, a nonterminal with one child standing for that child.

Status: **partial**. Proved if topologies are at the nonterminals themselves, except topologies of primitives only. A primitive alone is an IndexError. Refuted: below a nonterminal that just stands for another, an inner topology takes the arguments of the outer one.

* `tree_composed` (Compose_props.v): If topologies are at the nonterminals themselves, except for topologies of primitives only, the text of every tree of the grammar becomes the composition that the tree stands for.
* `primitive_alone` (Compose_props.v): A primitive alone always fails.
* `nothing_refused` (Compose_props.v): A topology of nothing is refused as an invalid graph.
* `renamed_nonterminal_refuted` (Compose_props.v): A nonterminal that just stands for another one, above nested topologies: the inner topology takes the arguments of the outer one, without any error.

### C134 Calling a topology gives what its operations make of the input

Calling a topology with x gives the value at its last node, where every node has what the operations at its incoming edges make of the values at their beginnings, merged; the operations given belong to the edges in their order.

Status: **partial**. Proved for all topologies that there are, and for graphs whose breadth first order is sorted. Refuted otherwise: a node is left before all its inputs are there, and its operations are applied twice. Refuted: too few operations are no error, edges are missing.

* `call_right` (Net_props.v): If the nodes, left in the order of a breadth first search, are sorted, then a call gives what the operations make of the input.
* `sequential_called` (Net_props.v): Operations one after another
* `dense_called` (Net_props.v): Every node gets what comes from all before it.
* `small_called` (Net_props.v)
* `surplus_ignored` (Net_props.v): More operations than edges: they are ignored.
* `operations_in_order` (Net_props.v): With as many operations as edges, every edge has its own.
* `call_order_refuted` (Net_props.v): A graph whose nodes are sorted, but not in the order of a breadth first search: operations are applied twice, the result is another one.
* `missing_operations_refuted` (Net_props.v): Fewer operations than edges: there is no error, the edges at the end are missing, and a call gives the wrong result.

### C135 Flattening an architecture does not change what it computes

The flat graph of a graph whose operations may be graphs has every primitive operation in its order, one source and one sink, and computes the same results as the nested graph if values are added at nodes.

Status: **proved**. Both directions; the flat graph has exactly the results of the nested one.

* `flat_same` (Flat_props.v): The flat graph has one source and one sink, and computes what the graph of graphs does: if values are added, the results for [x] are the same.
* `flat_operations` (Flat_props.v): Every operation is there, in the order in which the graph of graphs has them.

### C136 The generated module computes the graph

The module generated from a graph with one source and one sink gives, for every input, the value at the sink; graphs with other sinks or unknown operations are refused.

Status: **partial**. Proved for one source and one sink. Refuted: a second sink with a greater number than the last node is lost. Refuted: merge_fn of a topology is ignored by the module.

* `module_right` (Net_props.v): The module gives what the operations make of its input.
* `several_outputs_refused` (Net_props.v): A node without outgoing edges that is smaller than the last one is refused.
* `other_operations_refused` (Net_props.v): Without operations that are primitives or graphs (numbers, functions) there is no module.
* `second_output_lost_refuted` (Net_props.v): But not if it is greater: then its value is lost.
* `merge_fn_refuted` (Net_props.v): [merge_fn] of a topology is not what the module does: it adds, as the nodes' [comb_op] says.

### C137 Architecture parameters keep what they stand for

After any sequence of loading, sampling, cloning, reading and failed calls, the value of an architecture parameter is the graph of its id; an id that was read loads to an equal parameter with the same value; clones, samples and children stand for the text they were made from; parameters are equal exactly when their ids are.

Status: **partial**. Proved for all states reachable by calls, failing ones included. Refuted: a failed load leaves the invalid text as the id; a clone loses the default; None is refused although the signature has it, so values cannot be deleted.

* `id_and_value_agree` (Arch_props.v): After any calls the value belongs to the id.
* `load_takes_the_id` (Arch_props.v): An id loads as itself.
* `reload_same` (Arch_props.v): What is stored as the id of a parameter gives the same parameter again.
* `clone_same` (Param_proofs.v): The clone is the object, but for the confidence.
* `sample_takes_the_text` (Arch_props.v): A sampled parameter stands for what the grammar gave, also when it comes from a parameter that stood for something else.
* `equal_by_id` (Arch_props.v): Parameters are equal exactly when their ids are.
* `failed_load` (Arch_props.v): A text that is no graph is refused, but it stays as the id, and a clone has none.
* `failed_load_keeps_refuted` (Arch_props.v): A load that fails does not leave the parameter as it was.
* `clone_has_no_default` (Arch_props.v): A clone never has the default, whatever the parameter's is.
* `clone_keeps_default_refuted` (Arch_props.v)
* `set_none_refused` (Arch_props.v): The value of an architecture parameter cannot be deleted, other than its signature says: [None] is always refused, and the old value stays.
* `set_none_refuted` (Arch_props.v)

### C138 Modules of architectures are built along the graph

Given set_recursive_attribute, every edge gets the attributes computed from its own data and the finished data of an edge before it (none at the input), and the module is made of that graph; all documented kinds of structure and the default of set_recursive_attribute are accepted.

Status: **partial**. Proved for graphs with one source. Refuted: lists of structures are never accepted; without set_recursive_attribute to_pytorch always fails.

* `build_along_the_graph` (Arch_props.v): Every edge is given its attributes, from its own data as they were and the finished data of the first edge to its source.
* `second_source_fails` (Arch_props.v): A second source with an edge to another node makes it fail.
* `list_never` (Arch_props.v): A list of structures is never accepted, though the signature has it.
* `list_refuted` (Arch_props.v)
* `no_attributes_never` (Arch_props.v): Without set_recursive_attribute there is never a module, though None is its default.
* `no_attributes_refuted` (Arch_props.v)
* `module_of_built_graph` (Arch_props.v): With it, the module is made of the composed and built graph.

### C139 The pool of candidates has its size, comes from the best, and the best of it are chosen

The mutation sampler's pool has pool_size candidates: mutations of the n_best configurations with the smallest losses, all different unless isomorphisms are allowed, and random ones; a batch of it are the candidates with the greatest distinct acquisition values, a single sample one with the greatest.

Status: **partial**. Size, origin and choice are proved for what numpy and torch promise. Refuted: the hash of a configuration is that of a temporary view, so mutations can repeat and different ones can be turned away; a batch of none is the whole pool.

* `pool_has_its_size` (Pool_props.v): The pool has the size that is asked for.
* `pool_of_the_best` (Pool_props.v): It begins with mutations of the best configurations, none of them what it was before, and the rest is random.
* `mutations_differ_by_value` (Pool_props.v): If equal configurations had equal hashes, the mutations would all be different.
* `mutations_differ_refuted` (Pool_props.v): They do not: the same configuration can be there twice, although isomorphisms are not allowed,
* `mutations_kept_refuted` (Pool_props.v): and different ones are turned away until patience is used up.
* `patience_is_kept` (Pool_props.v): For one configuration, at most [patience] calls of [mutate] are in vain, whatever it gives.
* `no_best_fails` (Pool_props.v): No best ones at all are a division by zero.
* `best_are_proposed` (Pool_props.v): As many as are asked for are chosen, with different values, and all others have smaller ones.
* `few_values` (Pool_props.v): If there are not so many different values, the best candidates are chosen all the same.
* `more_than_there_are` (Pool_props.v)
* `sample_is_best` (Pool_props.v): A single sample is a candidate with the greatest value.
* `batch_of_none` (Pool_props.v): None at all are all of them, one for each value.
* `batch_size_refuted` (Pool_props.v)

### C140 Constrained grammars give what obeys the constraints

Sampling from a grammar with constraints gives exactly the trees of the grammar in which, at every node, no subtree is one that the constraints refuse given the subtrees before it; mutation replaces a subtree by such a one that is not refused at its place; crossover does not bring in an operation that is refused.

Status: **partial**. Sampling is proved in both directions, mutation for what is refused at the place. Refuted: a topology for which the object has no constraints (None) cannot have subtrees; with a function, a subtree cannot be mutated if the symbol above occurs before it; crossover never works with an object, and turns away only operations named zero.

* `sampled_obeys` (Con_props.v): What is sampled is a tree of the grammar that obeys the constraints everywhere, and its first production is not one of those refused.
* `obeying_is_sampled` (Con_props.v): Every such tree can be sampled.
* `function_is_obeyed` (Con_props.v): For a function of constraints: where it forbids the operation, given the subtrees so far, there is another one.
* `only_the_operation` (Con_props.v): Nothing but the operation itself is ever refused by a function.
* `no_constraints_no_subtrees` (Con_props.v): For an object of constraints: below a topology for which it has none there can be no subtrees at all.
* `no_constraints_refuted` (Con_props.v): So a topology cannot be left without constraints, though None is provided for.
* `constrained_mutation` (Con_props.v): A mutation is a tree of the grammar again, and the new subtree obeys the constraints and is none that is refused at its place.
* `mutation_refuted` (Con_props.v): The subtree cannot be mutated, although there are other operations, if the symbol above it occurs in a subtree before it: the wrong place is looked at.
* `no_crossover` (Con_props.v): Crossover is never done with an object of constraints.
* `crossover_refuted` (Con_props.v)
* `zero_is_turned_away` (Con_props.v): In a crossover an operation that is refused is turned away if it is "zero",
* `none_is_turned_away_refuted` (Con_props.v): but not if none_operation is anything else.

### C141 Weighted acquisition functions consider pending points once and give one value, however many weights there are

An acquisition function wrapped by WeightedAcquisition takes over the pending points, so they are considered once; with one weight every sample's value at every point is weighed before the reductions; with two weights (prior and costs) the second is put on the value of the first and one value comes out, also with pending points.

Status: **partial**. Proved for any acquisition function, weights and points. False as stated: with a prior and costs (two nested weights) and pending points the outer forward broadcasts one value over all points, the shape check fails and no candidate is found (prior_and_costs_refuted; two_weights_and_pending shows it always happens). Simplification: one set of points at a time; the checks of botorch's decorators as one check.

* `pending_once` (Acq_props.v): Pending points are considered once: by the weighted function, no longer by the one it weighs.
* `one_weight` (Acq_props.v): With one weight, each value of each sample, at the points and the pending ones, is weighed before the reductions.
* `two_weights` (Acq_props.v): With two weights and nothing pending, the second one is put on the value of the first.
* `two_weights_and_pending` (Acq_props.v): But with two weights and pending points there is never a value: with a prior and costs, no candidate can be found while another configuration is evaluated.
* `prior_and_costs_refuted` (Acq_props.v)

### C142 Acquisition weights prefer what is cheaper, likelier and better, and state can be set

Cost cooling prefers the cheaper of two points with equal values and the better of two with equal costs, and has no effect once the budget is used; the decaying prior counts complete observations and prefers the likelier point; the confidence bound rewards uncertainty and good means and its beta can be set; the incumbent of the expected improvement is the least observation or the one with the least predicted mean.

Status: **partial**. Numbers are rationals; logarithm, power and root are any functions with the orders stated. False: a predicted cost that is not positive leaves no value; negative values turn the prior around; with logarithms a log-prior of exactly one is not weighed; setting beta always raises TypeError (list | np.array).

* `cheaper_is_no_worse` (Acq_props.v): Of two points with the same value, the cheaper one is no worse.
* `better_is_no_worse` (Acq_props.v): Of two points with the same cost, the one with the greater value is no worse.
* `costs_cool_down` (Acq_props.v): When the whole budget is used, costs no longer matter.
* `no_value_without_cost` (Acq_props.v): A predicted cost that is not positive leaves no value, however good the point.
* `cheaper_refuted` (Acq_props.v)
* `prior_decays` (Acq_props.v): The prior decays with the number of observations, of those at the highest fidelity if there are fidelities.
* `weighing_before_state` (Acq_props.v): Before the state is set, nothing can be weighed.
* `likelier_is_no_worse` (Acq_props.v): The likelier a point is by the prior, the better, if values are not negative.
* `likelier_refuted` (Acq_props.v): Not if they are negative.
* `log_prior_of_one_refuted` (Acq_props.v): Nor for logarithms: a point whose logarithm of the prior is one is not weighed at all.
* `nothing_complete` (Acq_props.v): Before any observation at the highest fidelity, every point but the likeliest has the value zero.
* `confidence_bound` (Acq_props.v): The confidence bound: great for great uncertainty, and for small means, or great ones if maximised.
* `beta_cannot_be_set` (Acq_props.v): Its parameter cannot be changed.
* `beta_is_set_refuted` (Acq_props.v)
* `incumbent_is_least` (Acq_props.v): The incumbent of the expected improvement: the least value observed, or the one observed where the mean is least.
* `incumbent_of_means` (Acq_props.v)

### C143 Distances tell configurations apart and a neighbour of the incumbent is found

compute_config_dist is never negative, symmetric, and zero exactly for configurations that do not differ; sample_neighbour returns the first sample within the radius at its turn (which grows by one percent after each 1001 rejected samples) or within the tolerance, and always ends.

Status: **partial**. The Euclidean norm is any function that is not negative, zero only at zero and the same for the opposite; numbers are rationals. The search ends for positive radii and bounded distances. Refuted: configurations that differ only in a graph are at the distance zero; with a radius of zero (the callers in the code exclude it) the radius never grows and the search need not end.

* `zero_distance` (Near_props.v): A distance is never negative, and zero exactly if the numbers and categories (of all but the fidelity) are the same.
* `same_both_ways` (Near_props.v): It is the same both ways.
* `graphs_differ_refuted` (Near_props.v): Configurations that differ only in a graph are at the distance zero.
* `first_within` (Near_props.v): The neighbour taken is the first sample within the radius at its turn, which grows by one hundredth after each 1001 samples, or within the tolerance.
* `neighbour_is_found` (Near_props.v): With a radius that is positive and distances that are bounded there always is one.
* `no_radius_no_end` (Near_props.v): With a radius of zero it never grows, and the search need not end.
* `neighbour_is_found_refuted` (Near_props.v)

### C144 The prior is used as often and as long as it should be

FixedPriorPolicy samples from the prior exactly for the given fraction of the random numbers; ModelPolicy.update_model weighs the acquisition function with the prior while the exponent 10 / decay_t is significant (at least 1e-4).

Status: **partial**. The fraction is proved. Refuted: the comparison in update_model is the wrong way round, so the prior weighs only when its exponent is insignificant, for decay_t above 100000.

* `fraction_of_prior` (Near_props.v): The share of samples from the prior: none for a fraction of zero, all for one, and the more the greater it is.
* `prior_when_insignificant` (Near_props.v): The model uses the prior exactly when its exponent 10 / decay_t has become insignificant, below 1e-4: after more than a hundred thousand.
* `significant_prior_refuted` (Near_props.v)

### C145 The graph built from an architecture's string computes what its tree says

from_stringTree_to_graph_repr (edge-attributed) gives a graph in which every operation of the derivation tree that is not pruned is on an edge of its own, and the paths from the first to the last node carry exactly the sequences of operations obtained by walking through the topologies and replacing their edges by the subtrees (without those with a pruned operation).

Status: **partial**. Proved by induction over all trees for topologies numbered from 1 whose greatest number is in the last edge of the list in order. Refuted for other numberings: node_offset grows by max(max(edges)), which need not be the greatest node, so new nodes clash and operations overwrite each other. The string is given by its terminals; what is pruned after the loop is not modelled.

* `paths_are_sequences` (Sub_props.v): The paths from the first to the last node of the graph are exactly the sequences of operations of the tree, without those in which there is an operation that is pruned.
* `operations_are_edges` (Sub_props.v): Each operation that is not pruned is on an edge of its own.
* `numbering_refuted` (Sub_props.v)

### C146 A prior of a grammar that is accepted can be sampled from, and means what it says

The setter of Grammar.prior takes a prior exactly if each nonterminal has as many probabilities as productions, summing up to 1, and keeps the one before otherwise; sampling with an accepted prior does not fail, draws each production with its probability, and never uses one whose probability is 0.

Status: **partial**. Proved for probabilities that are at least 0 and grammars in which each nonterminal on the right has a production. Refuted: the setter accepts negative probabilities that sum up to 1, then every draw is a ValueError; and the check of the constructor for nonterminals without productions looks at left sides only and never fails, so sampling does. Exact rational sums.

* `accepted_iff` (Wts_props.v): A prior is taken exactly if it has for each left side of the grammar as many numbers as there are productions, that sum up to 1 (nearly); otherwise the one before is kept. None takes the prior away.
* `drawn_with_probability` (Wts_props.v): If moreover its numbers are at least 0, then a production is drawn for each left side, the one with number j for the u of an interval whose length is the probability of j.
* `samples_are_possible` (Wts_props.v): Then sampling does not fail, and uses no production whose probability is 0.
* `fresh_numbers` (Wts_props.v): A new random number is used for each production that is drawn: one for the tree itself, and one for each text put into the cache.
* `negative_accepted_refuted` (Wts_props.v): But that they are at least 0 is not checked: a prior can be taken with which no production can ever be drawn.
* `no_production_refuted` (Wts_props.v): And that nonterminals on the right have productions is not checked either: such a grammar and prior are taken, and sampling fails.

### C147 A topology with operations on nodes has the paths of the one with operations on edges

to_node_attributed_edge_list turns the edges of a topology with one first and one last node into nodes such that the paths from input to output go over exactly the nodes of the paths of the topology; without one first and one last node it fails.

Status: **proved**. Proved for all lists of different edges; to_node_attributed_edge_list only, not how the rest of from_stringTree_to_graph_repr puts these lists together.

* `same_paths` (Dual_props.v): The paths from the input to the output go over exactly the nodes (their numbers are two more than the positions of the edges) of the paths of the topology.
* `dual_edges` (Dual_props.v): The edges are those from the input to the edges of the first node, from the edges to the last node to the output, and between edges of which one follows the other; there are no others.
* `no_single_end` (Dual_props.v): Without one first and one last node there is none: unpacking fails.

## Findings

Claims that are false of the code as modelled, each with a witness in a theorem (215):

* C02 `synced_after_failed_put_refuted`: the object returned by synced() is the cache itself. If a worker modifies it and its put then fails to get the lock, the next synced() returns the modified value although nothing was stored.
* C04 `evaluated_at_most_once_refuted`: workers 0 and 1 list config_0 as pending, worker 1 evaluates and reports it, then worker 0 reads it again, claims it successfully and evaluates it again.
* C06 `rejected_claim_refuted`: workers 0 and 1 try to claim config_0, the second to do so has had no attempt before and dies with an UnboundLocalError.
* C07 `reported_is_final_refuted`: in the situation of C04 the successful trial becomes "evaluating" again.
* C07 `report_never_rejected_refuted`: and a worker whose trial was taken over in this way dies when it stores its report.
* C13 `nan_cost_refuted`
* C14 `any_error_raises_refuted`
* C16 `crash_while_creating_never_blocks_refuted`
* C17 `crash_while_updating_atomic_refuted`: after some crash points they see a trial that is neither the old nor the new one (status success but no report), under the old version, while a worker that had it cached sees the old one; after others they cannot read it at all.
* C18 `opening_after_crash_refuted`
* C18 `opening_after_crash_state_refuted`: Even when it succeeds the state may be damaged: killed after 12 operations, numpy's random state is read as empty.
* C18 `opening_empty_directory_refuted`
* C18 `same_description_accepted_refuted`: a description with a tuple is refused when it is used again (it is stored as a list).
* C18 `racing_first_opening_refuted`: (5) They do fail: a process that looks between the creation of the directory and the writing of the description.
* C19 `stored_tuple_reads_back_refuted`: C19 is false for tuples (they come back as lists, which compare unequal).
* C19 `stored_without_report_reads_back_refuted`: C19 is false for a trial without report stored over one with a report (e.g. after reset): the old report comes back.
* C19 `unwritable_report_poisons_trial_refuted`: a report with an object YAML cannot write: the write raises TypeError, but only after the state file says "success" and the report file was emptied; from then on every fresh reader of this trial raises.
* C20 `listed_ids_refuted`: such a trial is listed under another id, fetching fails, and with it the listing of all trials (for every later worker).
* C23 `report_eq_reflexive_refuted`: a NaN in the learning curve (which the setting learning_curve_if_not_provided="loss" produces whenever the loss is NaN) makes a report unequal to an identical one.
* C23 `report_eq_error_presence_refuted`: no error at all is not distinguished from an error whose text is "None".
* C25 `every_evaluation_reported_refuted`: so not every evaluation ends in a report: a function that returns normally with a dictionary without loss, with None, or with a bad info_dict, makes the worker raise.
* C25 `evaluation_always_reported_refuted`: a function that returns a string ends the worker; the trial stays EVALUATING without a report, and a later run in the same process fails with NePSError at its first evaluation.
* C26 `reset_restores_new_refuted`: reset keeps the old report.
* C28 `pending_counts_refuted`
* C29 `csv_never_backwards_refuted`
* C30 `early_stopping_rounded_refuted`: with the logarithm computed in floats, which loses a rung at 243 = 3^5, the brackets disagree: full statement (with [never_above] in place of [exact]) refuted. Rung 1 gets budget 9 in the bracket with early stopping rate 0 and 3 with 1, and the highest rungs are 4 and 5.
* C33 `asynchronous_promotion_all_evaluated_refuted`: C33 counted over all configurations ever evaluated at the rung (as ASHA is published) is false: of 3 configurations at rung 0 with eta = 2, two get promoted.
* C33 `failed_not_promoted_refuted`
* C36 `paper_sizes_refuted`: it is not the size of the paper: 9 instead of 12 for s = 1 with four rungs.
* C37 `update_error_unchanged_refuted`: For columns that do not exist yet it is not: the update fails, but the column stays.
* C37 `labels_added_twice_refuted`: One call can add a label twice.
* C38 `reduced_unchanged_refuted`: Otherwise the performance of a lower budget appears at the largest one.
* C39 `dynamic_weights_refuted`: densities of the best configurations that are all zero in floats give NaN, and nothing can be sampled.
* C39 `dynamic_nan_refuted`: ValueError when the evaluations so far have all given NaN.
* C39 `linear_weights_refuted`: IndexError at the highest rung of a bracket that does not start at rung 0.
* C39 `nearest_neighbour_refuted`: ValueError when all configurations are at distance zero from the incumbent.
* C40 `incumbent_at_rung_refuted`: with a rung, no number of steps suffices.
* C41/C84 `ifbo_predecessor_refuted`
* C42 `step_adjustment_default_refuted`: With a default below the new lower bound it is refused.
* C42 `step_adjustment_integer_refuted`: A step that is not an integer and an integer fidelity: the lower bound is rounded.
* C42 `step_adjustment_binary64_refuted`
* C43 `decode_single_value_refuted`: C43, refuted for domains with one value, such as those of categoricals with one choice: every number is decoded to NaN (then cast to int64).
* C43 `decode_bounds_binary64_refuted`: -5.0 .. -1.8, linear: 1.0 is decoded to a number above -1.8.
* C43 `decode_log_bounds_binary64_refuted`: 1e-05 .. 0.1, logarithmic. The values of log and exp are those of the C library.
* C44 `log_integer_roundtrip_refuted`: 1..4, where 2 comes back as 3. The conditions on log and exp hold of the real ones (4^(2/3) = 2.52).
* C44 `binned_integer_roundtrip_refuted`: 0..3 in three bins, where 2 comes back as 3.
* C44 `roundtrip_binary64_refuted`: 0.0 .. 10.0, where 0.9 comes back as 0.8999999999999999.
* C45 `cast_log_bounds_refuted`: In particular the claim is false.
* C46 `log_integer_configs_refuted`
* C46 `log_unit_configs_refuted`: In particular the claim is false.
* C46 `empty_space_configs_refuted`: any number of (empty) configurations comes back as none.
* C47 `integer_default_refuted`: Refuted: an integer parameter that has refused a default has it all the same, and can then neither be cloned nor sampled.
* C47 `integer_load_refuted`: Refuted: loading a stored value does not check it.
* C47 `categorical_refused_refuted`: Refuted: a categorical parameter that has refused a value has it all the same, keeps the index of the old one, and can then neither be cloned nor sampled.
* C47 `categorical_sample_nan_refuted`: Refuted without the condition on NaN: NaN is accepted as a choice, but drawing it raises.
* C48 `grid_repetition_refuted`
* C48 `grid_fidelity_refuted`: The fidelity is not fixed.
* C48 `grid_binary64_refuted`
* C49 `grid_search_no_seed_refuted`: Without a seed, which is the default, the order is drawn anew each time: a configuration can be proposed twice and another one never.
* C52 `log_prob_index_refuted`: In particular the claim of C52 is false.
* C52 `log_prob_weight_refuted`: And also where there is no error.
* C53 `categorical_prior_refuted`: of three choices, the first being the default, the second is likelier than the third.
* C53 `categorical_offset_refuted`: Refuted: for a categorical domain of other integers than the indices the index drawn is taken for a value; of the values 5, 6 and 7 only 5 can be had.
* C54 `columns_refuted`: Refuted: a categorical parameter named before a numerical one; the prior's columns are in the other order than the encoder's, whose rows it is asked about.
* C55 `yaml_options_leak_refuted`: Options written in the YAML file for one searcher are given to another one, chosen in the code.
* C55 `yaml_unknown_null_refuted`: A misspelt name without a value is accepted.
* C55 `unknown_keyword_refuted`: A misspelt keyword of the call is accepted as an option of the searcher; if NePS picks the searcher it has no effect.
* C56 `flatten_same_name_refuted`: Two groups with a leaf of the same name: the first value is lost, without an error.
* C58 `plus_sign_stays_text_refuted`: Numbers in scientific notation that Python reads as floats, but that stay texts: with plus signs, without digits before or after the point.
* C58 `bare_point_stays_text_refuted`
* C58 `inner_blank_stays_text_refuted`: Blanks are removed before the form is checked, not before the conversion: a text with a blank inside has the form but stays a text (as a bound it is a TypeError).
* C58 `int_bound_inexact_refuted`: Integers in scientific notation above 2^53 go through a double: 1e23 becomes 99999999999999991611392.
* C58 `mixed_bounds_refuted`: Two numbers as bounds, but an integer and a float: no type is deduced.
* C59 `parts_at_root_refuted`: At the root they do not: there is a blank too many.
* C59 `bracket_terminal_refuted`
* C59 `mutation_at_root_refuted`: At the root the first sample is returned even if it is the parent and the second one is not.
* C60 `initial_directory_two_runs_refuted`: A second run in the same process, in another directory: for a first trial of the same identifier as one looked up before, the directory of the first run is returned.
* C60 `moved_results_refuted`: Results that have been moved: the initial directory returned is the old place, where there is nothing; and a continued trial finds no checkpoint though there is one.
* C61 `status_readable_refuted`: a successful trial whose result makes every later status call raise.
* C62 `never_sampled_twice_refuted`: a worker killed between storing a sampled trial and storing the random state makes the next worker sample the same configuration again, also when the optimizer never repeats itself.
* C63 `post_run_summary_refuted`
* C64 `answers_with_ignored_errors_refuted`: one failure, and a synchronous optimizer raises TypeError when the rung is full.
* C64 `answers_all_pending_refuted`: C64 when pandas keeps a column of only pending evaluations as objects: TypeError if as many workers as places ask before the first result.
* C64 `answers_float_log_refuted`: asynchronous Hyperband raises KeyError when bracket 1 is drawn and bracket 0 has not produced the highest rung.
* C65 `promotes_when_finished_refuted`: C65 for evaluations finished without a value is false.
* C68 `activation_kept_refuted`: but it can stop being used: a promotion takes the promoted configuration's cost out of the sum until it has finished.
* C70 `model_sampling_refuted`
* C72 `clone_confidence_refuted`: Refuted: a confidence set later is forgotten by clones (and so by samples, neighbours and children), which are then different from the original.
* C73 `numeric_simple_mutation_refuted`: In particular it is false that it gives a neighbour or another value.
* C74 `integer_prior_centre_refuted`: Refuted for log integers: the prior stays at the default of the construction.
* C77 `random_search_fidelity_refuted`: Random search told to ignore the fidelity proposes configurations without a fidelity.
* C79 `mutation_with_parent_refuted`
* C80 `set_defaults_refuted`: Taking over the current values as defaults leaves out the categoricals.
* C81 `equality_transitive_refuted`
* C81 `equality_constants_refuted`: Any two float constants count as equal.
* C83 `ifbo_curves_refuted`
* C85 `ifbo_new_float_refuted`
* C86 `ifbo_step_size_refuted`: Steps are longer than the step size.
* C87 `ifbo_ids_new_refuted`: While 0_1 is being evaluated it is proposed again.
* C88 `ifbo_proposes_refuted`
* C89 `ifbo_losses_checked_refuted`: While a trial is being evaluated the losses are not checked.
* C90 `ifbo_crashed_is_worst_refuted`
* C92 `integer_dtype_refuted`: The dtype thus changes what is sampled, though all values asked for are integers; and it is the dtype a weighted sampler asks for if none is given.
* C94 `pibo_log_exponent_refuted`: With the exponent as a factor (log of p^x is x times log p) two points change places.
* C94 `pibo_no_columns_refuted`: Refuted: for a space of constants only there is no exponent.
* C95 `run_directories_refuted`: With a slash in an identifier two runs may share a directory.
* C95 `run_directory_escapes_refuted`: An identifier can also lead out of the directory of its task: ".." is kept.
* C96 `searcher_none_refuted`: [searcher=None] is documented by the code as the choice of NePS, but ends in an error.
* C96 `own_class_budget_refuted`: The cost limit of the run does not reach an optimizer class of the user.
* C96 `searcher_algorithm_refuted`: A dictionary with the old key alone, and options that are tuples or objects, are errors.
* C96 `searcher_tuple_option_refuted`
* C96 `searcher_by_name_refuted`: Some searchers of NePS cannot be asked for by name.
* C97 `pipeline_space_name_refuted`: Nothing of a pipeline space gets lost: false when parameters share a name.
* C98 `yaml_integer_loss_refuted`: A whole number as the loss of a failed configuration is accepted from the code, but not from the YAML file.
* C98 `zero_evaluations_refuted`: A limit of zero evaluations counts as no limit.
* C99 `retry_after_error_refuted`: After an error this is not so: a misspelled type is an error the first time; the second time the type is gone, and the parameter is read as something else.
* C100 `infinite_int_bound_refuted`: The three do occur.
* C100 `huge_constant_refuted`
* C100 `type_not_text_refuted`
* C100 `empty_space_refuted`
* C101 `all_trees_sampled_refuted`
* C101 `name_clash_noticed_refuted`: ... although a symbol may be both terminal and nonterminal, ...
* C101 `missing_production_noticed_refuted`: ... and a nonterminal may lack productions, which is noticed when it is sampled.
* C102 `log_prior_refuted`
* C102 `prior_of_longer_refuted`
* C102 `prior_of_shorter_refuted`: ... or the probability of the other production.
* C103 `letter_and_nonterminal_refuted`
* C103 `first_subtree_refuted`
* C103 `single_subtree_refuted`
* C103 `default_mutation_refuted`: "bananas", the default, goes through the subtrees and may leave all of them alone: then the parent is found to be the same as the child, and there is an error.
* C103 `donor_root_refuted`: A donor that has the symbol only at its root counts as not having it.
* C104 `checkpoint_names_refuted`: Different names of checkpoints may share a file: after saving "epoch.1" and "epoch.2", loading "epoch.1" gives what was saved as "epoch.2".
* C104 `model_state_replaced_refuted`: A value of the user named "model_state_dict" silently replaces the model's state.
* C104 `lightning_documented_refuted`: The documentation of load_lightning_checkpoint promises (None, None) if there are no checkpoint files, and the latest of several: both raise.
* C105 `later_run_refuted`: A later run in a process is not independent of earlier ones: the same run works in a new process and fails, before calling the function, after an unreadable result.
* C106 `results_crashed_refuted`: An evaluation that failed, without a loss for errors, makes the command fail.
* C106 `results_same_number_refuted`: Identifiers of algorithms with several fidelities, [config_rung]: [int] ignores the underscore. Two trials may have the same number: then the order of listing decides.
* C106 `results_later_refuted`: A trial that was sampled later, and is worse, is shown as an incumbent.
* C107 `kwargs_inf_refuted`: Values that have no spelling: [inf], [nan] and [None] stay texts.
* C107 `kwargs_none_refuted`
* C107 `kwargs_replace_refuted`: A searcher argument with the name of a parameter of neps.run replaces the option.
* C108 `info_of_waiting_refuted`
* C109 `status_pending_refuted`: Both numbers of pending trials are 0, whatever is pending.
* C110 `empty_config_refuted`: An empty run_config.yaml is not a missing directory.
* C110 `task_directory_refuted`: task_id in run_config.yaml: the results are in a directory below, which is not looked at.
* C110 `showing_makes_directories_refuted`: In any other directory, a command that shows something makes directories.
* C110 `cli_md_refuted`: Every command overwrites cli.md, even the printing of the help.
* C111 `one_curve_per_trial_refuted`: One evaluation, two calls: the losses are written under two different tags, so that there are two curves instead of one.
* C111 `logging_never_fails_refuted`: A run that uses the logger only from some moment on (or whose first trial failed before the first call): a call in a continued trial raises FileNotFoundError, in the user's function.
* C112 `incumbent_includes_trial_refuted`: The trial that ends is not counted, since its report is stored after the record is made: with one evaluation, whose loss is 3, the only record has no trial and the loss inf.
* C112 `disabled_writes_nothing_refuted`: A disabled logger still makes the record, at the end of a trial that makes no call.
* C112 `incumbent_second_run_refuted`: A second run of the process, in another directory: its incumbent goes to the summary of the first.
* C113 `empty_grid_refuted`: No image at all: an error instead of an empty grid.
* C114 `initial_design_spread_refuted`
* C114 `initial_design_number_refuted`: Not as many configurations as asked for: fewer, though there are more different rows, because a row was drawn several times; or more, because the default configuration comes on top.
* C114 `initial_answers_differ_refuted`: Several processes (or a run that is continued) do not go through one design together: although no design has a configuration twice, the second trial gets the configuration of the first.
* C115 `gp_targets_refuted`
* C116 `all_crashed_refuted`
* C116 `none_reported_refuted`
* C116 `many_categories_refuted`
* C116 `missing_cost_refuted`
* C116 `continued_budget_refuted`
* C117 `no_restart_refuted`: Between 21 and 30 combinations are allowed, and then botorch is called with no restart at all.
* C118 `cost_of_report_refuted`
* C119 `order_refuted`: With fidelities (identifiers "0_0", "0_1", ...) the order is not that of the evaluations: the curve shows after two evaluations what was only reached by the third.
* C120 `failed_evaluation_refuted`
* C121 `continuation_cost_refuted`: So the cost of a continued trial is not reduced by that of the trial that it continues.
* C121 `parallel_axis_refuted`: But the curve's positions are sums of these times: the second evaluation, which ended 20 after the start, is drawn at 30.
* C121 `start_refuted`: And the start is not the first sampling: with trial 1 not evaluated yet, trial 10 comes before trial 2, and costs get negative.
* C122 `shown_early_refuted`: Hence an incumbent is shown before it was found.
* C122 `range_early_refuted`: The same happens for a single seed at the left end of x_range.
* C122 `different_numbers_refuted`
* C123 `label_missing_refuted`: For an odd number of benchmarks the right column ends one row earlier, without a label.
* C123 `many_benchmarks_refuted`
* C124 `numbers_not_read_refuted`
* C125 `directory_names_clash_refuted`
* C125 `kwargs_directory_refuted`: A function of [**kwargs] could take a directory, but is not given it.
* C126 `poll_none_refuted`: "none" is a setting of the time limits only.
* C127 `no_limit_refuted`: The limit "none" is 5 seconds: a lock that gets free later is given up.
* C127 `nan_limit_refuted`
* C128 `more_devices_refuted`: A worker with fewer devices joins a run and dies on its first question.
* C128 `fewer_devices_refuted`: A worker with more devices keeps the state of its own: what is drawn depends on which worker asks.
* C129 `seed_stale_refuted`: So a snapshot need not come back as it was written: an older state of CUDA stays.
* C129 `snapshots_equal_refuted`: With different numbers of devices, different snapshots are equal.
* C130 `kwargs_other_refuted`: The shipped files: asked for asha, the text of asha_prior.
* C130 `kwargs_unknown_refuted`: But other names that are no searcher's are answered.
* C132 `zero_name_refuted`: An operation that is no zero, but has a name that contains one, is pruned too.
* C133 `renamed_nonterminal_refuted`: A nonterminal that just stands for another one, above nested topologies: the inner topology takes the arguments of the outer one, without any error.
* C134 `call_order_refuted`: A graph whose nodes are sorted, but not in the order of a breadth first search: operations are applied twice, the result is another one.
* C134 `missing_operations_refuted`: Fewer operations than edges: there is no error, the edges at the end are missing, and a call gives the wrong result.
* C136 `second_output_lost_refuted`: But not if it is greater: then its value is lost.
* C136 `merge_fn_refuted`: [merge_fn] of a topology is not what the module does: it adds, as the nodes' [comb_op] says.
* C137 `failed_load_keeps_refuted`: A load that fails does not leave the parameter as it was.
* C137 `clone_keeps_default_refuted`
* C137 `set_none_refuted`
* C138 `list_refuted`
* C138 `no_attributes_refuted`
* C139 `mutations_differ_refuted`: They do not: the same configuration can be there twice, although isomorphisms are not allowed,
* C139 `mutations_kept_refuted`: and different ones are turned away until patience is used up.
* C139 `batch_size_refuted`
* C140 `no_constraints_refuted`: So a topology cannot be left without constraints, though None is provided for.
* C140 `mutation_refuted`: The subtree cannot be mutated, although there are other operations, if the symbol above it occurs in a subtree before it: the wrong place is looked at.
* C140 `crossover_refuted`
* C140 `none_is_turned_away_refuted`: but not if none_operation is anything else.
* C141 `prior_and_costs_refuted`
* C142 `cheaper_refuted`
* C142 `likelier_refuted`: Not if they are negative.
* C142 `log_prior_of_one_refuted`: Nor for logarithms: a point whose logarithm of the prior is one is not weighed at all.
* C142 `beta_is_set_refuted`
* C143 `graphs_differ_refuted`: Configurations that differ only in a graph are at the distance zero.
* C143 `neighbour_is_found_refuted`
* C144 `significant_prior_refuted`
* C145 `numbering_refuted`
* C146 `negative_accepted_refuted`: But that they are at least 0 is not checked: a prior can be taken with which no production can ever be drawn.
* C146 `no_production_refuted`: And that nonterminals on the right have productions is not checked either: such a grammar and prior are taken, and sampling fails.

## Observations without a theorem

Read in the code while modelling, not (or only implicitly) formalised:

* `dataclasses.asdict(report)` deep-copies the exception object of a crashed evaluation.
* `cast_one` and `to_unit_one` compute in float32.
* Bracket sizes are smaller than the Hyperband paper's (`paper_sizes_refuted`).
* On resuming a run, changed limits of the call are used for the worker but the stored optimizer information keeps the old ones.
* `get_search_space_grid` documents deduplication but discards the deduplicated list (`grid_repetition_refuted`).
* `neps_examples/basic_usage/architecture.py` gives 17 arguments to `Sequential15`, which has 15 edges: the last two cells are never used (an instance of `surplus_ignored`).
