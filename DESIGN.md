# Formal model of radiocosmology/caput in Rocq (Coq 8.16.1)

The source is `/repo` (read as text only, never run).  The development is in
`rocq/theories`, logical name `Verif`.

## Layout

For each area `X` there are up to four files:

* `XModel.v` - the model: one Gallina function per code function, branch by
  branch, exceptions as values.  Each definition cites file and lines.
* `XSpec.v` - the specification: small definitions that do not use the model's
  helpers (often plain quantified statements over positions or multisets).
* `XProofs.v` - lemmas.
* `XProps.v` - the property theorems, followed by concrete examples and
  `Print Assumptions`; small lemmas used only once may stand beside them.

`PyBase.v` holds shared list/integer facts.

## Trusted base

* Coq's kernel (checked again by coqchk).
* What `Print Assumptions` prints under each theorem.  The intention is
  "Closed under the global context" everywhere except for the statements over
  the standard library's real numbers (Astronomy, truncation of arrays, inverses, times as doubles, quickselect with doubles), which use
  axioms of the standard library only (Flocq's theorems use no others): `ClassicalDedekindReals.sig_forall_dec`,
  `ClassicalDedekindReals.sig_not_dec`,
  `FunctionalExtensionality.functional_extensionality_dep` and
  `Classical_Prop.classic`.
* The reading of the Python/C++/Cython source by the model.  "Modelled" and
  "not modelled" are listed per area below.

General simplifications, valid for all areas unless said otherwise:

* Python and C integers are `Z` (or `nat` for lengths, indices and fuel); 32
  and 64 bit overflow is modelled only where the property is about it.
* Floating point data is exact: where only comparisons and additions occur
  (medians, time selections) numbers are `Z`, i.e. dyadic numbers over a
  common denominator.  Rounding is not modelled, except in `Bt*`, `Inv*`, `Tf*` and `Gq*`.
* MPI is modelled as the list over ranks of local states; a collective is a
  function on that list.  Message matching is modelled where the property is
  about it (C22).
* External calls (numpy, h5py, the operating system, user functions) are
  explicit parameters or small explicit models; each is listed below.
* Names of exceptions are constructors of an error type.

## Properties and how each is handled

A property that is false of the code is kept at full strength in
`properties.jsonl`; we prove `..._refuted` (a concrete witness evaluated by the
kernel) and, next to it, the largest true conditional form we have, suffix
`_partial` or with the condition in the name.

### Partitioning (`PartModel`, ...): C01-C07, C09
`split_m`, `partition_list` (con/alt/rand), `partition_list_mpi`, `mpirange`,
`split_all`, `split_local`, `parallel_map`, `transpose_blocks`,
`lock_and_write_buffer`, `parallel_rows_write_hdf5`, `unique_ordered`.
* C01 closed-form arithmetic on floor/remainder. C02 positions: every position
  of the list in exactly one piece. C03 ranges over all ranks. C04
  parallel_map as the list-of-ranks computation, then allgather and index
  merge, equals `map`. C05 refuted: two ranks with different permutations.
  C06 block exchange on `list (list A)`. C09 byte-level file model, refuted.

### LRU cache (`Lru*`): C08
The cachetools eviction loop (external, modelled from its documented
behaviour) with the `getsizeof` of caput.  Invariant over operation lists.

### Bit truncation (`Trunc*`): C10-C13
Integer code modelled on `Z` with explicit 32/64 bit range side conditions
proved for the inputs used by the float code; float code on
(sign, mantissa, exponent) triples.  C13 refuted for negative values.

### Slices and IO (`Slice*`): C14-C20
Python slice semantics specified by `slice.indices` and membership; model of
`_len_slice`, `_reslice`, `_expand_sel`, `_partition_sel`, `_partition_io`,
`_global_resolver`. C19, C20 refuted with conditional forms.

### Redistribution and gather (`Red*`): C21-C23, C77
An nd array is a shape and a function from multi-indices; `view`, `assign` and
`array_split` model numpy's basic slicing.  `redistribute` posts its messages
in the order of the code (partner by rank arithmetic, tags checked to agree);
`gather` carries a flag for whether the message the root sends to itself has
arrived when the function returns, because that request is never waited for.
C77 refuted: the negative name of the current axis is not recognised.

### Axis bookkeeping (`Ax*`): C24-C27, C78, C79
`ufunc_reduce`, `ufunc_accumulate`, `ufunc_call`, `sanitize_slice`,
`mpi_getitem`, `mpi_transpose`, `mpi_reshape` on shapes and axis numbers
only; the values are numpy's.  C25 refuted for negative axes, C78 for negative
axes and None, C27 for ranks without elements.  A stored axis number can itself be
negative (the constructor keeps it), which breaks C24.

### In-memory HDF5 (`Mem*`): C28, C29
Paths as lists of characters; the storage as a tree of groups and datasets
(an inductive type), the h5py-style calls function by function; histories by
`fold_left`.  The specification is a map from lists of names to entries.  Not
modelled: weak references and views held across calls, soft links.  C29 holds
for names that do not end in a slash; refuted otherwise.

### Common and distributed datasets (`Dist*`): C34, C82
`dataset_common_to_distributed`, `dataset_distributed_to_common` and
`gather_local` on the array model of `Red`.  C34 refuted for axes other than 0,
C82 on a single rank.

### JSON and attributes (`Json*`, `Attr*`): C30, C31, C83
The writer of the json module with the class of [copyattrs], the number and
string scanners and the decoder, on characters below 256; floats are the texts
of their repr, which json writes and reads exactly; the round trip is proved,
not assumed.  What h5py and zarr keep of a value is written down from their
documentation in `AttrModel` (`h5_set`, `set`) and is part of the trusted base.
Object arrays and arrays with more than one dimension are outside.

### Deep copies (`Copy*`): C32, C33, C84
`deep_group_copy` on the trees of `Mem` with the attributes of `Attr`: the stack
of the loop, creation by absolute name, selections, string conversion,
distributed and shared datasets.  The loop carries fuel and is proved to end.
A file is taken to behave like a tree in memory.  Simplified: one-dimensional
data, an index is the list of positions it picks, compression and the callback
are left out, a shared dataset is equal to its source (not the same object).

### lock_file (`Lock*`, `PyStr`): C35-C36, C81
Trace semantics over a file system of named contents (the operating system's
open, append, remove and rename are atomic steps); every state of the trace is
a crash point.  `PyStr` models os.path.split and join for the derived names.
C36 refuted.

### Containers (`Hist*`, `Cont*`, `Filt*`, `Init*`): C37, C56-C58, C91-C93
`Hist`: the history group and its text, `repr` and `ast.literal_eval` restricted
to lists of string literals, on code points; which characters outside ASCII are
printable is a parameter.  `Cont`: class and instance specifications over any
method resolution order (dictionaries are association lists), `TableSpec`,
`_make_selections`, `Container.redistribute`.  `Filt`: `copy_datasets_filter`
for all ranks together, on whole arrays with the even shares of `Part`.
`Init`: `ContainerPrototype.__init__` and `add_dataset`, on whole arrays.
Left out: `data_group`, attributes, compression, the warnings.  An index passed
to h5py or numpy means what `Slice` says.  Refuted: C56 for diamonds, C57
excludes datasets called index_map/..., C58 in five corner cases, C91 (tables
of a class are shared with its instances), C92 (wrong axis numbers), C93 (source
axes of another length or order).

### Config (`Cfg*`): C38-C40, C89, C90
`config.py`: property objects as cells of a heap (they remember their name and
key), classes as ordered dictionaries, any resolution order, `read_config` with
both key checks, attribute access and assignment, `float_in_range`, `enum`,
`list_type`, `logging_config`.  Conversions are arbitrary partial functions.
Python equality is specified separately (`same`) and the model's test is proved
to decide it.  Simplified: floats are rationals, infinities and NaN; texts are
ASCII for `upper`.  Left out: deprecation warnings, `utc_time`, the YAML loader.

### Pipeline (`Pipe*`, `Ext*`): C41-C47, C85-C88, C133-C139
`_pipeline.py`: formatting and checking of keys, the state machine of a task,
its queues, the scheduler of `Manager` (rotation, priorities, output checks,
removal) as a step function, and the static validation.  The methods of a task
are arbitrary functions of a private state and the arguments.  A run gives the
list of calls made, and the properties speak about this list only.  Invariants
over reachable states; termination by a measure.  C44 is refuted.  Simplified:
a plain object has no length, priorities are integers.  Left out: logging,
profiling, interactive mode, the debug check of outputs against arguments, MPI
broadcast of the chosen index, tasks which change the manager.
`Ext*`: extensions/_pytools.py (`Input`, `Output`, as behaviours in the model of
the manager) and _extensions.py (`_OneAndOne`, `SingleBase`, `IterBase`, the
mixins up to the call that writes).  The overridden methods and the file system
are parameters; reads, new directories and writes are recorded in order.

### Medians (`Med*`, `Qsel*`): C48-C53
Quickselect on lists with the Hoare partition modelled index by index (`Qsel`):
the data and weight arrays, always permuted together, are one list of pairs; a
read outside is an IndexError although the code compiles the check out; the
loops carry fuel, proved never to run out.  A quantile q is a fraction qn/qd and
all weights are multiplied by qd.  AVL tree (`Med`) as an inductive type with
the insert, remove, rotations of the C++ code; parent pointers become the path
from the root, cached heights and weights are kept and proved true.  Values and
weights are exact integers, so rounding in the weight sums is outside.  One and
two dimensional windows with their queues.  C48 (one corner), C49, C52, C53
refuted with conditional forms.

### TOD (`Tod*`): C54, C55
`_start_stop_inds`, `_get_in_out_slice`, the loop of `concatenate` for one axis
and one dataset (cells that np.empty leaves unwritten are None),
`select_time_range`, `read`.  Times are integers.  Not modelled: filters,
distribution, the copying of attributes and of datasets without a time axis.
C54 refuted for start below -ntime, crossed bounds and some empty selections.

### Type utilities (`Typ*`, `Obj*`): C59-C61, C73, C74
`typeutils.py`: `bytes_to_unicode` on nested values (decoding is an arbitrary
partial function), dtypes as leaves and compound types with shapes and padding,
`_convert_dtype`, `has_kind`.  `objecttools.py`: `allequal` with the branches of
`np.testing.assert_equal` on Python scalars (floats as dyadic numbers, signed
zeros, infinities, NaN) and one-dimensional arrays, specified by exact values;
`total_size` on an object graph given as a table, specified by reachability.
Simplified: dictionary keys of `allequal` are strings, object graphs do not
change while they are searched, no recursion limit.  Left out: titles and
overlapping fields of dtypes, dates, sets in `allequal`.

### Task library (`Glob*`, `Zip*`, `Flow*`, `Sel*`, `Fmt*`, `Ctask*`): C62-C67, C94-C106
`Glob`: `list_or_glob`, `list_of_filelists`, `list_of_filegroups`; `glob.glob`,
`os.path.isfile` and `os.path.isdir` are parameters (arbitrary functions), with a
one-directory matcher for the examples.  `Zip`: `ZipZarrContainers`,
`SaveZarrZip`, `WaitZarrZip`; the host names of the ranks are a list, archives
and directories are finite maps, running 7z is one step that succeeds or not.
Left out: finding 7z, shells, messages.  `Flow`: `AccumulateList`, the loading
tasks and `Save` as state machines; reading a file is a parameter.  `Sel`:
`SelectionsMixin._resolve_sel` on YAML values.  `Fmt`: `file_format` with the part
of `Property` it uses, `guess_file_format`, `check_file_format` and
`compression_kwargs`; both backends are taken to be installed, letter case is
ASCII.  `Ctask`: `ContainerTask.next`/`finish` and everything they call, given
what `process` returns; format strings are lists of texts and variables without
conversions; a container is its attributes and one tree of datasets per rank;
text of values other than strings and counts is a parameter.  Left out:
compression settings of the saved file, expansion of `~` and `$`, history.

### Runner (`Run*`): C68, C69, C107-C110
`_from_template` with `str.format` (fields with a name and a specification `s` or
`d`; other fields are outside the model), the product of the variables and the
binding of arguments of `run_pipeline`; `register_system`,
`_resolve_system_config`, `_create_job_environment_strings`,
`_resolve_job_script` with the texts of both default scripts;
`_create_job_directories` and `queue` as steps on a map from working directories
to STATUS contents, together with what a job does to them according to the
scripts; `_load_venv` on `sys.path`.  Paths are taken as expanded; whether a path
exists is a parameter.  Left out: linting, copying the configuration file,
messages, the scheduler itself.

### Arrays and threads (`Arr*`, `Rng*`): C70-C72, C111
Arrays are windows (shape, strides, offset) into a memory of elements; NumPy's contiguity flags, `ravel` (a window or a copy) and `empty_like` are modelled; the parallel loop of `_invert_no_zero` runs its iterations in any order; the inverse of one double is computed with `SpecFloat`. Random numbers: generators are states with a function giving the next number, a call for n numbers is n draws, threads are interleaved number by number in any order; `_call` is modelled from the binding of its arguments to the calls made by the threads, NumPy's signatures are part of the specification. Left out: float32 and complex inverses, numbers of elements beyond 2^53 (rounding of the quotient), negative sizes, the seeding.

### Astronomy (`Solve*`, `Sph*`, `Norm*`, `Jl*`, `Const*`, `Lsd*`, `Time*`, `Deco*`): C75, C76, C112-C132
Real numbers of the standard library instead of floating point numbers (no rounding, infinities or signed zeros); NaN is `None`. `_solve_all` and `_fixup_interval_and_step` are modelled completely, with `brentq` as a parameter that returns a root in the bracket; the conversion of UNIX times to Julian days is the division by the length of a day. spherical.py and _spherical.pyx are modelled completely, for one point instead of arrays of points, except where the shape of arrays is the point (`projected_distance`, `norm_vec2`); integer arrays only for `cart_to_sph`. Left out: units of `Angle`, checks of the lengths of the last axis (ValueError) other than in `norm_vec2`. bessel.py is modelled completely, with scipy's `spherical_jn` as a parameter; derivatives are taken of the exact spherical Bessel functions, defined by their recurrence. constants.py: the lookup of names, for any set of names; numbers are rational. time.py is modelled completely, except for Skyfield's times as arguments: rotation and terrestrial time are parameters over the real numbers, with the assumptions (`Clock`, `Uniform`, `Leaps` in LsdSpec.v) stated in each theorem; calendar, `fromtimestamp`, `strftime` and `strptime` follow CPython on Linux, with rational times. observer.py: stellar angles and days for one time; transits, risings and settings see `Ris*`. arraytools.py: `scalarize`, `listize` and `vectorize` for arrays of one dimension.

### Transforms and the truncation task (`Fft*`, `Tt*`): C140-C148
Real numbers and pairs of them instead of floating point numbers; arrays are
shapes with functions from indices.  fftw.py is modelled completely; what
`pyfftw` computes is part of the model (sums over each axis, 1/n backward,
negative and repeated axes, errors for shapes and axes).  Left out: threads,
alignment, flags, dtypes other than complex or not.  `Truncate`: parameters,
weights and the tolerance for each element; the truncation itself is a
parameter.  Left out: dtypes, distributed arrays, chunks, weights which are
attributes but not datasets.

### The filter bank (`Pfb*`): C149-C153

Real numbers instead of floating point numbers; NumPy's transforms are their
sums.  `PFB.apply`, `compute_channel_profile`, `evaluate_channel_profile` and
`decorrelation_ratio` are modelled completely except that the spline is a
parameter, windows are given by their values, and delays are multiples of the
spacing of the interpolated points.

### Patterns (`Glob*2`)

`C65_matches` relates the matching function of the model of a directory to an
inductive definition of what a pattern matches.

### Profiling, the test of the environment, seeds (`Prof*`): C154-C164

What psutil, the clocks and the network report are parameters (whole numbers).
File names, tables and the values of their cells, `bytes2human` over the
rational numbers, the order of the messages and the waiting loop, `adler32` and
local seeds.  Left out: the profiles themselves, log messages, MacOS.

### The machine, log messages, sleeping processes (`Sys*`): C165-C173

The answers of the system (`os.cpu_count`, psutil, contents of files) are
parameters.  Texts are searched like the regular expressions do; `int` without
underscores.  Collective sums in which a process does not take part are modelled
as waiting.  Messages from process 0 arrive in order.  Left out: creating
communicators, the exception handler, the wrapper around the module.

### From a configuration to a pipeline (`Load*`): C174-C183

Documents are trees (keys are strings, mappings may have lines).  What can be
imported, and what making a task with parameters and setting up its keys gives,
are parameters.  Only the kind and the line of errors are modelled, not their
text.  Left out: reading files, checks of inputs and outputs (see Pipeline),
sequences of pairs as groups.

### Arrays with several axes in files (`Nio*`): C184-C193

The contents of an array or dataset are a function of the index; numpy, h5py and
zarr are one operation, assigning a selection (a slice or list for each axis) of
one array to a selection of another.  The ranks are run one after the other, in
any order (their parts are disjoint).  Redistribution before serial writing
fetches each element from the rank that has it (its messages are in Redist).
Left out: broadcasting (a difference of shapes is an error), restrictions of
h5py on lists, byte orders, memory layouts, chunks, waiting for the file.

### Distributed groups in files (`Gf*`): C194-C202

A tree has for each common dataset and each set of attributes what every rank
holds, and for a distributed dataset its parts (as in Nio).  A file is a tree of
datasets and attributes.  The first pass (rank 0: groups, common datasets and
attributes) comes before the second (distributed datasets, all ranks in any
order), as the barriers make it.  Names in a group are distinct.  Left out:
broadcasts (what rank 0 reads is what all get), chunks, and locks.

### Groups that may be on disk (`Mdg*`, `Mdf*`): C203-C223

`Mdg` puts the names a class allows around the tree of `Mem`; the class is two
predicates on paths, a container has those of containers/_core.py.  `Mdf` has
the constructor, closing, the class recorded in the attributes, the arguments of
from_file and save, without the contents of the groups.  Opening files succeeds
unless said otherwise; h5py opens for reading and zarr for appending by default.

### Whole containers of time-ordered data (`Tx*`, `Ttime*`): C224-C240

`Tx` has the walk of `_copy_non_time_data` over any tree and `concatenate` over
several time axes and datasets, with the selection of datasets and bounds given
as numbers or mappings (the caller's mappings after the call are a result).
The arithmetic along one axis is that of `Tod`.  A dataset is the list of its
rows along the axis that is concatenated.  Not modelled there: dataset filters,
conversions of strings, distributed data.  An output group on disk differs only
in `index_map`, whose values are arrays that were just read.  `Ttime` has the
times of a container in rational numbers.

### Dataset handles (`Dh*`): C241-C260

A small store with explicit references: buffers, attribute dictionaries, storage
roots and the datasets that a program holds.  Programs are lists of statements;
`DhSpec` has a second machine in which a handle is just a name and a copy a value
of its own, and the theorems compare what both machines return.  The contents of
a buffer are those of the whole array, so that a redistribution is either nothing,
another axis on the same memory (one process), or a copy (several).  Settings
(chunks and compression) belong to the dataset object.  The second part has the
settings of whole containers: `_ensure_chunked` and the first half of
`_save_output`.  Not modelled: negative axes, arrays shared with the caller of
`create_dataset`, object arrays in `deep_copy_dataset`.

### Computing with distributed arrays (`Du*`): C261-C279

`__array_ufunc__` with real data: numpy's broadcasting, reductions, accumulations,
basic indices and transpositions are written down as functions on (shape, element
function) in the first half of `DuModel`; a ufunc is any function of the elements,
with any number of inputs and outputs.  The second half is caput's: which arrays
are accepted, and how the result of the local arrays is described.  `DuSpec` says
what numpy does to whole arrays without using these functions (axes counted from
the right; lists of indices in C order; relations for indices) and what it means
for a rank to hold its part of an array (`Part`).  `C279` composes all of them in
an expression language.  Not modelled: casting, memory layout, floating point (a
reduction is any function of the list of elements, in C order; only C265 assumes
an associative and commutative one), `order=` arguments, index arrays.

### Transits, risings and settings (`Ris*`): C280-C292

Everything in observer.py that searches for events, on top of `_solve_all` (C75,
C112).  Sidereal time, right ascension, declination, altitude and the conversions
of time are parameters; what they must satisfy is in `RisSpec`: `HourAngle` (there
is a continuous growing hour angle, not wrapped, that grows by less than half a
turn in the given time), `Days` (Julian days do not run slower than UNIX time:
leap seconds may be added), `Solver` (what `brentq` promises, only where the
function is continuous - the wrapped hour angle is not).  An observer has the
attributes and `_obs`, the location kept by `skyfield_obs`.  Not modelled:
`transit_RA`, `cirs_radec`, `star_cirs`, `object_coords` (calls of Skyfield).

### Decorrelation at any delay (`Dc*`): C293-C296

`decorrelation_ratio` with the interpolation of SciPy's `interp1d` (sorting of the
nodes, linear segments, zero outside), which `Pfb*` leaves out.

### Arrays in messages (`Lay*`): C297-C302

`Red*` and `Dist*` pass arrays between ranks as functions of the index.  Here arrays
are windows into memory, counted in bytes (with the views of `Arr*`), and a message
is a list of bytes: `_prep_buf`, `gather`, `allgather` and `gather_local`.  NumPy's
contiguity flags, `view(np.byte)`, `reshape` and `ascontiguousarray`, the buffer
protocol and MPI's sub-arrays are written out.  What mpi4py does is taken from its
documentation: contiguous buffers of either order are sent in the order of memory.
Which type codes MPI knows is a parameter (`known`).

### Messages in every order of events (`Msg*`): C303-C309

`Red*`, `Part*` and `Dist*` compute what ranks end up with as if messages
arrived in step.  Here the ranks are programs (`MsgProg.v`, read off the functions):
local computations on numbered buffers, `Isend`, `Irecv`, `Wait`, `Barrier`.  A step of
the world is an operation of any rank, a barrier passed by all, the delivery of a
message, or the copying of a message by the library, in any order.  Delivery
follows MPI's rules: by source, destination and tag, and messages between the same
two ranks that fit the same receive do not overtake one another.  The data of a
message are read when it is copied or delivered, not when it is sent.  Which sends may be
copied is a function of the rank and the number of the send, and all theorems hold for every such
function: with none copied every send waits for its receive.  `Sendrecv` is an `Irecv`, an `Isend` and two
waits.  Left out: collective operations other than the barrier, errors inside a
rank (an exception is a value here), messages from any source, truncated messages, lost messages, and the
time limit of `CheckMPIEnvironment`.

`C303` is the tool: local confluence and a bound on the number of steps give
one outcome, so that for each program one run is enough.  `MPIArray.gather` does not pass
the check of proper use; `C308` follows by comparing it with a program that
writes a constant to the part of the root.

### Windows (`Win*`), Skyfield's data (`Sky*`), disk and memory (`Dsk*`), queued templates (`Tq*`): C310-C322

`Win*`: real numbers; `np.sinc` is 1 at 0.  `Sky*`: the loader is a function from the number of
calls before and the call to an answer (an object, an `OSError`, another error), so that it may fail
or recover at any moment; a theorem about all such functions is one about all behaviours of the network.
`timelib.calendar_date` and `ts.utc` belong to Skyfield: the model stops at the arguments of
`ts.utc`.  `Dsk*`: files are contents with a format; how the content is written is the subject of
`Copy*` and `Attr*`.  In `remove_file_or_dir` each system call of `shutil.rmtree` is one step, and
processes interleave in any way; directories inside the directory are left out.  `Tq*`
puts the loops of `Run*` together.

### Collective calls (`Col*`) and files of several ranks (`Cio*`): C323-C342

A rank is a tree: a result, a collective call with what follows each possible answer, or an action on
what the ranks share (files), which may have to wait.  An event is a collective call all of whose ranks
have arrived, or one action; events happen in any order.  `always s Q`: no run is endless and every
state in which nothing can happen any more satisfies `Q`.  A rank that raises makes no calls any more (this is
Python without the exception handler of MPI; `over` is with it).  MPI leaves it open what ranks get
which make different calls at the same time; here they wait.  Taken as one collective operation: the exchange of
`redistribute` (`Msg*`), writing and reading one distributed dataset (`Nio*`, `Gf*`), dumps.  Only those
lines of a function which decide about calls, results and files are modelled; arrays and
attributes are names.  `_next_task` uses `Pipe*`.

### A pipeline on all ranks (`Mpl*`): C343-C345

`run_on` is the loop of `Pipe*` as a program of one rank (`Col*`): the choice of the task broadcasts the
index of rank 0 whenever this rank has an available task, and the methods are programs which
may make collective calls.  `step_at` is the rest of the turn, as in `PipeModel.step`; the outcome of the
call goes through the field `c_beh`.  C344 ties it back to `PipeModel.run`.

### Truncation of arrays (`BtModel`, ...): C346-C352
`bit_truncate_relative`, `bit_truncate_weights`, the functions of one number and
the rows of `bit_truncate_max_complex` (truncate.pyx).  Words of 32 and 64 bits
are the floating point numbers of Flocq, products, sums, roots and conversions are
rounded to nearest even.  The element function is that of `TruncModel`.  Given:
`1.0 / x**0.5` and `cabs`; `max_abs**0.5` is correctly rounded.  The loops do their
iterations in any order.  A memory view is refused for an array that cannot be
written or has not one axis.  `bit_truncate_max_complex` treats the rows one by one,
so one row is modelled.
* C346, C348 tie the value of a word to the real number (`IsFloat`, `IsDouble`),
  the error of the product to `1 + 2^-24` and `2^-150`, and use the bound of C12.
  C347 all tolerances of an entry that is not finite give zero.  C349 the loop.
  C350 three roundings (the modulus, the largest modulus of the row, the float).
  C351, C352 refuted.

### Inverses in floating point (`InvModel`, ...): C353-C359
`_invert_no_zero` for one number of each type, the thresholds included, and
`np.where(x == 0, 0.0, 1.0 / x)` for integers and numbers of Python.  The constant
`1.0` is a double, so the quotient of a float is computed in double and rounded when
it is stored.  Arrays are those of `ArrModel` (C72), now with this function of one
element.  Given: the quotient of complex doubles.  Ints of more than 64 bits are not
covered (C357).
* The specification is `NearestFloat` and `NearestDouble`: no other float or double is
  nearer.  Flocq's theorem about two roundings of a quotient gives C353.
* The threshold of doubles, `1 / DBL_MAX` rounded, is exactly `2^-1024`, whose inverse
  overflows (C355 refuted).

### Times as doubles (`TfModel`, ...): C360-C363
The functions of `TimeModel` again, with UNIX times as doubles: `total_seconds` divides
microseconds by a million as CPython does (doubles for ints up to `2^53`, otherwise a
quotient with enough bits, rounded), `fromtimestamp` splits the double with `modf`,
multiplies the fraction by a million and rounds to even.  The calendar is that of
`TimeModel`.  For one time at a time.
* C360: half a unit in the last place below `2^33` seconds is `2^-21` s, so all roundings
  together stay below one microsecond.  C361 refuted beyond.  C362 refuted where the product
  is rounded to a half.

### Quickselect over any numbers (`GqModel`, ...): C364-C368
The quickselect of `QselModel` again, over a record of operations: comparison of data, tests of
weights, sums.  `exact_ops` gives `QselModel` back (`C364_exact_instance`), `double_ops` and
`int_weights` are the doubles and the integers of the code.  The answer is the element, or the pair
whose mean is taken: the mean itself (rounding, overflow of integers) is not modelled.
* C364: the partition needs of `<` only that it is asymmetric; the sums decide nothing but which
  side is searched next, so bounds and termination hold for any arithmetic.
* C365 refuted: a target equal to the only weight looks for an element right of the last.
* C366: the run with doubles is matched step by step with the exact run; C367 refuted beyond.
* C368 (`GqProofs4-7`): `weights_left` is the sum in the order of the partitioned array; the data
  left of `i` are not above the others, those right of `j` not below, and the target left over
  differs from the exact one by the errors of the sums already taken off.

### Moving weighted medians with doubles (`FtModel`, ...): C369-C373

`FtModel` repeats `MedModel` with doubles (words, Flocq arithmetic): the tree of
`MedianTree.hpp` with the cached sums of weights, added in the order of the code, and the loops of
`weighted.pyx`. A null pointer that is followed is `Err OtherException`. Data of other types are
converted when inserted. Compiler options that reorder additions are not used by the build.

* `FtProofs` relates a run with doubles to a run of `MedModel`, for any relations of data and of sums
  that respect comparisons and additions; `FtProofs2`, `3` use it with sums that are exact up to 2^53
  units (C369), `FtProofs4` with no relation of the sums at all (C372).
* C370, C371, C373 are refuted by computed runs of the model.

### Approximations of Bessel functions (`JlSpec2`, `JlProofs2`, `JlProps2`): C374-C375

What `_jl_approx_lowz` and `_jl_approx_highz` of `JlModel` compute, against the expansions of Debye
written down separately (`JlSpec2`). C375 evaluates the first near zero with bounds of `exp`, `sin`
and `cos` from the standard library.

C380 (`FtProofs5`, `FtProps2`) is C372 for two dimensions.

### Byte orders (`OrdModel`, `OrdSpec`, `OrdProps`): C376-C377

`check_byteorder`, `has_matching_byteorder` and `ensure_native_byteorder` of `typeutils.py`, on both
architectures. `dtype.newbyteorder` and `ndarray.view` are written down from the documentation of numpy.
What the bytes stand for is a relation of its own (`OrdSpec.Value`).

### Lists of lists of files (`Glob2Spec`, `Glob2Props`): C379

`GlobModel.list_of_filelists` on all arguments.

### Reading several files, in pieces and in stages (`TxmModel`, `TxmSpec`, `TxmProps`, `TxsSpec`, `TxsProofs`, `TxsProps`): C381-C384

`TOData.from_mult_files` on top of `TxModel`; `cls.from_file` is a parameter. C382 and C383 say how results of
`concatenate` fit together (`TxsSpec.as_input` turns a result into an input).

### Symmetries of moving weighted medians (`MsySpec`, `MsyProofs`, `MsyProps`): C385-C387

Laws that follow from the exactness of `MedModel` (C51): other units, the other direction, rows for columns.

### Global slices with a step (`SlxSpec`, `SlxProofs`, `SlxProps`): C378

The exact condition under which `global_slice` with a step is right (C20 proves a sufficient one and refutes
the general statement); the model is `SliceModel`.

### Truncating twice (`TfiProofs`, `TfiProps`): C388-C389

Idempotence of `bit_truncate_float`, `bit_truncate_double` (`TruncModel`) and of the arrays with weights
(`BtModel`); the relative precision is not idempotent.

### Accumulations over other axes than one (`DuProps2`): C390-C391

`DuModel` with `axis=None`, several axes or none; that numpy takes the only axis for None and refuses more than one
axis with ValueError is written down in `np_accumulate_axes`.

### Tiny numbers and the texts of attributes (`TfiProofs2`, `TfiProps2`, `JsaProps`, `TodProps2`, `HistProps2`): C392-C394, C55, C37

No new model: the truncation of numbers at the lower end of the range (`TruncModel`, the double version in
`TfModel`), the characters `JsonModel` writes, `select_time_range` with one bound or none, and the escapes of
`HistModel.repr`.

### Lines of configuration errors (`LnModel`, `LnProps`): C395-C396

A document is the tree of nodes PyYAML's parser makes of it.  That `SafeConstructor.construct_yaml_map` copies what
`construct_mapping` returns into a new dictionary is assumed; PyYAML is not part of the repository.  Left out: anchors,
merge keys, keys other than strings.  Mappings of `LoadModel` have a line or none; those of a loaded document have none.

### Refusals and arguments (`DskProps2`, `GfProps2`, `OrdProps2`): C184, C190, C194, C197, C317, C319, C320, C376

No new model.  Added after mutants survived: unknown formats and texts that are not ASCII are refused; what counts as
`use_mpi`; the axis a file names, also as a Boolean; what saving returns and where `to_disk` and `to_memory` look; which
byte orders `check_byteorder` asks for.

## Not modelled

Plotting, logging text, real file formats (h5py, zarr),
skyfield ephemerides: these are external
numerics or have no property beyond calling the library.
