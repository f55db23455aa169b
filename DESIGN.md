# Formal model of weldx in Rocq: design

The code under study is `/repo/weldx` (python).  It is read as text, never run.
Everything below is about a hand written model of that code in
`/verif/rocq/theories`.  Each model definition carries a comment with the file
and lines it follows, and states what it leaves out.

## 1. Trusted base

* The Rocq/Coq 8.16.1 kernel and `coqchk`.
* The axioms printed by `Print Assumptions` under each property theorem.
  Discrete models (graphs, dictionaries, validators, meshes, time in integer
  nanoseconds, serialisation) are axiom free.  Files about real numbers
  (`R`: transformations, geometry, grooves) use the standard library's real
  numbers and therefore
  A `ClassicalDedekindReals.sig_forall_dec`,
  B `ClassicalDedekindReals.sig_not_dec` and
  C `FunctionalExtensionality.functional_extensionality_dep`; theorems about
  square roots and angles also use D `Classical_Prop.classic` through the
  standard library.  Section 5 lists the axioms of each property by these letters.
  No axiom is declared in this development.
* The reading of the python code: that the Gallina functions do what the cited
  lines do.  No extraction, no differential test (the code can not be run here).
* The behaviour of third party libraries as far as the modelled functions call
  them.  The assumptions are listed here and repeated at the definitions:
  - `pandas`: `is_monotonic_increasing` is non strict; index arithmetic is
    element wise on 64 bit nanosecond counts (modelled by unbounded `Z`, so
    overflow is out of scope); `Index.union` of sorted indexes is the sorted
    multiset union with maximal multiplicities; comparing indexes of different
    lengths raises `ValueError`; `timedelta_range` gives `start + i*freq <= end`.
  - `networkx`: `DiGraph` keeps insertion order of nodes and of adjacency,
    `add_node`/`add_edge` on existing items update attributes, `remove_node`
    removes incident edges, `compose(G,H)` is the union with attributes of `H`
    winning, `subgraph` is the induced subgraph (`compose` and `copy` copy attribute
    dictionaries, but not the dictionaries inside them), `shortest_path` returns a
    shortest path (modelled by a depth first search for a simple path; on trees
    there is exactly one, which is proved), `relabel_nodes(copy=False)` as in
    networkx 2.6+, `is_tree` on a directed graph ignores directions.
  - `numpy`: broadcasting of `(2,1)` against `(2,)` gives `(2,2)`; `argmin`
    returns the first minimum; `round` is half to even; `clip`, `linspace`,
    `arange` as documented.
  - `xarray`: `interp` with `linear` is piecewise linear, out of range values
    are filled as written in `xr_interp_like`; `sel(method="ffill")`.
  - `boltons.iterutils.remap`: `default_enter`, order of traversal, `exit`
    filtering, each container is entered once per identity; `get_path` converts
    segments with `int` (a parameter) if a sequence refuses them.
  - `sympy`: `subs`/`lambdify` evaluate an expression at the given values;
    `integrate` of the arc length gives radius times angle for a circle;
    `Polygon.area` is the shoelace formula.
  - `scipy.spatial.transform.Slerp` is a parameter of the model.  The theorems
    assume only that it is exact at the samples, keeps orthonormality and does
    not depend on the origin of time.  `c13_between_refuted` assumes in addition
    that half of a rotation about a fixed axis is the half angle.
  - `hashlib`: feeding data in pieces is feeding it byte by byte (parameters of
    `SerialModel.v`, as are `inferred_freq` and the length of a pandas frequency);
    `packaging.version` orders releases number by number.
  - pandas refuses to mix time deltas and time stamps on one axis (`TsModel.v`);
    conversion between quantities and time deltas is exact.
  - `sympy.lambdify` gives a function of the values of the free symbols; xarray
    arithmetic keeps the coordinates of the operands, `DataArray(value, dims=dim)`
    raises if the value has no axis (`ExprModel.v`); interpolation of several
    dimensions is done one dimension after the other (`SeriesModel.v`).
  - In `CsmSerModel.v` the values of transformations and data after writing and
    reading them and the order in which Python lists a set are parameters.
  - `networkx.is_tree` is a parameter in `GraphModel.v` and `CsmSerModel.v`, as is the evaluation of
    `MathematicalExpression` and unit arithmetic in `MeasModel.v`.
  - `asdf.util.uri_match` follows its documentation (`TagModel.v`); units, their parser and compatibility
    are parameters of `UnitValModel.v`, where compatibility is assumed to be equality of dimensions.
  - `asdf.versioning.split_tag_version` splits at the last `-`; `AsdfVersion` is a parameter of `StdModel.v` with a parser
    and a total order; `yaml.load` of a manifest is given with the file.
  - `networkx`: `DiGraph.nodes` compare as mappings with their attributes, `DiGraph.edges` as sets of pairs
    (`NodeView(Mapping, Set)`, `OutEdgeView(Set, Mapping)`), used in `EquipModel.v`.
  - `np.dtype`, `np.issubdtype` (equality of scalar types), broadcasting of `==` and the units of `pint` in
    `CheckModel.v`; xarray refuses arrays without coordinates of different lengths along a dimension (C102).
* `xr.merge(join="exact")` (C106): refuses different labels of a dimension, keeps the attributes of the coordinate of the
  first array. NumPy's `==` of arrays of different lengths counts as different. The interpolation functions are parameters.
* SciPy's `Rotation` (C107, C108): `from_euler` composes elementary rotations as documented; `as_euler` gives angles of the
  same rotation with the second angle in [-90, 90] degrees (three different axes) and the third angle 0 for gimbal lock;
  quaternions and rotation vectors can be converted back.
* `imread`, `av.open` and `stat` (C110, C111) are a function from paths to videos or errors; the path stored by `ExternalFile`
  denotes the file that was given; arrays of frames are stored and loaded unchanged.
* asdf stores an array as a tagged mapping with its `shape`; an `inferred_freq` of pandas describes the values of the index and
  `date_range`/`timedelta_range` create them from it (C112).
* `np.allclose` has the tolerances 1e-8 and 1e-5 and broadcasts; pandas refuses to add time stamps (C115, C116).
* `asdf.open` is a parameter; a context manager whose generator does not yield raises a RuntimeError; `iter(f, None)` ends when
  `f` raises StopIteration (C117, C118).
* `DataArray.transpose` permutes positions by the names of the dimensions, `copy(data=…)` refuses other shapes, a copy has its own
  attributes, a pandas index has no `attrs`, and pint reads the units it prints (C119, C120).
* asdf gives back arrays, numbers and mappings as they were written, except for entries that are None; the constructors of xarray
  keep values and attributes and make arrays of numbers; a pint unit is always true (C121, C122).
* pint does not wrap DataArrays (TypeError); xarray refuses coordinates whose third item is no mapping (C123, C124); numpy ignores
  the unit of time deltas in `issubdtype` (C126).
* `+=` on a list extends the object in place; `copy.deepcopy` copies every object once (C128–C130).
* `boltons.iterutils.remap` visits children before their parents, ignores keys of list items and makes dictionaries of the items of
  mappings; `Path.glob` of `**/name.yaml` gives the files with that name in some fixed order (C131, C132).
* `AsdfFile.add_history_entry` copies the software dictionary into a new entry, appends it, validates and removes it if it is
  invalid (C136); `inspect.getmembers` gives the attributes for the names of `dir(cls)` (C134).
* asdf converts the parameters in the result of `to_yaml_tree` after the call and restores `wx_metadata` of quantities; whether
  shared objects stay shared is left open (C137). `sympify(str(e))` is `e` (hypothesis of C137). The validator of
  `wx_property_tag` refuses coordinates that are no quantities (C138).
* meshio writes the points and triangles it is given and reads them again, with indices of a type of its own; what it does without
  triangles is left open (C140). Loading restores DataArrays. Values are totally ordered (no NaN) where limits are concerned.
* asdf drops None from trees and restores the other values of grooves and processes; the manifest is a list of tags; construction of
  time series from other values is an oracle (C141).
* `pd.Index` infers the kind of a list from its elements and keeps the resolution of numpy arrays from pandas 2 on (a parameter of the
  model); conversion of texts to dates and durations is an oracle; frequencies are found for three or more values at equal distances,
  calendar frequencies and time zones are left out (C142). All other models of times count nanoseconds.
* Structural equality of sympy expressions is an equality of codes, `simplify(a - b) == 0` and the free symbols of an expression are
  oracles; quantities and arrays are compared by content (`nan`, which differs from itself in a quantity, is left out). Python asks the
  right operand of `==` first if its class is derived from that of the left one, then the left one, then compares identities (C143).
* Python semantics of class statements with single inheritance: attributes are looked up along the line of bases, `__subclasses__` lists
  direct subclasses in order of definition, the source of a generator expression is evaluated when the expression is, and a generator
  can be iterated once (C145).
* `argparse`: how it classifies the arguments of a parser with one option and help, and that it reads them from left to right, gives
  help at once and reports arguments it does not know at the end; console scripts call their function without arguments, and
  `sys.argv[0]` is the name of the program (C146).
* `boltons.remap`/`get_path` on mappings, lists and strings; `IPython.display.JSON` accepts mappings and lists, reads strings as JSON
  text and refuses other values; `asdf` writes inline arrays as mappings of data, type and shape (C147).
* `pint.UnitRegistry.check` (one dimension per parameter, defaults are checked too, values are turned into quantities first) and
  `inspect.Signature.bind`; the unit parser is a parameter (C148).
* `asdf.config_context` (a copy of the configuration whose attributes can be set freely) and the keywords that `write_to` and
  `update` of asdf accept, which are a parameter; schema files on the disk are a parameter as well (C149).
* `unittest.mock.MagicMock` takes any arguments; `warnings.warn` takes integers as level only; the texts of the exceptions of
  imports are parameters (C150).
* numpy makes 64 bit types of the numbers of python (unsigned ones from 2^63), and `item` gives the same number (C151).
* Floating point numbers are idealised: exact reals instead of IEEE doubles, and
  `isclose`/`allclose` are modelled either by equality or by an explicit
  tolerance, as stated at each definition.  Nothing about rounding is claimed.
* Units (`pint`) are assumed to be already converted to the default unit except
  where a property is about units.

## 2. Conventions

* A python function that may raise is modelled by `res A := Ok a | Err exn`.
  The exception class is kept.  A mutating method returns the new state
  together with the result; if it raises after a partial mutation, the mutated
  state is returned as well.
* Dictionaries are association lists in insertion order, sets are lists compared
  by membership.
* Model files (`*Model.v`) contain only definitions.  Lemmas are in `*Facts.v`.
  The property theorems are in `*Props.v`, which contain nothing but
  theorems with short proofs, `Print Assumptions name.` below each of them, small
  `Example`s showing that hypotheses can be met, and the definitions those
  examples need.  The vocabulary of the statements that is not part of the code
  (sets, trees, being joined, moments, areas ...) is in `*Spec.v`.
* Names ending in `_refuted` are counterexamples to a claim of the
  documentation or of `properties.jsonl`; names ending in `_partial` prove part
  of the property and the comment says what is missing.

## 3. Model files

| Files | Code | Content |
|---|---|---|
| `Base.v` | | result type, exceptions, ordered dictionaries |
| `Time{Model,Spec,Facts,Props}.v` | `weldx/time.py` | `Time`: constructor, arithmetic, comparison, union, resampling, conversions |
| `Rigid*.v` | `transformations/local_cs.py`, `rotation.py`, `util/math` | static systems: constructor checks, `+`, `-`, `invert`, `from_axis_vectors` |
| `Interp*.v`, `Lin*.v` | `util/xarray.py` | `xr_interp_like`, interpolation of orientations and coordinates, step interpolation |
| `LcsTime*.v` | `transformations/local_cs.py` | time dependent systems: `+`, `-`, `invert`, `interp_time`, `reset_reference_time`, `_unify_time_axis` |
| `Csm{Model,Spec,Props}.v` with `CsmGraphFacts`, `CsmTreeFacts`, `TreeFacts`, `CsmDataFacts`, `CsmOpFacts`, `CsmSubFacts`, `CsmHistFacts`, `CsmToy` | `transformations/cs_manager.py` | graph, data and subsystems: add, delete, relabel, data, merge, unmerge, subsystems |
| `CsmGet{Model,Spec,Facts,Props}.v` with `CsmPathFacts`, `CsmPoseFacts`, `CsmRefFacts`, `CsmUnionFacts` | `transformations/cs_manager.py` | `get_cs`, `time_union`, `transform_data` |
| `Shape*.v` | `asdf/validators.py` | the shape language and `wx_shape` |
| `Meas*.v` | `measurement.py` | `MeasurementChain`, with object identity |
| `Graph*.v` | `tags/core/graph.py` | directed trees to nested dictionaries and back |
| `Mesh*.v` | `geometry.py` | triangulation of rasters |
| `Geo*.v` (`GeoShapeFacts`) | `geometry.py`, `util` | segments, shapes, reflections, rasterisation, interpolation, predicates |
| `Trace*.v` | `geometry.py` | trace segments, traces, variable profiles, rasters of geometries |
| `Groove*.v` | `welding/groove/iso_9692_1.py`, `welding/util.py` | groove classes, profiles, areas, welding speed |
| `Nested*.v` | `util/util.py`, `transformations/cs_manager.py` | `compare_nested`, `dataclass_nested_eq`, equality of managers |
| `View*.v` | `asdf/util.py`, `asdf/file.py` | `_ProtectedViewDict`, dictionary methods of `WeldxFile` |
| `WxFile*.v` | `asdf/file.py` | life of a `WeldxFile`: constructor, `sync`, `close`, `write_to`, `copy`, custom schemas |
| `Serial*.v` | `util/external_file.py`, `tags/core/file.py`, `asdf/types.py`, `asdf/util.py`, `tags/time/timedeltaindex.py` | external files, `None` removal and metadata, dataclass trees, tag versions, frequencies |
| `LcsSer*.v` | `tags/core/transformations/local_coordinate_system.py` | tree of a coordinate system, neutral parts left out, reading it back |
| `Series*.v` | `core/generic_series.py`, `util/xarray.py` | discrete series with two dimensions, evaluation of some or all of them |
| `Expr*.v` | `core/generic_series.py`, `core/math_expression.py` | expression series: partial and full evaluation, parameters, names of symbols and dimensions |
| `CsmHeap{Model,Spec,Facts,ValueFacts,SimFacts,Props}.v` | `transformations/cs_manager.py` | managers as objects that share dictionaries, subsystem records and lists |
| `CsmSer{Model,Spec,Facts,FirstFacts,Props}.v` | `tags/core/transformations/coordinate_system_hierarchy.py`, `transformations/cs_manager.py` | saving and loading managers |
| `Ts{Model,Spec,Facts,Props}.v` | `core/time_series.py`, `tags/core/time_series.py`, `tags/time/time.py` | `TimeSeries`: constructor, `interp_time`, equality, saving and loading |
| `CsmInterp{Model,Spec,Facts,TreeFacts,Props}.v` | `transformations/cs_manager.py` | `interp_time` of managers; the systems are objects that edges and callers share |
| `Tag{Model,Spec,Facts,Props}.v` | `asdf/util.py`, `asdf/validators.py` | tag patterns, `wx_property_tag`, choice of converters and tag versions |
| `UnitVal{Model,Spec,Facts,Props}.v` | `asdf/validators.py`, `asdf/util.py`, `tags/core/data_array.py` | `wx_unit`: the walk through a document, units of its values |
| `Std{Model,Spec,Facts,Props}.v` | `config.py` | quality standards, their registry and the enabled mappings |
| `Equip{Model,Spec,Facts,Props}.v` | `measurement.py` | equipment, its use in chains, data of signals, equality of chains |
| `Check{Model,Spec,Facts,SeriesFacts,Props}.v` | `util/xarray.py`, `core/generic_series.py`, `core/spatial_series.py` | checks of coordinates, constraints of derived series |
| `VarGeo{Model,Facts,Props}.v` | `geometry.py` | rasters of geometries with variable profiles and without stacking |
| `LcsNew{Model,Spec,Facts,Props}.v` | `transformations/local_cs.py` | constructor of coordinate systems: inputs, times, reference times, warnings |
| `Rot{Model,Spec,Facts,Props}.v` | `transformations/rotation.py`, `tags/core/transformations/rotation.py` | rotations from Euler angles and their converter |
| `Plane{Model,Props}.v` | `transformations/util.py` | side of a point relative to a plane, scaling |
| `Media{Model,Props}.v` | `util/media_file.py`, `tags/core/media_file.py` | media files and their converter |
| `TagShape{Model,Props}.v` | `asdf/util.py`, `shape_from_tagged` in `tags` | shapes of tagged trees |
| `Spatial{Model,Props}.v` | `core/spatial_series.py` | conversion of the arguments of `SpatialSeries` |
| `Sine{Model,Props}.v` | `welding/util.py`, `core/time_series.py` | sine series |
| `TimeXr{Model,Props}.v` | `time.py` | times in xarray objects, `all_close` |
| `Buffer{Model,Props}.v` | `asdf/file.py`, `asdf/util.py` | arguments by version of asdf, headers, file positions |
| `Coord{Model,Props}.v` | `util/xarray.py` | transposed matrices, coordinates with units |
| `VarFile{Model,Props}.v` | `tags/core/common_types.py`, `data_array.py`, `dataset.py` | saved variables, DataArrays and Datasets |
| `SeriesParam{Model,Props}.v` | `core/generic_series.py` | parameters and coordinates of series |
| `TsInit{Model,Props}.v` | `core/time_series.py`, `util/xarray.py` | arrays and arguments for `TimeSeries` (on `TsModel.v`) |
| `Share{Model,Props}.v` | `geometry.py` | list and segment objects shared by shapes, profiles and traces |
| `SchemaTree{Model,Props}.v` | `asdf/util.py` | paths and reduced trees of schema files |
| `Attr{Model,Props}.v` | `asdf/file.py` | mappings in memory, `as_attr` |
| `Doc{Model,Props}.v` | `util/util.py` | classes with MRO, `inherit_docstrings`, `deprecated`, `apply_func_by_mapping` |
| `Hist{Model,Props}.v` | `asdf/file.py` | software entries and history |
| `MathSer{Model,Props}.v` | `tags/core/mathematical_expression.py` | quantities in memory with metadata, saving and loading |
| `SeriesSer{Model,Props}.v` | `tags/core/generic_series.py`, `util/xarray.py` | free dimensions, coordinates, saving and loading |
| `Front{Model,Props}.v` | `welding/groove/iso_9692_1.py` (`FFGroove`) | profiles of all code numbers |
| `Cloud{Model,Props}.v` | `geometry.py` (`SpatialData`), `tags/core/geometry/spatial_data.py` | construction, limits, mesh files, saving and loading |
| `Kind{Model,Props}.v` | `tags/groove/iso_9692_1.py`, `tags/processes/process.py`, `welding/processes.py`, `tags/aws/process/arc_welding_process.py`, `asdf/types.py` (`format_tag`, display names) | tags and classes of grooves and processes |
| `TimeIn{Model,Props}.v` | `time.py` (`_convert_other`, `as_quantity`, `duration`), `tags/time/*.py` | inputs, resolutions, saved times |
| `Eq{Model,Spec,Props}.v` | `MathematicalExpression`, `GenericSeries`, `TimeSeries`, `LocalCoordinateSystem`: `__eq__`, `equals`, `set_parameters` | equality of objects |
| `Draw{Model,Spec,Facts,Props}.v` | `cs_manager.py`: `_get_tree_positions_for_plot`, edges of `plot_graph` | layout of the drawn graph |
| `Conv{Model,Spec,Props}.v` | `asdf/types.py`, `asdf/extension.py`, `get_weldx_extension`, `get_converter_for_tag` | converter classes and their registration |
| `Cli{Model,Spec,Props}.v` | `asdf/cli/welding_schema.py` (`main`, `parse_args`, writing) | command line of the welding example |
| `Show{Model,Spec,Props}.v` | `view_tree`, `WeldxFile.header`, `WeldxFile.info`, `_HeaderVisualizer`, session checks | showing headers and contents |
| `MakeGroove{Model,Spec,Props}.v` | `ureg_check_class`, fields, dimensions and mappings of all grooves, `get_groove` | creation of grooves |
| `Opt{Model,Props}.v` | options of `WeldxFile`: custom schemas, `_config_context`, `sync`, `close`, `write_to`, `copy` | options of files |
| `Plot{Model,Props}.v` | `check_matplotlib_available`, the replacements of `weldx_widgets`, the calls made by the `plot` methods | plotting without packages |
| `Pint{Model,Props}.v` | `PintQuantityConverter`, `PintUnitConverter` | converters of quantities and units |
| `Create{Model,Props}.v` | all arguments of `add_cs`, the methods `create_cs…` of the manager | adding and creating systems |
| `Repr{Model,Props}.v` | `__repr__` of expressions and series, `__str__` of shapes and profiles | texts |
| `Data{Model,Props}.v` | `get_data`, `get_data_system_name`, `assign_data` with the check of the name | data of managers |
| `MeshVolumeProps.v` | the meshes of `MeshModel.v` with coordinates | area and volume of meshes |

Not modelled: plotting apart from the calls of C150 (the `K3D`/`matplotlib`
backends), `tags` and `asdf` apart from the files above, schema files, the
mesh formats of `meshio`.

## 4. How the properties are modelled and proved

**Time**
* C01 – operations as a small language over `Time` values; invariant by induction on the operation list.
* C02, C03 – case analysis on the constructors, induction on the lists of moments.
* C04 – merge of sorted lists; membership and sortedness by induction, uniqueness of strictly sorted lists gives order independence.
* C05 – arithmetic progressions over `Z`; induction on the number of steps.
* C06 – false in three ways (implicit reference time, different lengths, other classes); refuted by computation, plus the strongest true statement.

**Local coordinate systems and interpolation**
* C07, C08, C09 – 3x3 matrices and vectors over `R` as records, from the orthogonality equations; time dependent systems pointwise.
* C10, C75, C76 – lists of samples with optional reference time; every statement is about the pose at a moment.
* C11, C12, C33 – recursive evaluation of sorted sample lists; induction over the list.
* C13 – at the times of the system and for constant orientation; refuted between the times.

**Coordinate system manager**
* C14 – graph as node dictionary and edge list; the invariant is that the graph is the graph of a rooted tree; induction over operation sequences incl. merge (grafting and re-rooting lemmas).
* C15, C16, C77 – poses from the tree; telescoping along the path found by the search.
* C17, C18 – flags per edge; C18 refuted, and proved under the missing guard.
* C19–C21 – subsystem records; round trip for merges; strict histories; C20, C21 refuted beyond.
* C22–C24 – subtree as set of nodes whose path to the root contains x.
* C25 – counting of names; induction over operations.
* C26 – heap of inner dictionaries, subsystem records and lists; every operation stays inside a closed region of the heap, and the model without sharing is a view of the heap.
* C27, C28, C31 – relabelling, failing operations, reference time selection.
* C29 – built on the graph converter (C32); the written graph is shown to be a tree by counting its edges, the loaded one to satisfy the invariant of C14.
* C30 – `__eq__`.
* C32 – rose trees from graphs; induction over the tree.

**Series, measurement, validation, files**
* C34, C35 – sample lists; expressions as functions of environments.
* C86–C89 – the value of a series at a moment as a relation; interpolation and the converter are compared with it.
* C90, C91 – the manager holds addresses of coordinate systems. Both loops are followed edge by edge with an
  invariant: old objects are unchanged or dated, every defined edge has a system with the same poses at the requested
  moments, and everything but the addresses is unchanged. `view` replaces addresses by systems, so that the tree
  invariant (C14) and the poses of `get_cs` (C30) can be reused for the statements.
* C36–C39 – chain graph with object identities; invariants by induction over calls.
* C40–C42 – executable validator against a declarative matching relation.
* C43 – executable comparison against structural equality.
* C44 – any hash given by a step function on bytes (fold); the digest itself is opaque.
* C45–C47, C51, C52 – trees, strings and dictionaries.
* C48, C50 – the view commutes with the operations of a plain dictionary.
* C49, C82–C85 – world of files and shared keyword dictionaries; inversion of the constructor.
* C92, C93 – the matcher follows pattern and text; it is compared with an inductive relation by induction on the
  length of the pattern. The stable sort is shown to be a permutation whose last element is above all others.
* C94 – generators are lists of reports with an optional exception. Soundness, completeness and termination
  without exception are three inductions over the validation dictionary; units by induction over the document.
* C95 – invariants of the loop over the files: name, highest version and entry of each version in terms of the
  last file with that version; the mappings follow from lookup after insertion.
* C96 – the registry is a dictionary with the lookup-after-insertion law; loading is a fold over the concatenated results.
* C97, C98 – a layer above the chains of C36-C39: their effect relation is reused, the attribute "equipment" of the edges
  is kept beside the graphs. The invariant relates it to the history of the calls (`EquipFacts.inv`).
* C99 – mapping and set comparison unfolded for trees with unique names.
* C100 – the checks in the order of the code; acceptance and errors are specified separately (`coord_ok`, `coord_fails`).
* C101 – the order of a python set is a parameter; the result does not depend on it except for the kind of the error.
* C102 – the constructor with its two test evaluations. The lengths i+2 and i+3 of the test arrays imply that free
  dimensions are separate from all others (`CheckSeriesFacts.param_dim_clash`).
* C103 – the loop over the locations on top of the traces and variable profiles of C62 and C64; the sections are kept apart
  and put together by the theorem about `rasterize`.
* C104 – one array for each shape; related to the stacked raster by a transposition of lists.
* C105 – constructor branch by branch on top of the model of `Time` (C01 ff.) and of data arrays with times; orientations,
  positions and units of any type. An equivalence describes all systems made from plain arrays.
* C106 – same model; the points in time before and after are compared, so that a changed reference time does not matter.
* C107 – rotations are their matrices; sequences are strings as in the code, angles arrays of 0, 1 or 2 dimensions.
* C108 – the converter with SciPy's functions as parameters. The completed sequence of three axes is compared with the
  original one by the entries of a row or column of the matrices (`RotFacts.key`).
* C109 – points are triples of reals; the side is compared with the scalar product with the normal and with the winding of the
  projected triangle.
* C110 – frames are of any type; times are computed by `linspace` as in the code.
* C111 – the tree is a record of the stored entries; fractions of streams are pairs of integers, NaN is `None`.
* C112 – objects are their kinds and shapes, trees have the entries that the converters write. The length of a range with a
  constant step is computed; offsets of dates are a parameter.
* C113 – the functions give back the dictionaries of the caller, so that changes (also before an error) are visible.
* C114 – quantities are values in base units with a dimension; the check of the constructor is part of `sine`.
* C115 – arrays are the kind and values of their time coordinate with the attribute for the reference time.
* C116 – values in nanoseconds, so the comparison with tolerances is exact integer arithmetic.
* C117 – versions are texts, compared as tuples of texts like in the code; the dictionary of the caller is part of the result.
* C118 – contents are texts, handles have a position; lines are read one by one. Decoding and parsing are left out.
* C119 – arrays are functions of lists of positions; the transposition goes by names like in xarray, the theorems by positions.
* C120 – the attribute for the unit is absent, a text or an object; pint is a pair of functions for reading and printing.
* C121, C122 – arrays are dtype, shape and numbers; the dtype of the python number made of a scalar is a parameter. Loading uses
  the dictionary comprehensions of the code.
* C123, C124, C125 – inputs are parameters, tuples, quantities, arrays or other objects; pint's conversion is a parameter. The third
  item of coordinate tuples is a mapping, a unit or nothing, and xarray's reaction to it is part of the model.
* C126 – arrays are dimensions, dtypes of coordinates and whether the data is a quantity.
* C127 – about the constructor in `TsModel.v` (C86).
* C128, C129, C130 – a memory of list objects and segment objects; a shape is the reference of its list. Methods of segments are
  parameters that give the new value and possibly an exception. Statements are about the cells of the memory before and after.
* C131, C132 – files are paths, loaded schemas are trees of texts, mappings and lists; `remap` and the visitors are modelled one by
  one. The theorem about trees is for schemas of objects whose properties have one tag, reference or type.
* C133 – memory of mapping objects with items and attributes; induction over the nesting for a relation between mappings and
  their wrappers (`mirror`), read off for paths of keys.
* C134, C135 – classes are dictionaries with an MRO, objects have a documentation; induction over the parents and the names.
* C136 – memory with dictionaries, entries and lists; the validation is an argument.
* C137 – memory of quantity objects; the state after saving is characterised by the last array that uses an object.
* C138 – both loops in closed form (`save_acc`, `load_acc`), combined with `init_expression` of C102; coordinates with
  `series_coord` of C124.
* C139 – workpieces are convex hulls of their corners; the distance by a separating direction and a closest pair of points.
* C140 – DataArrays are functions of one index per dimension name, so that transposition only reorders names; memory order by
  nested enumeration (`flat`), points of files by blocks of three.
* C141 – strings with `rpartition` and `in` by recursion; accepted tags characterised with the theorems on patterns (C92).
* C142 – elements of lists by kind, indices as counts of a unit; `TimeModel` for everything after the conversion.
* C143 – objects as records with codes for arrays and expressions, dictionaries compared by `compare_nested` of `NestedModel`; the
  dispatch of `==` as a function of the methods of both operands.
* C144 – the loops with rational coordinates; the specification places each child in its share of the strip of the parent, and the
  geometry follows from the nesting of the strips. The calls of networkx and matplotlib are left out.
* C145 – class statements as records, classes as a list of resolved attributes; the two wrappers are shown to be idempotent, so the
  chain of wrapped methods reduces to one wrapper around the nearest method.
* C146 – arguments as classes of tokens, files as byte lists; the accepted arguments are given by a grammar, the parser is shown to
  accept exactly these.
* C147 – headers as tagged trees; paths are given meaning by a relation (`reaches`), which `get_path` is shown to decide, and untagging
  is shown to commute with every step of a path.
* C148 – the tables of the twelve classes are transcribed and checked by computation; binding of arguments is given by an inductive
  relation, which the model is shown to decide.
* C149 – the calls of asdf are events with the options they get; the dictionaries of the caller are addresses, since the constructor
  changes them. The theorems say what the events of each method are, in terms of the given options only.
* C150 – calls of the optional packages and warnings are events; the parameters of a method are a function from names to values,
  and the theorems say for every keyword of the call which value it gets.
* C151 – formatting and parsing of units are parameters; the theorems assume that one unit is read from its own format. Tags are
  compared as texts by a sort that is written out.
* C152 – the graph of `CsmModel` with the arguments before they are resolved; consistency of reference times is stated with the
  given systems of the manager, and the theorems say which entries of the graph are new.
* C153 – the texts are built as in the code, `replace` included; the theorems give the list of their lines. The texts of numbers,
  arrays and units are parameters of one line.
* C154 – on top of `CsmModel.v`; `transform_data` is an arbitrary function, and the one of `CsmGetModel.v` in `c154_static_points`,
  which uses C16 and that the nodes' data do not influence the transformations.
* C155 – areas are sums of cross products, volumes sums of determinants over the triangles of `MeshModel.v`; the ends by induction
  over the loop of `_shape_front_back_triangles`, the sides quad by quad. The raster is an arbitrary function from indices to points.

**Geometry and grooves**
* C53, C54 – explicit edge multiset of the triangle list; induction over points and profiles.
* C55–C61, C66, C74 – plane geometry over `R`; tolerances of `numpy.isclose` are kept.
* C62–C65, C79–C81 – the trace is compared with a path walked along lines and bends (`path_pose`), induction over the pieces; raster counts from `np_round`.
* C67–C72, C78 – profiles as lists of segments; areas by the shoelace formula of the raster polygon.
* C73 – field arithmetic.

## 5. Status

The column "Axioms" uses the letters of section 1.

<!-- table -->
| Id | Title | Status | Axioms | Remarks |
|---|---|---|---|---|
| C01 | Time values are always non-decreasing | proved, 3 theorems in TimeProps.v | none | Programs built from all public operations, including assignments to reference_time. |
| C02 | Arithmetic keeps moments and reference times consistent | proved, 6 theorems in TimeProps.v | none | Proved for objects as returned by the constructor and all operations; refuted after an assignment to reference_time of a time delta (c02_delta_delta_after_assignment_refuted). |
| C03 | Time deltas plus reference time reproduce the moments | proved, 5 theorems in TimeProps.v | none | Moments and reference time survive as_timedelta plus reference_time. Through as_quantity (or a DataArray) the moments survive; the reference time becomes the first moment (c03_quantity_reference), so it is kept exactly if it was the first moment. Conversion of units is exact in the model. |
| C04 | Time.union is the sorted set union | proved, 5 theorems in TimeProps.v | none | Also with duplicates (largest multiplicity). pandas Index.union is modelled as sorted merge. |
| C05 | Time.resample keeps the boundaries | proved, 3 theorems in TimeProps.v | none | linspace is exact integer division with truncation in the model; the claim of equal steps holds up to less than one nanosecond. |
| C06 | Time.equals tests time values and reference_time | proved, 9 theorems in TimeProps.v | none | c06_equals_exact covers any two non empty times. The docstring's reading (equal values and public reference times) is refuted three times: implicit reference time, different lengths raise, a scalar equals a constant index. |
| C07 | Rigid transformations form a group under + and invert | proved, 11 theorems in LcsTimeProps.v, RigidProps.v | ABC | Static systems: full algebra. Time dependent systems: +, -, invert pointwise in time, with all reference time combinations; Slerp is an oracle that is exact at samples, keeps orthonormality and is invariant under shifts of time. |
| C08 | Orientations stay orthonormal and handedness multiplies | proved, 5 theorems in LcsTimeProps.v, RigidProps.v | ABC | All expressions over exactly orthonormal systems, also in time; refuted for systems that only pass the numpy tolerance. |
| C09 | from_axis_vectors with two axes builds a right handed system | proved, 3 theorems in RigidProps.v | ABC | Each omitted axis, three axes, too few axes. |
| C10 | Resetting the reference time keeps the moments | proved, 5 theorems in LcsTimeProps.v | AC | Discrete systems; for coordinates given by an expression the claim is refuted (c10_expression_refuted). |
| C11 | Linear interpolation reproduces samples, is bounded and constant outside | proved, 7 theorems in InterpProps.v | AC | For every interpolation segment that is exact at its ends (linear, Slerp as oracle); union of times, fill and selection of xarray are modelled. Without fillna, values outside the range are missing (c11_no_fill). |
| C12 | Resampling to a finer grid never changes the interpolated motion | proved, 3 theorems in InterpProps.v | AC | Two step interpolation equals direct interpolation if the intermediate grid contains the samples in range; a coarse grid is refuted (c12_coarse_refuted). |
| C13 | get_cs(a,b,time) and get_cs(b,a,time) are inverse at every time | proved, 2 theorems in CsmGetProps.v | ABC | holds at the times of the system, outside of them and for constant orientations and expressions (c13_inverse); refuted between the times of a rotating system for every spherical interpolation (c13_between_refuted) |
| C14 | The coordinate system graph is always a tree | proved, 2 theorems in CsmProps.v | none | For all managers reachable by add_cs, delete_cs, merge, assign/delete_data, remove_subsystems, unmerge and extraction of subsystems. |
| C15 | Static transformations are path independent | proved, 2 theorems in CsmGetProps.v | ABC | static managers; the scipy Slerp is an oracle that is not used for static systems |
| C16 | transform_data is consistent and invertible | proved, 1 theorems in CsmGetProps.v | ABC | points without time in static managers |
| C17 | add_cs keeps reference times all-or-none | proved, 3 theorems in CsmProps.v | none | All or none after all sequences of add_cs/delete_cs; mixing is rejected; the only rejected calls are mixing ones. Replacing the only time dependent system is judged by the old system (example c17_ex_update). |
| C18 | merge keeps reference times all-or-none | proved, 2 theorems in CsmProps.v | none | Proved outside the unguarded case; the unguarded case is refuted by c18_merge_refuted. |
| C19 | merge then unmerge restores both managers | proved, 4 theorems in CsmProps.v | none | One and many merges into a manager without subsystems; refuted for the subsystem list otherwise. |
| C20 | Systems added after merging are not lost by unmerge | proved, 2 theorems in CsmProps.v | none | Own systems kept; systems below a subsystem member are lost (refuted). |
| C21 | unmerge returns each merged manager's own data | proved, 2 theorems in CsmProps.v | none | Under the strict history; refuted otherwise. |
| C22 | delete_cs removes exactly the subtree | proved, 3 theorems in CsmProps.v | none | For all reachable managers. |
| C23 | Surviving subsystems stay intact after delete_cs | proved, 2 theorems in CsmProps.v | none | For all reachable managers, including nested subsystems. |
| C24 | delete_cs drops only affected subsystems | proved, 2 theorems in CsmProps.v | none | For unique subsystem names; refuted for equal names. |
| C25 | Data names are globally unique | proved, 5 theorems in CsmProps.v | none | Includes stability of data under all operations but deletion. |
| C26 | Merged managers are independent objects | proved, 13 theorems in CsmHeapProps.v | none | heap model of the inner data dictionaries, records and lists of records. False: data assigned or deleted in a merged manager at a system of the other one changes the other one, extracted instances included, and back (c26_*_refuted); a data name can so be used twice; a root-only manager merged into itself contains itself. True: managers without common objects never change each other (c26_separate), data at own systems and at the common one is not shared (c26_own), and seen from one manager the model without sharing is exact (c26_value_model). relabel is not in the heap model |
| C27 | relabel renames and nothing else | proved, 3 theorems in CsmProps.v | none | Single renaming. Renaming to an existing name refuted. |
| C28 | Failed operations leave the manager unchanged | proved, 2 theorems in CsmProps.v | none | All operations; delete_data refuted for stale records. |
| C29 | Saving and loading a manager keeps it | proved, 6 theorems in CsmSerProps.v | none | refuted as first stated: a manager with its root only can not be saved, one with an expression can be saved but not loaded, and renamed or extracted managers get another root (c29_*_refuted). True: all else is the same (c29_round_trip), root included for managers that were built without renaming the root (c29_root). The values of transformations and data after writing and reading are oracles, see C52; the order of sets too |
| C30 | Manager equality is symmetric and sound | proved, 6 theorems in NestedProps.v | none | reflexive, sound and complete; symmetric if both managers have subsystems or none has any. Symmetry is refuted for a manager without subsystems, and the root is not compared |
| C31 | Reference time of the system returned by get_cs follows the documented table | proved, 5 theorems in CsmGetProps.v | ABC | the rows with a reference time of the function or the manager are as documented; the rows 'CS (lowest)' are refuted: deltas raise TypeError, without time the first time of the union is the reference time |
| C32 | Directed trees survive the DiGraph converter | proved, 5 theorems in GraphProps.v | none | every directed tree with string names, from every start node, through the file; nx.is_tree is an oracle. Without a file in between build_graph(build_tree(g)) always raises (c32_direct_refuted); attributes named like the parameters of add_node cannot be loaded |
| C33 | Step interpolation returns the last sample at or before the time | proved, 2 theorems in InterpProps.v | none | Step interpolation holds the last value; before the first sample the first value. |
| C34 | Evaluating a series keeps its interpolation method | proved, 7 theorems in SeriesProps.v | AC | two dimensions; the original claim is refuted (c34_method, c34_refuted): the interpolation method is lost |
| C35 | Partial evaluation of expression series is order independent | proved, 9 theorems in ExprProps.v | none | any number of variables; value independent of order and grouping; coordinates, single values and symbols in place of dimensions are refuted (c35_*_refuted) |
| C36 | Measurement chains are trees rooted at the source | proved, 7 theorems in MeasProps.v | none | all sequences of add_transformation, create_transformation and add_signal_data, failing calls included |
| C37 | Signals along a chain are type and unit consistent | proved, 6 theorems in MeasProps.v | none | types and units along every edge; with a function the requested unit is only checked for compatibility and not used (c37_create_func_refuted), and only the first letter of the requested type is used (c37_type_text_refuted) |
| C38 | Measurement chains survive serialisation | proved, 3 theorems in MeasProps.v | none | from_dict(to_dict(c)): content for all chains, default input for chains with one leaf; refuted for branched chains (c38_branched_refuted). The file round trip of the graph is C32. |
| C39 | Chains do not share data | proved, 4 theorems in MeasProps.v | none | for chains without common objects; refuted for chains of the same source and for from_dict(to_dict(c)), which shares the graph |
| C40 | Shape validation implements the documented pattern language | proved, 6 theorems in ShapeProps.v | none | accepts exactly the matching shapes (ASCII strings, no blanks) and refuses lists in the wrong order; None as wildcard and the missing named dimension are refuted |
| C41 | The range comparison returns a bool for each well formed range | proved, 5 theorems in ShapeProps.v | none | for closed intervals and numbers within open ones; an interval without upper limit raises below it (refuted for every such number) |
| C42 | Every expected key is validated | proved, 3 theorems in ShapeProps.v | none | if all expected keys are present; refuted for missing keys, the validation stops there; a conflict of names in a nested dictionary is a TypeError |
| C43 | compare_nested is an equivalence relation on nested structures | proved, 16 theorems in NestedProps.v | none | exactly one characterisation of True (c43_exact); reflexive, sound and complete under the stated conditions. Symmetry, transitivity and the check of all keys are refuted: empty containers and falsy keys are not compared |
| C44 | Hashing a file in chunks equals hashing its content | proved, 8 theorems in SerialProps.v | none | for every hash object that is fed byte by byte (parameter); chunk size zero and the second save are refuted (c44_zero_refuted, c44_resave_refuted) |
| C45 | Metadata and structure survive to_yaml_tree | proved, 9 theorems in SerialProps.v | none | for all trees of None, leaves, lists and dictionaries; length of lists and metadata of Nones are refuted |
| C46 | Serialising a dataclass does not change it | proved, 5 theorems in SerialProps.v | none | exact condition; the original claim is refuted (c46_refuted): the lists of the object are sorted in place |
| C47 | The highest tag version is selected | proved, 9 theorems in SerialProps.v | none | release numbers only, no pre-releases; two bases are accepted if one is a prefix (c47_base_refuted), select_tag compares strings (c47_select_refuted) |
| C48 | Protected file entries cannot be changed through the view | proved, 4 theorems in ViewProps.v | none | all operation sequences without clear, or if all protected keys exist; clear is refuted otherwise: it raises KeyError and drops protected entries. Iteration order of sets is a parameter |
| C49 | copy and write_to respect overwrite=False | proved, 5 theorems in WxFileProps.v | none | holds for files that are no ASDF files; refuted for existing ASDF files, which copy overwrites in any case |
| C50 | WeldxFile behaves like a dict | proved, 6 theorems in ViewProps.v | none | effects of all methods, answers of all but setdefault, which returns nothing (c50_setdefault_refuted); get never raises although documented; popitem returns any item |
| C51 | TimedeltaIndex frequency aliases survive | proved, 6 theorems in SerialProps.v | none | for fixed frequencies; anchored weeks and empty indexes are refuted. inferred_freq and the reading of frequencies by pandas are parameters |
| C52 | LocalCoordinateSystem survives serialisation | proved, 9 theorems in LcsSerProps.v | ABC | exact condition; resting systems with a time axis, rotations in place, displacements below 1e-8 and left over scalar times are refuted (c52_*_refuted) |
| C53 | Triangulated closed raster is watertight | proved, 2 theorems in MeshProps.v | none | For every list of blocks with at least 2 profiles and 3 points each; the winding flag is a parameter of the model. |
| C54 | Triangle indices are valid and blocks are disjoint | proved, 4 theorems in MeshProps.v | none | Ranges, use of all points, triangle count and, for the open mesh, the boundary edges. |
| C55 | Rasterising a shape repeats no point | proved, 3 theorems in GeoProps.v | ABC | the raster is the concatenation of the segment rasters without their last points plus the end of an open shape; closed shapes are recognised only if the start lies on the diagonal (comparison of arrays of shapes (2,1) and (2,)), refuted otherwise |
| C56 | Segment rasters start and end at the segment's end points | proved, 5 theorems in GeoProps.v | ABCD | number of points, equal distances, bound of the effective width; the docstring's 'closest possible width' is refuted |
| C57 | Arc segments stay on their circle and meet both end points | proved, 4 theorems in GeoProps.v | ABCD | arc length integral modelled as radius times angle; full circles are refused (c57_full_circle) |
| C58 | construct_with_radius finds the requested circle | proved, 4 theorems in GeoProps.v | ABCD | a radius below half the distance is silently enlarged (c58_small); equal points are refused |
| C59 | Reflections are involutive isometries fixing the line | proved, 5 theorems in GeoProps.v | ABCD | for exact real arithmetic, any non-zero normal / any two different points |
| C60 | Shapes stay connected | proved, 6 theorems in GeoProps.v | ABCD | all reachable shapes; connectivity is not translation invariant because of the relative tolerance, and a failing transformation leaves a broken shape (both refuted) |
| C61 | Line interpolation runs between its inputs | proved, 4 theorems in GeoProps.v | ABCD | end points, affine dependence, connectivity; the mean of opposite lines raises ValueError (refuted) |
| C62 | Traces are continuous | proved, 8 theorems in TraceProps.v | ABCD | all lists of straight lines and bends; the arc length integral is an oracle that is right for constant functions. Dynamic segments that do not start at the origin jump (c62_dynamic_refuted) |
| C63 | Radial trace segments follow a circle | proved, 2 theorems in TraceProps.v | ABC | arc length integral as oracle |
| C64 | VariableProfile returns the given profiles at their locations | proved, 7 theorems in TraceProps.v | ABCD | any schemes that are exact at the weights 0 and 1, the linear one for straight lines; a single profile can not be evaluated (c64_single_refuted), arcs can not be interpolated (c64_arc_refuted) |
| C65 | Geometry trace raster covers the trace | proved, 2 theorems in TraceProps.v | AC | exact real arithmetic; np.arange has ceil(stop/step) entries |
| C66 | has_cw_ordering is determined by the signed area | proved, 5 theorems in GeoProps.v | AC | sign of the signed area; for closed lists, refuted for open ones |
| C67 | cross_sect_area equals the closed form of the gap | proved, 6 theorems in GrooveProps.v | ABCD | closed forms for I, V, HV and DV for every drawing width; a VV-Groove with root face has too small an area, by (s1+s2)*c (c67_VV_refuted). Polygon area as shoelace formula, units as numbers |
| C68 | Groove faces have the specified angles | proved, 4 theorems in GrooveProps.v | ABCD | V, DV and VV without root face; VV with root face is refuted: the kink is at height h+c instead of h |
| C69 | Every consistent DUGroove has a profile | proved, 2 theorems in GrooveProps.v | ABCD | for c = 0 or h1 = h2; refuted otherwise, ValueError from the arc |
| C70 | Negative parameters are rejected | proved, 3 theorems in GrooveProps.v | AC | all single sided grooves; refuted for the double sided ones, which override __post_init__ without calling the check |
| C71 | Default heights fill the thickness | proved, 4 theorems in GrooveProps.v | AC | if both heights are omitted; refuted if only one is given, it is copied to the other |
| C72 | Both sides of a double sided groove extend equally and the area is the gap area | proved, 4 theorems in GrooveProps.v | ABCD | the area of the DHV-Groove is right for every width; equal extents are refuted when the width is enlarged. DHU: widths only, its area is a raster approximation |
| C73 | Welding speed balances the filler volume | proved, 4 theorems in GrooveProps.v | ABCD | exact real arithmetic; area zero is modelled as exception |
| C74 | Orientation predicates are consistent | proved, 7 theorems in GeoProps.v | ABC | exact real arithmetic |
| C75 | interp_time keeps the pose at every requested moment | proved, 5 theorems in LcsTimeProps.v | ABC | Discrete systems and expressions. |
| C76 | A time independent system on the left of + takes over the times of the right system | proved, 2 theorems in LcsTimeProps.v | ABC | For left systems without left over scalar time; refuted for those (c76_static_left_refuted). |
| C77 | get_cs composes the stored systems pointwise in time | proved, 2 theorems in CsmGetProps.v | ABC | get_cs with explicit times and with the union of the times on the path |
| C78 | Arcs and bevels of U-, HU- and UV-Grooves | proved, 5 theorems in GrooveProps.v | ABCD | exact real arithmetic |
| C79 | Trace.rasterize gives points of the trace | proved, 2 theorems in TraceProps.v | ABCD | traces of straight lines and bends, exact real arithmetic |
| C80 | Positions outside of a trace | proved, 3 theorems in TraceProps.v | ABC | behind a straight end and for bends; refuted in front of a straight start, where the heading is reversed |
| C81 | Cross sections of a geometry are congruent to the profile | proved, 2 theorems in TraceProps.v | ABC | constant profiles, stacked result |
| C82 | A WeldxFile is in sync with its file | proved, 6 theorems in WxFileProps.v | none | ASDF files read back as the tree that was written (library behaviour, assumed); an empty tree does not replace the content (c82_empty_refuted) |
| C83 | Custom schemas validate what they are given for | proved, 5 theorems in WxFileProps.v | none | one schema for both purposes; with two schemas an opened file is written with the schema for reading (c83_opened_refuted) |
| C84 | copy keeps content and settings | proved, 5 theorems in WxFileProps.v | none | one schema; with two schemas the copy gets one for both purposes, and a shared dictionary of keyword arguments carries schemas over |
| C85 | A failing constructor changes no existing file | proved, 3 theorems in WxFileProps.v | none | existing files are kept; a new file that fails validation is left empty and blocks a second attempt (c85_trace_refuted) |
| C86 | Interpolating a time series keeps its values at the requested moments | proved, 7 theorems in TsProps.v | none | any segment function exact at its end points, any expression; times and values of one kind, or constant series. Conversion of units and the checks of _init_expression are not modelled |
| C87 | Reference time of an interpolated time series | proved, 3 theorems in TsProps.v | none | exact result for discrete values and expressions; that an absolute series stays absolute is refuted for discrete values (c87_lost_refuted) |
| C88 | Saving and loading a time series keeps its values | proved, 6 theorems in TsProps.v | none | exact for discrete series with two or more values and for expressions without reference time; constants lose their time and expressions their reference time (c88_*_refuted) |
| C89 | Equal time series have equal values | proved, 5 theorems in TsProps.v | none | discrete values; expressions need equal reference times, which the comparison ignores (c89_expression_refuted) |
| C90 | Interpolating a manager in time keeps the poses at the requested moments | proved, 6 theorems in CsmInterpProps.v | ABC | exact numbers; spherical interpolation is a parameter. Tree property of the result: for all systems at once or managers without reference time (c90_tree). Four parts refuted (c90_*_refuted): time deltas with a dated manager, the root as affected system, no times with expressions, shared objects |
| C91 | Interpolating a copy of a manager leaves all existing objects unchanged | proved, 3 theorems in CsmInterpProps.v | ABC | heap of coordinate systems; holds for failing calls too. In place the caller's systems get the reference time of the manager (c91_caller_refuted) |
| C92 | Tag patterns and the validation of property tags | proved, 6 theorems in TagProps.v | none | asdf.util.uri_match as documented; untagged values pass (c92_untagged_refuted) |
| C93 | A pattern selects the first converter and the highest matching tag | proved, 5 theorems in TagProps.v | none | total order of versions and the parser of versions are parameters. Several bases can match if they continue that of the highest version (c93_bases_refuted); complements C47 by patterns and order |
| C94 | Unit validation reports exactly the values with a wrong or without unit | proved, 8 theorems in UnitValProps.v | none | any unit registry in which compatibility is equality of dimensions; missing values and unreadable expectations: c94_*_refuted |
| C95 | The content of a quality standard | proved, 8 theorems in StdProps.v | none | versions with parser and total order are parameters; file texts opaque. Two manifests of one version and no manifests: c95_order_refuted, c95_latest_refuted |
| C96 | Registering, loading and enabling quality standards | proved, 7 theorems in StdProps.v | none | the asdf configuration is the list of mappings passed to it; c96_atomic_refuted and c96_replace_refuted are the false variants |
| C97 | Sources and transformations of measurement equipment are chosen by name | proved, 7 theorems in EquipProps.v | none | errors (deviations) left out. The name given with a single source or transformation is ignored: c97_name_refuted |
| C98 | A chain knows the equipment and the data of its signals | proved, 5 theorems in EquipProps.v | none | equipment as value; the history of a chain is part of the statement (ebuilt) |
| C99 | Equality of measurement chains | proved, 3 theorems in EquipProps.v | none | NodeView of networkx compares as mapping, OutEdgeView as set (trusted); hence c99_transformations_refuted |
| C100 | xr_check_coords accepts exactly the coordinates that fulfil the reference | proved, 9 theorems in CheckProps.v | none | parsers of numpy and pint are parameters. Refuted parts: c100_values_refuted, c100_units_refuted, c100_resolution_refuted |
| C101 | Discrete series fulfil the constraints of their class | proved, 5 theorems in CheckProps.v | none | the order of python sets is a parameter that permutes |
| C102 | Expression series fulfil the constraints of their class | proved, 10 theorems in CheckProps.v | none | assumes that xarray refuses arrays of different lengths without coordinates along one dimension (hypothesis arrays_clash, met by toy_arrays). Refuted parts: c102_renamed_refuted, c102_coordinates_refuted |
| C103 | A geometry with a variable profile shows the local profile in every section | proved, 6 theorems in VarGeoProps.v | ABC | traces of lines and bends (walk). Refuted parts: c103_single_refuted, c103_stack_refuted |
| C104 | Rasters with and without stacking contain the same points | proved, 3 theorems in VarGeoProps.v | ABC | over all traces of the model; profiles without shapes are left out |
| C105 | A coordinate system stores the given arrays at the given times | proved, 8 theorems in LcsNewProps.v | none | refuted part: c105_warning_refuted |
| C106 | A coordinate system made from data arrays or time series keeps their points in time | proved, 8 theorems in LcsNewProps.v | none | refuted part: c106_same_deltas_refuted (the theorem also states what is stored instead) |
| C107 | Rotations from Euler angles respect units and sequences | proved, 11 theorems in RotProps.v | ABC | over exact reals |
| C108 | Saved rotations are loaded as the same rotations | proved, 3 theorems in RotProps.v | ABC | refuted part: c108_two_axes_refuted; the witness for SciPy's angles is ex_euler |
| C109 | Side of a point relative to a plane | proved, 8 theorems in PlaneProps.v | ABC | refuted parts: c109_collinear_refuted, c109_clockwise_refuted; over exact reals |
| C110 | Times of the frames of media files | proved, 9 theorems in MediaProps.v | AC | refuted part: c110_frame_time_refuted; over exact reals |
| C111 | Saved media files are loaded as the same media files | proved, 7 theorems in MediaProps.v | AC | refuted part: c111_nframes_refuted; over exact reals |
| C112 | Shapes read from tagged trees are the shapes of the objects | proved, 6 theorems in TagShapeProps.v | none | refuted parts: c112_time_refuted, c112_key_refuted, c112_list_refuted, c112_empty_refuted; inferred frequencies are assumed to describe the values |
| C113 | Arguments of SpatialSeries | proved, 9 theorems in SpatialProps.v | none | refuted parts: c113_arguments_refuted, c113_parameters_refuted |
| C114 | Sine series | proved, 6 theorems in SineProps.v | ABCD | refuted part: c114_formula_refuted; over exact reals |
| C115 | Times in xarray objects | proved, 7 theorems in TimeXrProps.v | none | refuted parts: c115_reference_refuted, c115_stamps_refuted |
| C116 | Comparison of times with tolerances | proved, 8 theorems in TimeXrProps.v | none | refuted parts: c116_symmetric_refuted, c116_transitive_refuted, c116_length_refuted, c116_second_refuted |
| C117 | Arguments for opening files depend on the version of asdf | proved, 10 theorems in BufferProps.v | none | refuted parts: c117_order_refuted, c117_arguments_refuted, c117_weldx_refuted |
| C118 | Headers of files | proved, 8 theorems in BufferProps.v | none | refuted parts: c118_mark_refuted, c118_position_refuted, c118_reset_refuted; decoding and parsing are not modelled |
| C119 | Transposition of matrices in arrays | proved, 8 theorems in CoordProps.v | none | refuted part: c119_swap_twice_refuted |
| C120 | Coordinates with units | proved, 12 theorems in CoordProps.v | none | refuted parts: c120_roundtrip_refuted, c120_indexes_refuted, c120_empty_refuted; reading back a printed unit is a hypothesis of c120_dequantify and c120_texts |
| C121 | Saving and loading variables | proved, 8 theorems in VarFileProps.v | none | refuted parts: c121_again_refuted, c121_attrs_refuted |
| C122 | Saving and loading DataArrays and Datasets | proved, 5 theorems in VarFileProps.v | none | refuted parts: c122_name_refuted, c122_dtype_refuted |
| C123 | Parameters of series | proved, 7 theorems in SeriesParamProps.v | none | refuted parts: c123_given_refuted, c123_scalar_refuted, c123_unit_refuted |
| C124 | Coordinates of discrete series | proved, 4 theorems in SeriesParamProps.v | none | refuted part: c124_array_refuted |
| C125 | Parameters of expression series | proved, 4 theorems in SeriesParamProps.v | none | refuted parts: c125_number_refuted, c125_names_refuted |
| C126 | Arrays accepted by TimeSeries | proved, 5 theorems in TsInitProps.v | none | refuted parts: c126_check_refuted, c126_unit_refuted |
| C127 | Construction of discrete time series | proved, 8 theorems in TsInitProps.v | none | refuted parts: c127_ignored_refuted, c127_rebuild_refuted |
| C128 | Shapes and lists of segments | proved, 6 theorems in ShareProps.v | none | refuted part: c128_list_refuted |
| C129 | Transformations of shared segments | proved, 9 theorems in ShareProps.v | none | refuted parts: c129_linked_refuted, c129_twice_refuted, c129_exception_refuted |
| C130 | Lists of profiles and traces | proved, 5 theorems in ShareProps.v | none | refuted part: c130_trace_refuted |
| C131 | Paths of schema files | proved, 4 theorems in SchemaTreeProps.v | none | refuted part: c131_name_refuted |
| C132 | Names of properties in schema trees | proved, 7 theorems in SchemaTreeProps.v | none | refuted parts: c132_optional_refuted, c132_type_refuted, c132_lost_refuted |
| C133 | Attributes of files | proved, 10 theorems in AttrProps.v | none | refuted parts: c133_change_refuted, c133_follow_refuted, c133_same_refuted |
| C134 | Inherited documentation | proved, 8 theorems in DocProps.v | none | refuted parts: c134_first_refuted, c134_blank_refuted, c134_own_refuted |
| C135 | Deprecated functions and functions for keys | proved, 4 theorems in DocProps.v | none |  |
| C136 | History entries of files | proved, 10 theorems in HistProps.v | none | refuted parts: c136_valid_refuted, c136_shared_refuted, c136_entry_refuted |
| C137 | Saved mathematical expressions | proved, 9 theorems in MathSerProps.v | none | refuted parts: c137_unchanged_refuted, c137_metadata_refuted, c137_shared_refuted |
| C138 | Saved series | proved, 9 theorems in SeriesSerProps.v | none | refuted parts: c138_equal_refuted, c138_loadable_refuted |
| C139 | Profiles of grooves at plate fronts | proved, 11 theorems in FrontProps.v | ABCD | refuted parts: c139_gap_refuted, c139_overlap_refuted |
| C140 | Point clouds | proved, 25 theorems in CloudProps.v | none | refuted parts: c140_dimension_refuted, c140_components_refuted, c140_units_refuted, c140_indices_refuted, c140_range_refuted, c140_labels_refuted |
| C141 | Tags and classes of grooves and welding processes | proved, 18 theorems in KindProps.v | none | refuted parts: c141_default_refuted, c141_supported_refuted, c141_tag_refuted, c141_abbreviation_refuted |
| C142 | Inputs of Time, resolutions and saved times | proved, 24 theorems in TimeInProps.v | none | refuted parts: c142_empty_refuted, c142_setter_refuted, c142_array_refuted, c142_index_refuted |
| C143 | Equality of expressions, series and coordinate systems | proved, 27 theorems in EqProps.v | none | refuted parts: c143_symmetric_refuted, c143_method_refuted, c143_reference_refuted, c143_set_refuted |
| C144 | Drawing of the graph of a coordinate system manager | proved, 8 theorems in DrawProps.v | none |  |
| C145 | Converter classes, their tags and their registration | proved, 16 theorems in ConvProps.v | none | refuted parts: c145_tags_refuted, c145_indirect_refuted, c145_late_refuted |
| C146 | Command line of the welding example | proved, 10 theorems in CliProps.v | none | refuted part: c146_command_refuted |
| C147 | Showing headers and contents of files | proved, 17 theorems in ShowProps.v | none | refuted parts: c147_number_refuted, c147_text (label), c147_path_refuted, c147_orphan_refuted, c147_table_refuted |
| C148 | Creation of grooves and checks of dimensions | proved, 12 theorems in MakeGrooveProps.v | none | refuted parts: c148_text_refuted, c148_front_refuted, c148_ignored_refuted |
| C149 | Options of files: schemas, options of writing, threshold for inline arrays | proved, 19 theorems in OptProps.v | none | refuted parts: c149_copy_refuted, c149_copies_refuted, c149_leak_refuted, c149_failing_refuted, c149_compression_refuted, c149_sync_refuted, c149_close_refuted, c149_write_to_refuted |
| C150 | Plotting with and without the optional packages | proved, 27 theorems in PlotProps.v | none | refuted parts: c150_lcs_refuted, c150_csm_refuted, c150_csm_ignored_refuted, c150_csm_ignored_k3d_refuted, c150_data_refuted, c150_trace_refuted, c150_trace_equal_refuted |
| C151 | Converters of quantities and units | proved, 10 theorems in PintProps.v | none | refuted parts: c151_type_refuted, c151_plain_refuted, c151_newest_refuted; the long format of the unit must be readable (hypothesis of c151_round_trip, c151_type, c151_unit) |
| C152 | Adding and creating coordinate systems of a manager | proved, 11 theorems in CreateProps.v | none | refuted part: c152_deprecated_refuted; the constructors of coordinate systems are parameters |
| C153 | Texts of expressions, series, shapes and profiles | proved, 10 theorems in ReprProps.v | none | refuted parts: c153_time_expression_refuted, c153_generic_expression_refuted; for values whose texts have one line |
| C154 | Data of a manager from assignment to deletion | proved, 14 theorems in DataProps.v | ABC | refuted part: c154_has_unknown_refuted; transform_data is an arbitrary function, except in c154_static_points |
| C155 | Area of the end faces and volume of triangulated extrusions | proved, 12 theorems in MeshVolumeProps.v | ABCD | refuted parts: c155_concave_refuted, c155_open_inward_refuted, c155_shape_inward_refuted; the volume is that of extrusions with the same polygon at all profiles |
<!-- end table -->

## 6. Disagreements between code and documentation

Each of these is a theorem named `..._refuted` (or the theorem given) about the
model and was found by trying to prove the property.

* Time: assigning `reference_time` to time deltas makes later arithmetic
  inconsistent (C02); `as_quantity` loses the reference time (C03); `equals`
  raises or compares wrongly for different lengths and implicit reference times (C06).
* `LocalCoordinateSystem`: resetting the reference time of an expression system
  changes its moments (C10); a left over scalar time breaks `+` (C76).
* `get_cs` forward and backward are not inverse between the time steps of a
  rotating system (C13); the documented rows "CS (lowest)" of the reference time
  table do not hold (C31).
* Manager: `merge` does not guard the reference time rule (C18); systems added
  below a merged member are lost by `unmerge` (C20); data can move between
  subsystems (C21); merged managers share the data dictionaries of their systems
  and the lists of nested subsystems, a root-only manager can be merged into itself
  (C26); equal subsystem names confuse `delete_cs` (C24); renaming to
  an existing name merges systems (C27); `delete_data` changes the manager before
  raising for stale records (C28).
* `build_graph(build_tree(g))` raises without a file in between (C32).
* Measurement chains: requested unit ignored when a function is given, only the
  first letter of the type is used (C37); branched chains lose the default input
  (C38); chains share their graph with the dictionary (C39).
* Validators: `None` is not a wildcard, missing named dimensions (C40); open
  intervals raise (C41); validation stops at missing keys (C42).
* Shapes: closed shapes are only recognised if the start lies on the diagonal
  (C55); the raster width is not the closest possible (C56); full circles are
  refused (C57); too small radii are silently enlarged (C58); the relative
  tolerance makes connectivity depend on the position, and a failing in place
  transformation leaves a broken shape (C60); the mean of two opposite lines
  raises (C61); the ordering of open lists depends on the position (C66).
* Grooves: the VV-Groove puts its kink at h+c instead of h (C67, C68); some
  DU-Grooves with root face have no profile (C69); double sided classes accept
  negative parameters (C70); one given height is copied to the other (C71);
  enlarging the width extends the halves of a DHV-Groove differently (C72).
* Traces: dynamic segments that do not start at the origin make a trace jump
  (C62); a variable profile of one profile raises IndexError when evaluated, arcs
  can not be interpolated (C64); in front of a straight start the heading is
  reversed (C80).
* Series: evaluating a step series gives a linear one (C34); partial evaluation of an
  expression loses coordinates and refuses single values (C35).
* Serialisation: a manager with its root only can not be saved, one with an
  expression can be saved but not loaded, and the root may change (C29); a loaded
  external file loses its content when saved again (C44);
  `None`s vanish from lists (C45); saving sorts lists of the object (C46);
  `select_tag` prefers 0.1.9 to 0.1.10 and one base may be a prefix of another
  (C47); weekly frequencies are garbled, empty indexes raise (C51); a coordinate
  system at rest loses its time axis and tiny displacements vanish (C52).
* `compare_nested`: not symmetric and not transitive; `[]` equals every list,
  lists equal tuples, falsy keys are ignored (C43).  So a manager without
  subsystems equals one with subsystems, and the root is ignored (C30).
* Files: `clear` loses protected entries if one is missing (C48); `copy` ignores
  `overwrite=False` for ASDF files (C49); `setdefault` returns nothing (C50); an
  empty tree does not replace content (C82); the schema for writing is not used
  when an opened file is written (C83) and lost by `copy` (C84); a failed creation
  leaves an empty file that blocks the next attempt (C85).
* `TimeSeries`: interpolating an absolute discrete series at relative times gives
  a relative series (C87); the converter drops the reference time of expressions
  and the time of constants (C88), and `==` ignores reference times of expressions (C89).
* `CoordinateSystemManager.interp_time` (C90, C91): sets the reference time of the caller's coordinate systems; refuses
  time deltas if the manager has a reference time, although `get_cs` accepts them; naming the root raises a `KeyError`
  after other systems have been changed; without times it raises for expressions.
* `WxPropertyTagValidator` (C92) accepts values of types without a tag. `get_highest_tag_version` (C93) does not notice
  several base tags if they continue the base of the highest version. `wx_unit` (C94): a missing mapping gives a
  `KeyError` instead of a validation error, a missing value is accepted.
* `QualityStandard` (C95): with `std-1.yml` and `std-1.yaml` in one directory the listing order decides which is used; a
  directory without manifests gives a standard named `None` instead of an error. `load_installed_standards` (C96) keeps
  what was registered before an invalid entry point.
* `MeasurementChain.__eq__` (C99) does not compare the transformations: chains whose transformations have the same names
  and give the same signals are equal, whatever the functions and errors are. `from_equipment` (C97) ignores
  `source_name` if there is one source.
* `xr_check_coords` (C100) compares values with numpy broadcasting and treats the unit "" as missing; a reference
  "timedelta64[ns]" accepts any resolution, "m8[ns]" does not.
* Derived series made from expressions (C102): a dimension with a required unit cannot be a renamed variable (KeyError), and
  required coordinates are only checked for parameters that have coordinates. A ValueError of the first test evaluation
  alone would end in an UnboundLocalError (c102_test).
* `Geometry.rasterize` ignores `stack` for variable profiles (C103) and a `VariableProfile` with one profile ends in an
  IndexError.
* `LocalCoordinateSystem.__init__` compares the time deltas of orientation and coordinates but not their reference times:
  with equal deltas the coordinates are moved to the reference time of the orientation (C106). A single time and a lone
  `time_ref` are dropped without the documented warning (C105).
* `WXRotationConverter` completes sequences of two axes to three and cuts off the third angle. With a second angle beyond 90
  degrees, e.g. `from_euler("xy", [0, 120°])`, another rotation is loaded than was saved (C108).
* `orientation_point_plane` accepts three collinear points and gives 0 for any point, and its docstring has the order of the
  points reversed (C109).
* `MediaFile` spreads the times of the frames over the whole duration, so that the last frame is at n/fps instead of (n-1)/fps
  and the spacing does not fit the rate (C110).
* Times with a single point have no shape in tagged trees (`None`), hence fail any shape validation that scalars pass (C112).
* `SpatialSeries` changes the dictionaries that are passed as `coords` and `parameters` (C113).
* The formula in the docstring of `sine` lacks the factor 2 pi (C114).
* Arrays from `Time.as_data_array(timedelta_base=False)` cannot be converted back to a Time if the time is absolute, since the
  reference time is added to time stamps (C115).
* `Time.all_close` is neither symmetric nor transitive, broadcasts, and its tolerance grows to seconds for late times (C116).
* Versions of asdf are compared as texts: asdf 10 would be treated like a version before 3.1 (C117).
* `read_buffer(…, _use_weldx_file=True)` always fails, as the context manager returns instead of yielding (C117).
* `reset_file_position` does not restore the position if the block raises (C118).
* `indexes_as_quantities` fails for every object with an index, since pandas indexes have no `attrs` (C120).
* A coordinate with an empty text as unit is plain data, but a dimensionless quantity after `quantify_coords` (C120).
* A Variable with a scalar cannot be saved again after loading, since its data is a plain number then (C121).
* DataArrays lose their name in files, and scalars their dtype (C122).
* DataArrays with a unit cannot be used as coordinates of a `GenericSeries`: `SeriesParameter.coord_tuple` returns the unit where
  xarray expects attributes (C124).
* `GenericSeries` with `SeriesParameter`s as parameters uses their symbols instead of the names given, and silently drops parameters
  with the same symbol (C125).
* `TimeSeries(ts.data_array)` of a series with linear interpolation has step interpolation (C127).
* `Shape(segments)` keeps the given list, and `add_segments` extends it in place: other shapes made from it, and the caller's list,
  get the new segments as well (C128). `add_segments([])` raises an IndexError on a shape with segments (C128).
* Shapes that share segment objects are moved together, which may disconnect them; a segment that occurs twice is moved twice; a
  failing transformation leaves a shape half transformed (C129).
* `Trace` keeps the given list as well; its lookups do not notice later changes (C130).
* `get_schema_tree` marks optional properties whose name begins with a required name (no schema of weldx is affected); required
  properties without tag, reference or one of four types lose their last letter (`number_of_passes` in `weld_details`,
  `use_torch_shielding_gas`, `value` in `quantity`) and may replace each other (C132).
* Setting attributes of `as_attr()` (documented as a way to change data) changes neither the file nor any item; attributes show the
  state at the time of the call (C133).
* `inherit_docstrings` has no `break`: the last parent in the MRO wins, even without documentation, and undocumented functions of
  parents are changed (C134; no class of weldx is affected, as each has one parent with the names concerned).
* `software_history_entry` keeps the given dictionary: later changes are not validated and are shared with copies of the file;
  mappings that are no `dict` are refused although annotated as `Mapping` (C136).
* Saving a `MathematicalExpression` overwrites `wx_metadata` of its arrays; metadata set on a quantity parameter makes the file
  unloadable (KeyError: 'dims') or turns the quantity into an array (C137).
* A `GenericSeries` from a DataArray with a scalar, multi-dimensional or additional coordinate can be saved but not loaded; one with
  a coordinate without unit cannot be saved (C138).
* `FFGroove` 3.1.3 and 4.1.1: the distance of the workpieces is `2 b cos(alpha/2)`, not the root gap `b`; 3.1.1 with an obtuse angle
  draws overlapping workpieces (C139).
* `SpatialData` with a unit that is no length raises AttributeError instead of the intended DimensionalityError (`self.coordinates.units`
  does not exist on a DataArray); DataArrays with `c` of another length than 3 are accepted and garbled by `to_file`; triangles read by
  `from_file` are not converted to unsigned integers, so that the result fails the schema on saving; a file written with other units
  than mm is read with wrong units by default (C140).
* A groove with None for a field with another default (`code_number` of most grooves) is loaded with the default; `GmawProcess` with tag
  `GMAW-0.1.7` passes `select_tag` though there is no such tag; a file of a `CLOOS/pulse` process without the optional entry `tag`
  is loaded as `GMAW`; the abbreviation of an `ArcWeldingProcess` in a file is not checked against the name (C141).
* `Time.as_quantity` and the index converters use the counts of an index as nanoseconds. With pandas 2 `Time(np.array([1, 2, 4],
  dtype="timedelta64[s]"))` has a quantity of nanoseconds, and is loaded with nanoseconds; `Time([])` is absolute, but
  `reference_time` fails with IndexError; a relative `Time` with `reference_time` set later is loaded as absolute (C142).
* `MathematicalExpression("a*x") == MathematicalExpression("a*x", {"a": 1})` is True, the reverse is False, since `compare_nested`
  only walks through its first argument; `set_parameters` keeps the parameters before the first unknown name (C143).
* A converter class derived from another converter class gets the tags of the inherited `name` instead of its own, is not found by
  `get_converter_for_tag` and not registered; neither name nor tags in one direct subclass makes every lookup a TypeError; converters
  defined after the import of the extension are found but not registered (C145).
* The installed command `welding_schema` never works: `main()` hands all of `sys.argv` to `argparse`, which refuses the name of the
  program (`sys.argv[1:]` is meant). Only `main([...])` with explicit arguments writes the example (C146).
* `header(path=...)` ignores the path unless a widget is shown; `view_tree` refuses numbers in paths (`"/".join`) although list items
  can be reached with digits as text, labels a path given as text by its letters, and fails for strings and numbers at the end of a
  path; without a parent process `header()` is an AttributeError even if it only prints; an own copy function for arrays is lost (C147).
* Groove classes accept text such as `"3 mm"` and keep it as text (negative values are then not found either); `FFGroove` checks the
  dimension of `t_1` only; `get_groove` ignores parameters that the groove does not have (C148).
* `WeldxFile` moves the schema in and out of the dictionary `asdffile_kwargs` of the caller, which copies share: a second file made
  with the same dictionary is validated with the schema of the first, a copy of a file with two schemas uses one for both, and a
  failing constructor removes the schema. `sync()` does not use the compression of the file, `close` drops `compression_kwargs`,
  and `compression` is ignored if `write_kwargs` is given (C149).
* Without `weldx_widgets`, the functions for plotting are replaced by a function with the only parameter `stacklevel`. All `plot`
  methods pass other keywords or an object, so they raise a TypeError where a warning is intended. `Trace.plot` ignores
  `axes_equal` for given axes, and `CoordinateSystemManager.plot` ignores two or six parameters, depending on the backend (C150).
* A scalar quantity is saved as a number of python, so that a 32 bit scalar is loaded with 64 bits. Tags are compared as texts,
  so `0.1.9` would be preferred to `0.1.10` (C151).
* The deprecated argument `lsc_child_in_parent` of `add_cs` is noticed only if it is False, and ignored if the new argument is
  False (C152).
* The text of an expression without parameters does not end with a new line, so that the next heading of a series is glued to it
  (`NoneUnits:`, `NoneFree Dimensions:`) (C153).
* `has_data` of a system that does not exist raises `KeyError`, while `has_coordinate_system` answers; `get_data` of an unknown name
  raises `KeyError`, `delete_data` `ValueError` (C154).
* The ends of a mesh are triangulated by connecting points from both sides of the outline; for concave profiles the
  triangles can overlap and leave the profile (C155).
* `has_cw_ordering` needs a list whose first point is repeated at the end. `Shape.rasterize` gives such a list for closed shapes only
  because of its wrong comparison (C55); for closed shapes that start on the diagonal, and for open ones, the missing edge can turn
  all normals of a mesh inwards (C155, C66).

## 7. Not expressible

None of the listed properties is left out completely.  Parts that the model can
not exhibit: float rounding, file system behaviour, YAML text level, plotting,
performance, thread interleavings, 64 bit overflow.

## 8. Wrong programs

`seeded/LOG.jsonl` records one edit of a model definition per line, made in a copy outside of this repository. All dependent files
are compiled again; a proof that no longer goes through is listed in `lemmas_failed` and skipped, so that the remaining ones are tried
as well. `theorems_failed` are the registered theorems that depend on a skipped proof. It is therefore an upper bound: a theorem can be
listed because a shared lemma is wrong for the edited program although its own statement still holds. An edit that no proof notices has
an empty list; then either a theorem was added (`theorems_tightened`) or the text of the entry explains in parentheses why the edit
does not change any answer. Edits after which a statement has no meaning any more (it does not typecheck) are not recorded.
