# DESIGN — a Rocq (Coq 8.16.1) model of motis-project/tiles

## Approach

The code is modelled function by function as total, executable Gallina (`theories/Model*.v`: definitions only, each with a
comment citing the file and lines of /repo). The vocabulary the properties are stated in is in `theories/Spec*.v` and does not
use the model's helpers beyond its data types and entry points. Proofs are in `Proof*.v`; `Prop*.v` contain only
the property theorems (`cNN_…`), `Print Assumptions` for each, and `Example`s that meet the hypotheses with a concrete case.

* Bytes are `N` below 256, strings `list N`; C++ fixed-width integers are `N`/`Z` with the wrap written out where
  the code can wrap, and a side condition (checked by the code or by type) otherwise.
* `res`: `Ok`, `Throw` (exception / failed `utl::verify`), `UB` (undefined behaviour), `Fuel` (recursion bound of the model
  used up; theorems that promise `Ok` exclude it).
* Concurrent code is a transition system. A state holds the shared data and a list of threads with their program
  counters; a step picks one thread (`ts1 ++ p :: ts2`). Atomic steps are: one operation on an atomic, taking a mutex, the body of
  one critical section, one queue operation, one step of an LMDB transaction. Theorems quantify over every reachable state,
  i.e. every schedule, and over the number of threads.
* Crash points are reachable states (all of them), or prefixes of the operation list, followed by reopening.
* `_partial`: only a part of the property holds or is proved; `_refuted`: the property (or one of its parts) is false of the code, with
  an explicit input, schedule or crash point as witness. Both are reported as `partial` in MANIFEST.json, with a note on what is missing.

## Plan per property

| id | modelled | how proved |
|----|----------|-----------|
| C01,C02 | `ModelTile`: tile_index.h keys over `N` with shifts and masks | bit lemmas to div/mod arithmetic, `lia` |
| C03 | `ModelTile`: cursor SET_RANGE/NEXT loop over a sorted association list | induction over the sorted table, key interval lemma from C02 |
| C04 | `ModelTile`: record codec over bytes | round-trip by induction |
| C05-C08 | `ModelPackFile`: the pack file as byte list with size and capacity; insert/move/append/close/reopen/crash | refinement to spans of bytes; refutations by witness |
| C09-C11 | `ModelPack`: feature pack layout, crc32 | round-trip; crc as linear algebra over GF(2) for bursts; witness for C11 |
| C12-C15 | `ModelQuadTree`, `ModelPacker`: quad tree array layout, packer, walker, best tile | structural induction on the relation between array and abstract tree |
| C16-C18 | `ModelBqTree`: construction (stack based), queries, storage | abstract quad trie, representation invariant |
| C19 | `ModelCodec`: varint/zigzag/fixed | strong induction |
| C20-C23 | `ModelGeom`, `ModelFeature`: protobuf framing, geometry and feature codecs, filters, masks | parser/printer round-trips |
| C24-C27, C48 | `ModelGeom`, `ModelMvt`: shift, MVT commands, layer builder | an independent MVT decoder (`SpecMvt.decode_tile`) and round-trips; induction over points / histories; witness for C48 |
| C28-C30 | `ModelDict`: layer names, shared metadata builder and coder | codec round-trip, counting invariants over every schedule |
| C31 | `ModelQueue`: in_order_queue as transition system | inductive invariants over all schedules |
| C32 | `ModelDrain`: queue_processor / dequeue loops of load_coastlines and repack_features | invariants; refutation by an explicit schedule |
| C33, C54 | `ModelPrepare`: prepare_manager and worker threads | inductive invariant on tiles handed out / stored; refinement to on-demand rendering |
| C34, C35, C60 | `ModelInserter`: cache, flush, LMDB transaction; any number of threads | inductive invariants on multisets of (tile, value) jobs; a well-founded measure for termination; layout invariant |
| C36, C37, C55, C56 | `ModelRepack`: memory manager, defragmentation, in-flight packs, table rewrite | disjointness invariant along all schedules; witnesses |
| C38-C40 | `ModelNodeIdx`: hybrid node index bytes, batch lookup | round-trip over span lists, simulation of the batch cursor by single lookups; witnesses |
| C41 | `ModelAggregate`: aggregate_line_features | multiset of edges preserved; handles invariant |
| C42, C43, C51 | `ModelServer`: URL parsing, decoding, dispatch, static files | case analysis, induction; witnesses |
| C44, C52 | `ModelRender`: get_tile | composition of C03, C12-C17, C20-C27 |
| C45, C46, C49, C50 | `ModelOsm`: tags, metadata, pending_feature, OSM geometries | case analysis, induction over calls; witnesses |
| C47, C53 | `ModelShape`: shapefile reader over bytes | parser correctness; witnesses |
| C57-C59 | `ModelCoast`: load_coastlines with worker threads, clipper abstract with a distance contract | invariants over all schedules; point-wise region argument (even-odd); bq_tree from C16-C18 |
| C61-C64 | `ModelImport`: the import tool's runs (clearing, coastlines, features, layer names, metadata, packing, preparing) and the server's answer afterwards | composition of the theorems above along a history of runs |
| C65, C66 | `ModelImport`: runs that end; `database_stats` | every phase has a schedule that ends, bounds on the bytes stored by a moderate input; the invariant of C61-C64 |
| C67, C68 | `ModelProfile`: profile/full.lua and profile/background.lua, function by function, as the calls they make | case analysis against tables of tags, layers and zoom levels; induction over the text of level tags |
| C69, C70 | `ModelLoadOsm`: the two passes of load_osm.cc (entities of the file, node index, locations of way nodes, areas); `ModelNodeIdx.update_with` with either int32_t subtraction | C38/C40 for the locations; sizes of objects by `feature_size`; C62 and C67/C68 for what is shown |
| C72, C73, C74 | `ModelClip`: clip.cc function by function over a record of library functions | result of `Execute` is a tree of contours: induction over it; C52's lemmas for whole tiles |
| C75 | nothing new: the answers of `serve_tile` of `ModelImport` | composition of C26, C27, the geometry lemmas of C25 and the invariant of C61-C64 |
| C76, C77 | `ModelCrash`: a run of `ModelImport` that stops after loading: the pack file is as the interrupted write left it (any bytes in its place; anything while defragmenting), committed transactions are kept; closed by the destructor (exception) or not (kill) | the invariant of C61-C64, which knows whether packing was ever stopped, is kept by every stop; disjointness of C36 for the interrupted write |
| C78 | the content of a layer (`SpecMvt.layer_content`) with line joining on, C41's specification of joining as the only assumption on `aggregate` (met by the model of C41: `c78_fits`), over the invariant of C61-C64 and C76 | from the features of the tile to the objects they were made of (`ProofJoined`, `ProofJoinedTop`); not stated: that objects with the same metadata always share one feature (after a stopped packing the order of their metadata may differ) |
| C79 | `ModelAbort`: a run of `ModelImport` that ends with an exception within `load_osm`: any part of the objects was handled, the inserter's destructor wrote all of it, names of layers and dictionary were not stored | as if only that part had been loaded (`loaded_sinv`), with the names and the dictionary of an empty database; refuted: tiles with objects fail. Completion by the lemmas of C65 |
| C80 | `ModelAbort`: any reachable state of the threads that load coastlines (`ModelDrain`, `ModelCoast`), of the objects handled so far and of the inserter (`ModelInserter`, any schedule), with the table of features as committed and any bytes behind the end of the pack file (`torn`); the kill happens before the tree of the sea, before the names of layers and the dictionary, or after all of these are stored | the packs named by the committed table are laid out and hold features given to the inserter (`laid_contents`, for states in between); reopening finds them if a byte behind them is not 0 (`killed_laid`); then as C61/C64 |
| C81 | `ModelPrepLog`: get_batch and finish with their statistics, any number of threads, each rendering its batch tile by tile, any schedule | invariant: the statistics of a level count the tiles handed out and finished; a level is logged iff it is behind the current one and no thread has a tile of it (`linv`) |
| C82 | `ModelNodeStats`: the node index builder with its counters (arrays of fixed size, a write behind one is undefined) | `ProofNodeStats`: get_varint_size is the length of the number written; the builder writes a list of gaps and runs; invariant of the counters over that list (`file_ok`), for every accepted stream |
| C83 | `ModelDebug`: the debug branch of `tile_builder::finish` (label, outline, layer) behind the existing tile model; `SpecDebug`: a vector tile reader with optional ids | `ProofDebug`: the finished tile is a list of length-delimited fields, so a further field is read as a further layer; the bytes of the debug layer computed symbolically for every tile (all coordinates relative to the tile are constants); `fmt`'s decimal output specified by `decimal` |
| C84 | `ModelLive`: a server keeps the metadata and the length of the mapping of its start and reads tables and file of the moment; `during`: the files at every moment of a run that loads nothing | `ProofLive`: preparing does not change packs, features or the file's bytes that a record names; with tiles not yet announced in the server's metadata, the table of tiles is not read |
| C85 | same, runs that pack: refuted as "every tile is served throughout"; proved: an error or the answer of a database that the run leaves when it is stopped there | `ProofLive`: a stopped run with the metadata of its start is again a stopped run; every pack is read as in a new server or behind the length of the old mapping |
| C87 | `ModelTileStats`: the builder with its two counters and the lines that are printed (numbers before formatting); `SpecTileStats` | `ProofTileStats`: erasing the counters gives the model of C26; invariants: written = features in the layer's buffer, added = sizes of the id sets + features without geometry, buffered + written <= added |
| C88 | no new model: the import and the server (C61–C64); `SpecSeam`: points of a tile as pixels of the map, lines that the clipping library leaves alone | `ProofSeam`: whatever a served tile has of an object is (C64) its simplified outline, cut and shifted relative to the tile's corner; the corner is 4096 pixels per tile, the shift does not depend on the tile, and a line or point inside the square is left alone by the cut. Areas by the rounding and the regions of C52's clipping. The square that is drawn extends 4096 level-20 pixels beyond the tile at every zoom level (`tile_spec.h`:13,32), that is 2^(z-8) pixels of the tile: less than one pixel below zoom level 8. Segments with both ends inside the square: assumed that boost's `intersection` of a box and lines keeps those as consecutive points of one piece (`keeps_segments`; met by the example's cut, which keeps the parts inside), proved through rounding and the removal of equal neighbours. `ProofSeamShow`: by C62 they are there. Where a segment leaves the square is not claimed (the library's rounding of new end points is not modelled) |
| C89 | no new model: C61–C64 of two stores at once; `SpecSame`: libraries that give the same results, features that are the same | `ProofSame`: what a tile has of an object is determined by C64 (its outline, cut and shifted) and C62 (it is there); metadata with one value per key is unique, and decoded tags of the same metadata in another order are the same tags in another order. `ProofSameCoast`: what a task of the coastlines results in is a function of the task, so two drained queues (C32) hold permutations of the same results. Not claimed: the order of the features in a tile (it does differ), lines on prepared tiles (joined with others, C78), one packed and one unpacked database (the unpacked one serves geometry that is not simplified) |
| C86 | `ModelPerf`: the perf_counter, the calls `get_tile` makes to it (a list per tile, with what the clock reads per call), the benchmark's loop and a line of its report (`q95_index` with the rounding of double multiplication); `SpecPerf` | `ProofPerf`: numbers of measurements are independent of what ran before (but for ITER); `ProofPerfTime`: measurements of nested and disjoint sections; `ProofPerfReport`: index and sorted lists; `ProofPerfDb`: no exception on an imported database |
| C71 | `ModelHandlers`: get_handler as a transition system, one step per memory access | invariant over all interleavings |

No property was dropped as inexpressible. Progress output (what `prepare_tiles` prints: C81) and the perf counters (C86) are modelled where a property
is about them; the text printed by the coastline and OSM loaders and how long things take on a wall clock are not part of the model; nothing a property
talks about depends on them.

## Trusted base

1. **Coq's kernel** (8.16.1, `coqc`, including `vm_compute`, which the examples and refutations use).
2. **Axioms: none.** `Print Assumptions` says "Closed under the global context" for every theorem in `Prop*.v`. Only the Coq standard library is
   imported (`List`, `NArith`, `ZArith`, `Lia`, `Permutation`, `Sorted`, `String`, `FinFun`, …). (vcheck lists a few axioms of the standard
   library's `ssrunder` as present in the installation; no theorem depends on them.) There are no own axioms, parameters outside sections, functors, module types,
   `Admitted` or switched-off checks.
3. **The reading of /repo**: that each definition in `Model*.v` says what the cited lines do. Nothing was executed; the mutation log (`seeded/LOG.jsonl`) shows that the theorems
   notice realistic deviations.
4. **Third party code**, which is not on disk. The assumptions are written at the definitions; in short:
   * *geo*: `tile` parent/children/quad position, `bounds_on_z`, inclusive `make_tile_range`, `tile_iterator` in row order, `tile_range_on_z` from the first
     corner's bounds to the last corner's; Web Mercator pixel coordinates are abstract (`latlng_to_fixed` a parameter).
   * *LMDB*: ordered integer keys, one writer at a time, atomic commit, a transaction sees the last committed state and its own writes.
   * *libosmium*: `mmap_vector_file` (reopening takes trailing zero bytes for unused space), `Location` int32 coordinates.
   * *protozero*: varint/zigzag/length-delimited framing as in the protobuf specification.
   * *boost::geometry / ClipperLib*: for rendering, the clip function `cut` of a renderer is a parameter with contracts: for boxes with corners in (−2^62, 2^62) results lie in the clip box, have the same kind
     and closed rings (`cut_ok`); clipping fails at most for polygons none of whose rings encloses an area (`cuts_areas`, `areal`); a square clipped by itself stays, up to its first corner (`keeps_square`).
     ModelClip models clip.cc itself and C72 derives these contracts from one about the libraries (`clipper_ok`: `bg::intersection` stays in the box; `AddPath` accepts paths with an area and not those on a line;
     solutions stay in the box; a rectangle intersected with itself; the sign of the area of a rectangle; `clips_near`: borders move by less than one level-20 pixel; `exact_signs`: boost computes areas with doubles, the sign is taken to be exact).
     For coastlines each clipper operation moves borders by less than one level-20 pixel (`clips_well`). Instances that meet the contracts are given (`c52_cut`, `grid_clips_well`, `c72_k`). Point clipping (strict `within`) is modelled.
   * *standard library*: `std::sort` is any function that returns a sorted permutation, `std::inplace_merge` stable, `std::lower_bound` as in libstdc++, `std::mutex` sections atomic, sequentially consistent atomics,
     `std::regex`, `std::filesystem::path::operator/`, `istringstream >> hex` as in libstdc++.
   * *moodycamel*: a dequeue takes any queued element and may time out at any time.
   * *zlib/miniz*: compression is a parameter (`x_deflate`); nothing depends on its result but that it exists.
   * *utl*: `verify`, `split`, `parse`, `erase_duplicates`, `equal_ranges_linear`, `get_or_create_index`.
   * simplification (`geo::simplify`) produces masks through a parameter `mk`/`rd` with contract `mask_ok`.

## What is modelled

| code | model | left out or simplified |
|------|-------|------------------------|
| include/tiles/db/tile_index.h, tile_database.h | ModelTile, ModelTable | LMDB itself; table = sorted association list |
| include/tiles/db/pack_file.h | ModelPackFile | mmap growth is unbounded; file length < 2^64 is a hypothesis where it matters |
| include/tiles/db/feature_pack.h, src/db/feature_pack.cc | ModelPack, ModelRepack | progress output |
| src/db/feature_pack_quadtree.cc, quad_tree.{h,cc} | ModelPacker, ModelQuadTree | |
| include/tiles/db/repack_features.h | ModelRepack, ModelDrain | an exception in the packing function ends the program (no step); packing function abstract |
| include/tiles/db/bq_tree.h, src/db/bq_tree.cc | ModelBqTree | debug dump |
| include/tiles/db/feature_inserter_mt.h | ModelInserter | `mem_size_` is read without the lock in flush: modelled as an atomic read |
| include/tiles/db/layer_names.h, shared_metadata.h | ModelDict | |
| src/db/prepare_tiles.cc | ModelPrepare, ModelPrepLog (statistics) | printing |
| include/tiles/feature/*.h, src/feature/aggregate_line_features.cc | ModelFeature, ModelAggregate | `oneway_` is never set, its branches are left out; polygon aggregation is commented out in the code |
| include/tiles/fixed/**, src/fixed/** | ModelGeom, ModelCodec, ModelClip | boost::geometry and ClipperLib themselves; `simplify` third party |
| src/server.cc:176-181, 204-206 while src/import.cc:66-113 runs | ModelLive | a request that sees the pack file at more than one moment; a server that goes on while coastlines or features are loaded (only C85: after it) |
| src/benchmark.cc, include/tiles/perf_counter.h, src/perf_counter.cc | ModelPerf | choice of tiles (geo::make_tile_range, third party); sums and means as doubles and their text; the counters after an exception (nothing is reported then) |
| src/mvt/*.cc, include/tiles/mvt/*.h | ModelMvt, ModelDebug, ModelTileStats | text of the statistics (`printable_num`, `printable_bytes`) |
| include/tiles/get_tile.h | ModelRender | performance counters |
| src/osm/load_shapefile.cc | ModelShape | zip extraction |
| src/osm/load_coastlines.cc | ModelCoast, ModelDrain | counters; an exception in a worker ends the program |
| src/osm/hybrid_node_idx.cc | ModelNodeIdx, ModelNodeStats (statistics) | text of the statistics; temporary files start empty |
| src/osm/feature_handler.cc, read_osm_geometry.cc, pending_feature.h, metadata.h | ModelOsm | Lua interpreter (sol): a profile is an arbitrary sequence of API calls |
| src/osm/load_osm.cc | ModelLoadOsm, ModelHandlers | osmium's reader and multipolygon assembler (parameter: areas of relations and located ways); TBB's pipeline: the objects in any order; progress output |
| profile/full.lua, profile/background.lua | ModelProfile | Lua interpreter; `tonumber` with the conversion to `int64_t` is a parameter, the theorems on levels need it to read decimal integers |
| include/tiles/util_parallel.h | ModelQueue, ModelDrain | |
| src/server.cc, parse_tile_url.h, util.cc (regex) | ModelServer | the HTTP library's parser and connection handling |
| src/import.cc, include/tiles/db/clear_database.h, src/db/database_stats.cc | ModelImport | command line and configuration parsing; objects are handed to the profile as a list, one handler call each (threads of the OSM loader: any order, C34) |
| the same, stopped (kill or exception) after loading | ModelCrash | a crash of the operating system or loss of power (order of writes to disk) |
| the same, stopped while loading | ModelAbort | a failing profile or a broken file is not looked at more closely; exceptions while loading coastlines end the program (as a kill) |

Not modelled: the multipolygon assembler of libosmium, the reading of .osm.pbf files, Lua, sockets.

## Findings (all machine-checked as `_refuted`/`_partial` theorems or examples unless marked †)

* C06 `offset + size` wraps in `pack_handle::get`. C08/C35: a committed pack whose last byte is zero is lost when the process stops before the destructor and the file is opened again.
* C11/C34: features whose serialization has fewer than 32 bytes make packing throw; in the inserter the whole flush is lost.
* C30: flush threshold 0 never ends. C31: a consumer that throws stops all later items.
* C32: `dequeue_results` reads `finished()` of two queues in the wrong order; results can be left behind (detected by the final check, which throws).
* C33: with `hardware_concurrency() == 0` nothing is prepared although the database says so; re-preparing keeps entries of tiles that have become empty. †`n_empty_` counts the others.
* C37: `pack_features` clears the table, commits, and only then repacks: a crash or exception in between loses the index of everything.
* C76, C77: the database stays usable nevertheless: what was written back before the stop is complete, the rest is lost, nothing wrong is shown. One assumption is needed if a run that writes packs is killed: the end of the pack
* C79: an exception while the OSM file is read leaves features in the database whose layers have no names (the names are stored at the end of load_osm, the features by the inserter's destructor). The server starts on it and fails with "invalid layer in db" for every tile with such a feature; it is repaired by another run that loads.
* C80: a kill during loading leaves no damage beyond C08 (a lost end of the pack file) and C79 (features whose layers have no names yet): every pack named by a committed transaction was written before.
* C87: the statistics line of the debug layer says `added: 0 written: 0` (`tile_builder.cc:240-279` writes its features past the counters).
* C86: `RENDER_TILE_ITER_FEATURE` is started behind a tile's last pack (`get_tile.h:134`) and stopped by the first pack of a later tile (`:114`), so the benchmark's
  "ITER FEAT" contains the time between tiles and can exceed the total.  (`benchmark.cc:65-70` also shuffles a list of tiles that is never used.)
* C85: while packing, a server that goes on shows every tile without what was not yet written again (`feature_pack.cc:81-85` clears the table in one transaction and
  fills it in others), and a server reads the metadata only when it starts (`server.cc:178-180`) and maps the file with the length of that moment, so after
  a later import it answers with 500, or ignores prepared tiles, until it is restarted.
* C81: `finish` counts a tile as empty if its size is *not* 0, so the log line of every level swaps the numbers of empty and of drawn tiles, and divides by the wrong one.
  file must not be '\0' (C08, `tail_kept`): a run that packs and then prepares tiles closes the file only at its end, so a kill while preparing tiles can lose the last pack. Runs that only prepare tiles need no such assumption (`c77_kill_preparing`).
* C39/C40: spans of 2^31 nodes and longitudes from 34.7483648° on are undefined behaviour (signed overflow); missing nodes get a defined location.
* C42/C43/C51: '///.mvt' and numbers out of range are parsed, '%4g' is decoded, HEAD is answered with a body, '..' and '//' leave the resource directory.
* C45: `add_tag_as_bool` is inverted, `add_tag_as_integer` stores a double. C47/C53: rings of multi-part shapes re-read the points from the beginning; truncated shapefiles are read beyond their end.
* C48: rings that collapse to two points are written. C50: an inner ring without known nodes is undefined behaviour, a short one takes a point of the outer ring's vector.
* C54: a tile outside the bounds of the features but partially sea would be served empty. Unpacked databases are served without simplification.
* C55: defragmentation can give up ("no progress") on valid layouts, and throws for an empty database.
* C57: two adjacent land polygons that fill a zoom-10 draw area make a worker throw. C58: where two land polygons overlap, sea is drawn.
* C73: one stored polygon without an area (all points of each ring on one straight line, e.g. a sliver that simplification or int rounding has flattened) makes `clip` throw "AddPath1 failed"; no tile that
  it has to be drawn on can be delivered, and preparing such a tile fails the import. C74: rings are wound the other way round than the vector tile specification 2.1 asks for (also the sea square),
  and rounding to tile pixels may turn rings around after they have been corrected.
* Data races: `handlers[slot].first` in load_osm (C71); †`mem_size_` in the inserter's flush.
* †The pack file never shrinks on disk after repacking. Requesting only the task "features" clears the coastlines too.
* C61-C64 (conditions of `history`, †): loading coastlines and features in two separate runs loses the first (each loading run clears the database); preparing tiles before packing stores unsimplified tiles that stay;
  a prepared tile for which nothing but seaside squares below it exists is served empty (C54); an object whose geometry reaches into a tile's overdraw margin only, and whose index tile is unrelated, is not drawn in the margin; with packs of 1 GiB and more nothing is promised.
* C65 (conditions of `moderate`, †): an object approved for zoom level 21 and above only makes packing throw (`features_by_min_z.at`); so does an object of which fewer than 32 bytes are left after dictionary coding; packing or preparing an empty database throws; an approved object without a layer throws.
* C68: neither profile ever imports disused or abandoned railways (the rule is inside a branch for other values); the zoom-10 step for water can't be reached (limits in the wrong order), so water is shown from zoom 12 or, from 10^6 on, zoom 0; the level text "0.5;1" is read as 5 to 1 and "1-3" as 1. †"oarchard" is a misspelt value.
* C69: a way node that is not in the file is skipped, but only because the location it wrongly gets (34.7°, 124.7°, C40) is not a valid one. †Water is shown from zoom level 0 from 10^6 square pixels of level 20 on, which is about 2 m²: nearly all of it.
