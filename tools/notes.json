{
 "C06": {
  "note": "The property is false of the code: offset+size wraps modulo 2^64 (c06_get_confined_refuted). It holds when the sum does not wrap."
 },
 "C08": {
  "note": "The property is false of the code: see c08_crash_keeps_records_refuted (record ending in a NUL byte, process stops before the destructor). Holds when the last used byte is not NUL."
 },
 "C11": {
  "note": "The property is false of the code: a feature near the centre of the map serializes to fewer than 32 bytes and append_feature's verify rejects it (c11_every_feature_packs_refuted). Packing throws exactly then (c11_throws_iff_short_feature); it never happens for features away from the centre (c11_far_features_pack_partial)."
 },
 "C48": {
  "note": "The property is false of the code: a ring that collapses to [a;b;a] under the shift is encoded with one LineTo. A lenient reader decodes it exactly (C25); a strict reader accepts all rings of at least four points (c25_roundtrip_strict)."
 },
 "C26": {
  "note": "The clipping of lines and polygons (boost/clipper), the area function and line aggregation are parameters of the tile builder model with stated contracts (SpecMvt: ctx_for, aggregate_ok); the debug-info layer is not modelled."
 },
 "C45": {
  "note": "The property is false of the code for add_tag_as_bool (inverted: c45_tag_bool_inverted, c45_tag_bool_refuted) and add_tag_as_integer (stored as double: c45_tag_integer_refuted); it holds for the other calls."
 },
 "C50": {
  "note": "Two parts are false of the code: an inner ring without known locations is undefined behaviour (c50_defined_refuted) and a short inner ring loses a point instead of being dropped (c50_short_inner_dropped_refuted)."
 },
 "C30": {
  "note": "The queue hands out at least one element per flush when it is not empty (takes), i.e. the flush threshold is at least 1; with threshold 0 the code never flushes and stores an empty dictionary."
 },
 "C32": {
  "note": "load_coastlines: proved. repack_features: refuted by a schedule (c32_repack_refuted): dequeue_results reads result_queue.finished() before work_queue.finished(), so a result can be missed; c32_repack_partial: it is then still in the queue and the final check throws."
 },
 "C33": {
  "note": "for at least one thread; hardware_concurrency() may return 0, then nothing is prepared although the meta entry says so (c33_ex_no_threads). Entries of earlier runs for tiles that are empty now stay."
 },
 "C34": {
  "note": "Proved for features whose serialization has at least 32 bytes (c34_no_failure, c34_persisted); a shorter one makes a flush throw and loses everything taken with it (c34_short_feature_refuted). The unsynchronised read of mem_size_ in flush is modelled as an atomic read."
 },
 "C35": {
  "note": "Proved for the memory-mapped file as it is at any moment and for torn writes; false once the file is opened again and the last pack ends with a zero byte (c35_reopen_refuted)."
 },
 "C37": {
  "note": "The property is false: c37_crash_refuted. pack_features clears the table and commits that before it repacks (feature_pack.cc:95-96); a crash before the first callback, or the exception of C55, leaves no entry at all. What holds is C56."
 },
 "C55": {
  "note": "c55_partial: the first defragmentation succeeds if everything fits into the in-flight memory, or if every tile has one record and more space is free than the largest record takes. c55_refuted: with several records per tile defragment throws 'no progress' on a valid layout with three times the largest record free (limit 20 instead of kRepackInFlightMemory = 1 GiB, the layout scales). c55_empty_refuted: an empty database with an empty pack file throws."
 },
 "C36": {
  "note": "Packing function, sort order of equal records, in-flight limit and batch size are arbitrary; result order and timeouts are chosen by the schedule."
 },
 "C39": {
  "note": "Hypotheses: ids below 2^62 and fewer than 2^31 nodes: the skip loop counts a span with an int (hybrid_node_idx.cc:241), so a span of 2^31 nodes is undefined behaviour, and curr_id + 1024 overflows for ids next to 2^63."
 },
 "C40": {
  "note": "False as stated: update_locations converts to int32 and then subtracts 180 degrees, which overflows (undefined behaviour) for every longitude from 34.7483648 east on (c40_refuted); the location of a node that is not in the index becomes the defined location (34.7483647, 124.7483647) (c40_missing_refuted). Proved: c40_partial (west of that longitude), c40_way (the way handler, everywhere), c40_wrapping (update_locations everywhere, if int32_t wraps around)."
 },
 "C38": {
  "note": "Temporary files are empty at the start; statistics not modelled."
 },
 "C41": {
  "note": "Lines must have points and no end point (2^63-1,2^63-1), which the code uses for 'no point'; a line without points is undefined behaviour (c41_ex_empty). The simplification of joined lines (geo::simplify, third party) is a parameter; c41_segments is for simplification that changes nothing."
 },
 "C57": {
  "note": "Proved for runs without an exception. Limits proved beside it: c57_adjacent_refuted (two disjoint adjacent land polygons that fill a zoom-10 draw area make a worker throw 'difference empty!', which ends the program) and c57_no_worker_refuted (hardware_concurrency()==0: never ends).",
  "status": "proved"
 },
 "C58": {
  "note": "Clipper abstract with contract clips_well (met by an exact clipper, grid_clips_well). Limit: c58_overlap_refuted - the even-odd rule runs over all polygons at once, so the overlap of two land polygons becomes sea.",
  "status": "proved"
 },
 "C42": {
  "note": "c42_tile_url, c42_not_a_tile, c42_only_tiles, c42_defined hold for all URLs; false part: parse_tile_url also accepts '///.mvt' (empty numbers) and numbers that do not fit (c42_numbers_refuted)."
 },
 "C43": {
  "note": "False parts: '%4g' is decoded although g is no hex digit (c43_no_hex_refuted; c43_no_hex_partial says which are refused), and the answer to HEAD has a body (c43_head_has_body). The rest holds for all requests."
 },
 "C47": {
  "note": "False of the code: each part is read from the beginning of the points array (c47_parts_refuted). Holds for records with one part; c47_rings says what is read in general."
 },
 "C51": {
  "note": "False of the code: '..' segments leave the resource directory (c51_static_files_refuted). Holds for paths without them."
 },
 "C53": {
  "note": "Termination holds for every byte string (c53_terminates). Refusing truncated files is false: reading beyond the end (c53_truncated_refuted)."
 },
 "C65": {
  "note": "Possibility (some schedule ends the run), not fairness; sizes bounded by moderate: below 1 GiB in all. Concrete case: c65_ex_moderate, c61_ex_history (an island, a road, a lake)."
 },
 "C66": {
  "note": "Modelled without what is printed."
 },
 "C67": {
  "note": "script_ok (no failing call), layer, zoom and metadata of both profiles for every object; the Lua interpreter is not modelled, the scripts are transcribed call by call; tonumber is an arbitrary function"
 },
 "C68": {
  "note": "positive theorems for roads, lifts, rails, waterways, places, areas and levels; the _refuted theorems show that disused/abandoned rails are never imported, that no water is shown at zoom 10, and how fractional or dashed levels are misread; tonumber is assumed to read decimal int64 texts"
 },
 "C69": {
  "note": "osmium's reader and multipolygon assembler are parameters; file_ok asks for sorted nodes with distinct ids (ignoring the sign), at most 2^31 nodes and ways without locations; both variants of int32_t arithmetic ([all])"
 },
 "C70": {
  "note": "end to end: ModelLoadOsm -> ModelProfile -> ModelOsm -> ModelImport -> server; contents_ok: tags below 16 MiB, objects below 2^24 points, unique ids per kind, areas with rings of at least four points (osmium's contract); roads on prepared tiles up to zoom 10 are joined with others and are not promised by c70_roads_shown (see C62, C64)"
 },
 "C71": {
  "note": "c71_exclusive, c71_same and c71_enough under sequentially consistent memory; c71_race_refuted: an id can be read while it is written, which is a data race in C++"
 },
 "C72": {
  "note": "Area: up to one level 20 pixel, the library's rounding (clips_near)."
 },
 "C73": {
  "note": "c73_tile_fails: one polygon without an area suppresses every tile it has to be drawn on."
 },
 "C74": {
  "note": "Opposite directions: proved for the clipped geometry (c74_consistent). The direction the specification asks for is refuted (rings turn the other way, also the sea), and rounding to tile pixels may turn a ring."
 },
 "C79": {
  "note": "c79_serves_refuted: tiles with an object handled before the exception fail; the other theorems hold."
 },
 "C80": {
  "note": "Under tail_kept (a byte behind the packs is not 0), whose failure is C08; tiles close to objects fail if the kill happens while the OSM file is read, as shown in C79."
 },
 "C81": {
  "note": "c81_empty_refuted: number of empty tiles and average are wrong in the code; the other parts hold."
 },
 "C85": {
  "note": "Proved: an error or the answer of a database a stopped run leaves. Refuted: that a tile stays shown while packing; that a server need not be restarted after an import."
 },
 "C86": {
  "note": "All parts hold but for ITER_FEATURE's times, which are refuted."
 },
 "C87": {
  "note": "c87_debug_refuted: the line about the debug layer counts nothing; everything else in the statement is proved for all other layers",
  "status": "partial"
 }
}