{
 "claims": [
  {
   "property": "C01",
   "status": "proved",
   "theorems": [
    "c01_tile_key_roundtrip",
    "c01_tile_key_injective"
   ],
   "note": "[theories/PropStorage.v]"
  },
  {
   "property": "C02",
   "status": "proved",
   "theorems": [
    "c02_key_order",
    "c02_row_interval"
   ],
   "note": "[theories/PropStorage.v]"
  },
  {
   "property": "C03",
   "status": "proved",
   "theorems": [
    "c03_tile_query_visits_exactly_overlapping",
    "c03_relatedb_meaning"
   ],
   "note": "[theories/PropStorage.v]"
  },
  {
   "property": "C04",
   "status": "proved",
   "theorems": [
    "c04_records_roundtrip",
    "c04_records_total"
   ],
   "note": "[theories/PropStorage.v]"
  },
  {
   "property": "C05",
   "status": "proved",
   "theorems": [
    "c05_append_then_get",
    "c05_insert",
    "c05_move",
    "c05_insert_behind",
    "c05_pack_file_name"
   ],
   "note": "[theories/PropStorage.v]"
  },
  {
   "property": "C06",
   "status": "partial",
   "theorems": [
    "c06_get_confined_partial",
    "c06_get_confined_refuted"
   ],
   "note": "The property is false of the code: offset+size wraps modulo 2^64 (c06_get_confined_refuted). It holds when the sum does not wrap. [theories/PropStorage.v]"
  },
  {
   "property": "C07",
   "status": "proved",
   "theorems": [
    "c07_reopen_preserves"
   ],
   "note": "[theories/PropStorage.v]"
  },
  {
   "property": "C08",
   "status": "partial",
   "theorems": [
    "c08_crash_keeps_records_refuted",
    "c08_crash_keeps_records_partial"
   ],
   "note": "The property is false of the code: see c08_crash_keeps_records_refuted (record ending in a NUL byte, process stops before the destructor). Holds when the last used byte is not NUL. [theories/PropStorage.v]"
  },
  {
   "property": "C09",
   "status": "proved",
   "theorems": [
    "c09_pack_unpack"
   ],
   "note": "[theories/PropPack.v]"
  },
  {
   "property": "C10",
   "status": "proved",
   "theorems": [
    "c10_fresh_pack_valid",
    "c10_any_finished_pack_valid",
    "c10_burst_detected",
    "c10_bytes_detected"
   ],
   "note": "[theories/PropPack.v]"
  },
  {
   "property": "C11",
   "status": "partial",
   "theorems": [
    "c11_every_feature_packs_refuted",
    "c11_far_features_pack_partial",
    "c11_throws_iff_short_feature"
   ],
   "note": "The property is false of the code: a feature near the centre of the map serializes to fewer than 32 bytes and append_feature's verify rejects it (c11_every_feature_packs_refuted). Packing throws exactly then (c11_throws_iff_short_feature); it never happens for features away from the centre (c11_far_features_pack_partial). [theories/PropPack.v]"
  },
  {
   "property": "C12",
   "status": "proved",
   "theorems": [
    "c12_packer_keeps_everything",
    "c12_packer_succeeds",
    "c12_can_be_packed_again"
   ],
   "note": "[theories/PropPacker.v]"
  },
  {
   "property": "C13",
   "status": "proved",
   "theorems": [
    "c13_indexed_unpack"
   ],
   "note": "[theories/PropPacker.v]"
  },
  {
   "property": "C14",
   "status": "proved",
   "theorems": [
    "c14_best_tile",
    "c14_best_tile_rejects"
   ],
   "note": "[theories/PropPacker.v]"
  },
  {
   "property": "C15",
   "status": "proved",
   "theorems": [
    "c15_walk_covers_exactly_related",
    "c15_walk_exact",
    "c15_below_is_contiguous",
    "c15_ok_iff_inside_root",
    "c15_ok_or_throw",
    "c15_layout_is_needed"
   ],
   "note": "[theories/PropQuad.v]"
  },
  {
   "property": "C16",
   "status": "proved",
   "theorems": [
    "c16_contains",
    "c16_deep_query_refused",
    "c16_when_it_fits"
   ],
   "note": "[theories/PropBqTree.v]"
  },
  {
   "property": "C17",
   "status": "proved",
   "theorems": [
    "c17_all_leafs"
   ],
   "note": "[theories/PropBqTree.v]"
  },
  {
   "property": "C18",
   "status": "proved",
   "theorems": [
    "c18_storage",
    "c18_bad_length_rejected",
    "c18_loading_keeps_the_bytes"
   ],
   "note": "[theories/PropBqTree.v]"
  },
  {
   "property": "C19",
   "status": "proved",
   "theorems": [
    "c19_varint_roundtrip",
    "c19_varint_length",
    "c19_varint_prefix_free",
    "c19_varint_is_bytes",
    "c19_zigzag",
    "c19_zigzag_onto"
   ],
   "note": "[theories/PropCodec.v]"
  },
  {
   "property": "C20",
   "status": "proved",
   "theorems": [
    "c20_geometry_roundtrip",
    "c20_geometry_roundtrip_any",
    "c20_serialize_rejects_exactly_empty"
   ],
   "note": "[theories/PropCodec.v]"
  },
  {
   "property": "C21",
   "status": "proved",
   "theorems": [
    "c21_feature_roundtrip",
    "c21_serialize_succeeds"
   ],
   "note": "[theories/PropCodec.v]"
  },
  {
   "property": "C22",
   "status": "proved",
   "theorems": [
    "c22_filters",
    "c22_touching_is_visible"
   ],
   "note": "[theories/PropCodec.v]"
  },
  {
   "property": "C23",
   "status": "proved",
   "theorems": [
    "c23_masks_select",
    "c23_select_meaning",
    "c23_all_bits_set"
   ],
   "note": "[theories/PropCodec.v]"
  },
  {
   "property": "C24",
   "status": "proved",
   "theorems": [
    "c24_shift",
    "c24_shift_unique"
   ],
   "note": "[theories/PropCodec.v]"
  },
  {
   "property": "C25",
   "status": "proved",
   "theorems": [
    "c25_roundtrip",
    "c25_roundtrip_strict",
    "c25_shifted"
   ],
   "note": "[theories/PropMvt.v]"
  },
  {
   "property": "C26",
   "status": "proved",
   "theorems": [
    "c26_tile_total_joined",
    "c26_tile_content",
    "c26_tile_total"
   ],
   "note": "The clipping of lines and polygons (boost/clipper), the area function and line aggregation are parameters of the tile builder model with stated contracts (SpecMvt: ctx_for, aggregate_ok); the debug-info layer is not modelled. [theories/PropAggregate.v, theories/PropMvt.v]"
  },
  {
   "property": "C27",
   "status": "proved",
   "theorems": [
    "c27_ids_unique_joined",
    "c27_ids_unique",
    "c27_first_shown"
   ],
   "note": "[theories/PropAggregate.v, theories/PropMvt.v]"
  },
  {
   "property": "C28",
   "status": "proved",
   "theorems": [
    "c28_roundtrip",
    "c28_indices",
    "c28_first_use_order"
   ],
   "note": "[theories/PropDict.v]"
  },
  {
   "property": "C29",
   "status": "proved",
   "theorems": [
    "c29_encodes_exactly_entries",
    "c29_decodes_back",
    "c29_persists",
    "c29_feature_roundtrip"
   ],
   "note": "[theories/PropDict.v]"
  },
  {
   "property": "C30",
   "status": "proved",
   "theorems": [
    "c30_counts",
    "c30_store"
   ],
   "note": "The queue hands out at least one element per flush when it is not empty (takes), i.e. the flush threshold is at least 1; with threshold 0 the code never flushes and stores an empty dictionary. [theories/PropDict.v]"
  },
  {
   "property": "C31",
   "status": "proved",
   "theorems": [
    "c31_in_order",
    "c31_nothing_left_behind",
    "c31_all_consumed",
    "c31_no_deadlock",
    "c31_terminates",
    "c31_pipeline"
   ],
   "note": "[theories/PropQueue.v]"
  },
  {
   "property": "C32",
   "status": "partial",
   "theorems": [
    "c32_coastlines_drained",
    "c32_coastlines_final",
    "c32_repack_refuted",
    "c32_repack_partial"
   ],
   "note": "load_coastlines: proved. repack_features: refuted by a schedule (c32_repack_refuted): dequeue_results reads result_queue.finished() before work_queue.finished(), so a result can be missed; c32_repack_partial: it is then still in the queue and the final check throws. [theories/PropDrain.v]"
  },
  {
   "property": "C33",
   "status": "proved",
   "theorems": [
    "c33_covers_once",
    "c33_stored",
    "c33_batches_defined",
    "c33_terminates",
    "c33_no_features"
   ],
   "note": "for at least one thread; hardware_concurrency() may return 0, then nothing is prepared although the meta entry says so (c33_ex_no_threads). Entries of earlier runs for tiles that are empty now stay. [theories/PropPrepare.v]"
  },
  {
   "property": "C34",
   "status": "partial",
   "theorems": [
    "c34_persisted",
    "c34_no_failure",
    "c34_accounting",
    "c34_bounded",
    "c34_no_deadlock",
    "c34_terminates",
    "c34_short_feature_refuted"
   ],
   "note": "Proved for features whose serialization has at least 32 bytes (c34_no_failure, c34_persisted); a shorter one makes a flush throw and loses everything taken with it (c34_short_feature_refuted). The unsynchronised read of mem_size_ in flush is modelled as an atomic read. [theories/PropInserter.v]"
  },
  {
   "property": "C35",
   "status": "partial",
   "theorems": [
    "c35_committed",
    "c35_torn_write",
    "c35_reopen_refuted"
   ],
   "note": "Proved for the memory-mapped file as it is at any moment and for torn writes; false once the file is opened again and the last pack ends with a zero byte (c35_reopen_refuted). [theories/PropInserter.v]"
  },
  {
   "property": "C36",
   "status": "proved",
   "theorems": [
    "c36_intact",
    "c36_complete",
    "c36_defined",
    "c36_terminates"
   ],
   "note": "Packing function, sort order of equal records, in-flight limit and batch size are arbitrary; result order and timeouts are chosen by the schedule. [theories/PropRepack.v]"
  },
  {
   "property": "C37",
   "status": "partial",
   "theorems": [
    "c37_crash_refuted"
   ],
   "note": "The property is false: c37_crash_refuted. pack_features clears the table and commits that before it repacks (feature_pack.cc:95-96); a crash before the first callback, or the exception of C55, leaves no entry at all. What holds is C56. [theories/PropRepack.v]"
  },
  {
   "property": "C38",
   "status": "proved",
   "theorems": [
    "c38_lookup",
    "c38_rejects"
   ],
   "note": "Temporary files are empty at the start; statistics not modelled. [theories/PropNodeIdx.v]"
  },
  {
   "property": "C39",
   "status": "proved",
   "theorems": [
    "c39_batch"
   ],
   "note": "Hypotheses: ids below 2^62 and fewer than 2^31 nodes: the skip loop counts a span with an int (hybrid_node_idx.cc:241), so a span of 2^31 nodes is undefined behaviour, and curr_id + 1024 overflows for ids next to 2^63. [theories/PropNodeIdx.v]"
  },
  {
   "property": "C40",
   "status": "partial",
   "theorems": [
    "c40_way",
    "c40_partial",
    "c40_wrapping",
    "c40_refuted",
    "c40_missing_refuted"
   ],
   "note": "False as stated: update_locations converts to int32 and then subtracts 180 degrees, which overflows (undefined behaviour) for every longitude from 34.7483648 east on (c40_refuted); the location of a node that is not in the index becomes the defined location (34.7483647, 124.7483647) (c40_missing_refuted). Proved: c40_partial (west of that longitude), c40_way (the way handler, everywhere), c40_wrapping (update_locations everywhere, if int32_t wraps around). [theories/PropNodeIdx.v]"
  },
  {
   "property": "C41",
   "status": "proved",
   "theorems": [
    "c41_joined",
    "c41_features",
    "c41_segments",
    "c41_fits_builder"
   ],
   "note": "Lines must have points and no end point (2^63-1,2^63-1), which the code uses for 'no point'; a line without points is undefined behaviour (c41_ex_empty). The simplification of joined lines (geo::simplify, third party) is a parameter; c41_segments is for simplification that changes nothing. [theories/PropAggregate.v]"
  },
  {
   "property": "C42",
   "status": "partial",
   "theorems": [
    "c42_tile_url",
    "c42_not_a_tile",
    "c42_only_tiles",
    "c42_defined",
    "c42_numbers_refuted"
   ],
   "note": "c42_tile_url, c42_not_a_tile, c42_only_tiles, c42_defined hold for all URLs; false part: parse_tile_url also accepts '///.mvt' (empty numbers) and numbers that do not fit (c42_numbers_refuted). [theories/PropServer.v]"
  },
  {
   "property": "C43",
   "status": "partial",
   "theorems": [
    "c43_decode",
    "c43_truncated",
    "c43_no_hex_partial",
    "c43_no_hex_refuted",
    "c43_decode_defined",
    "c43_decode_exact",
    "c43_methods",
    "c43_answer",
    "c43_undecodable",
    "c43_head_has_body"
   ],
   "note": "False parts: '%4g' is decoded although g is no hex digit (c43_no_hex_refuted; c43_no_hex_partial says which are refused), and the answer to HEAD has a body (c43_head_has_body). The rest holds for all requests. [theories/PropServer.v]"
  },
  {
   "property": "C44",
   "status": "proved",
   "theorems": [
    "c44_stored_verbatim",
    "c44_not_stored",
    "c44_sea_only"
   ],
   "note": "[theories/PropRender.v]"
  },
  {
   "property": "C45",
   "status": "partial",
   "theorems": [
    "c45_direct_values",
    "c45_tag_string",
    "c45_tag_bool_inverted",
    "c45_tag_bool_refuted",
    "c45_tag_integer_is_double",
    "c45_tag_integer_refuted"
   ],
   "note": "The property is false of the code for add_tag_as_bool (inverted: c45_tag_bool_inverted, c45_tag_bool_refuted) and add_tag_as_integer (stored as double: c45_tag_integer_refuted); it holds for the other calls. [theories/PropOsm.v]"
  },
  {
   "property": "C46",
   "status": "proved",
   "theorems": [
    "c46_one_value_per_key"
   ],
   "note": "[theories/PropOsm.v]"
  },
  {
   "property": "C47",
   "status": "partial",
   "theorems": [
    "c47_single_parts_partial",
    "c47_rings",
    "c47_parts_refuted"
   ],
   "note": "False of the code: each part is read from the beginning of the points array (c47_parts_refuted). Holds for records with one part; c47_rings says what is read in general. [theories/PropShape.v]"
  },
  {
   "property": "C48",
   "status": "partial",
   "theorems": [
    "c48_strict_rings_refuted"
   ],
   "note": "The property is false of the code: a ring that collapses to [a;b;a] under the shift is encoded with one LineTo. A lenient reader decodes it exactly (C25); a strict reader accepts all rings of at least four points (c25_roundtrip_strict). [theories/PropMvt.v]"
  },
  {
   "property": "C49",
   "status": "proved",
   "theorems": [
    "c49_inserted_as_approved",
    "c49_script_error"
   ],
   "note": "[theories/PropOsm.v]"
  },
  {
   "property": "C50",
   "status": "partial",
   "theorems": [
    "c50_way",
    "c50_area",
    "c50_defined_refuted",
    "c50_ub_only_unknown_inner",
    "c50_short_inner_dropped_refuted"
   ],
   "note": "Two parts are false of the code: an inner ring without known locations is undefined behaviour (c50_defined_refuted) and a short inner ring loses a point instead of being dropped (c50_short_inner_dropped_refuted). [theories/PropOsm.v]"
  },
  {
   "property": "C51",
   "status": "partial",
   "theorems": [
    "c51_static_files_partial",
    "c51_static_files_refuted"
   ],
   "note": "False of the code: '..' segments leave the resource directory (c51_static_files_refuted). Holds for paths without them. [theories/PropServer.v]"
  },
  {
   "property": "C52",
   "status": "proved",
   "theorems": [
    "c52_total",
    "c52_feature_shown",
    "c52_only_stored",
    "c52_too_deep"
   ],
   "note": "[theories/PropRender.v]"
  },
  {
   "property": "C53",
   "status": "partial",
   "theorems": [
    "c53_terminates",
    "c53_truncated_refuted"
   ],
   "note": "Termination holds for every byte string (c53_terminates). Refusing truncated files is false: reading beyond the end (c53_truncated_refuted). [theories/PropShape.v]"
  },
  {
   "property": "C54",
   "status": "proved",
   "theorems": [
    "c54_served_as_rendered",
    "c54_outside"
   ],
   "note": "[theories/PropPrepare.v]"
  },
  {
   "property": "C55",
   "status": "partial",
   "theorems": [
    "c55_partial",
    "c55_can_complete",
    "c55_refuted",
    "c55_empty_refuted"
   ],
   "note": "c55_partial: the first defragmentation succeeds if everything fits into the in-flight memory, or if every tile has one record and more space is free than the largest record takes. c55_refuted: with several records per tile defragment throws 'no progress' on a valid layout with three times the largest record free (limit 20 instead of kRepackInFlightMemory = 1 GiB, the layout scales). c55_empty_refuted: an empty database with an empty pack file throws. [theories/PropRepack.v]"
  },
  {
   "property": "C56",
   "status": "proved",
   "theorems": [
    "c56_completed",
    "c56_entries"
   ],
   "note": "[theories/PropRepack.v]"
  },
  {
   "property": "C57",
   "status": "proved",
   "theorems": [
    "c57_partition",
    "c57_can_finish",
    "c57_no_worker_refuted",
    "c57_adjacent_refuted"
   ],
   "note": "Proved for runs without an exception. Limits proved beside it: c57_adjacent_refuted (two disjoint adjacent land polygons that fill a zoom-10 draw area make a worker throw 'difference empty!', which ends the program) and c57_no_worker_refuted (hardware_concurrency()==0: never ends). [theories/PropCoast.v]"
  },
  {
   "property": "C58",
   "status": "proved",
   "theorems": [
    "c58_sea",
    "c58_land",
    "c58_overlap_refuted"
   ],
   "note": "Clipper abstract with contract clips_well (met by an exact clipper, grid_clips_well). Limit: c58_overlap_refuted - the even-odd rule runs over all polygons at once, so the overlap of two land polygons becomes sea. [theories/PropCoast.v]"
  },
  {
   "property": "C59",
   "status": "proved",
   "theorems": [
    "c59_seaside_tree"
   ],
   "note": "[theories/PropCoast.v]"
  },
  {
   "property": "C60",
   "status": "proved",
   "theorems": [
    "c60_layout",
    "c60_complete"
   ],
   "note": "[theories/PropLayout.v]"
  },
  {
   "property": "C61",
   "status": "proved",
   "theorems": [
    "c61_total"
   ],
   "note": "[theories/PropImport.v]"
  },
  {
   "property": "C62",
   "status": "proved",
   "theorems": [
    "c62_object_shown"
   ],
   "note": "[theories/PropImport.v]"
  },
  {
   "property": "C63",
   "status": "proved",
   "theorems": [
    "c63_sea_shown"
   ],
   "note": "[theories/PropImport.v]"
  },
  {
   "property": "C64",
   "status": "proved",
   "theorems": [
    "c64_nothing_else"
   ],
   "note": "[theories/PropImport.v]"
  },
  {
   "property": "C65",
   "status": "proved",
   "theorems": [
    "c65_import_completes",
    "c65_prepare_completes",
    "c65_tasks"
   ],
   "note": "Possibility (some schedule ends the run), not fairness; sizes bounded by moderate: below 1 GiB in all. Concrete case: c65_ex_moderate, c61_ex_history (an island, a road, a lake). [theories/PropFinish.v]"
  },
  {
   "property": "C66",
   "status": "proved",
   "theorems": [
    "c66_stats"
   ],
   "note": "Modelled without what is printed. [theories/PropFinish.v]"
  },
  {
   "property": "C67",
   "status": "proved",
   "theorems": [
    "c67_profiles_safe",
    "c67_profiles_usable"
   ],
   "note": "script_ok (no failing call), layer, zoom and metadata of both profiles for every object; the Lua interpreter is not modelled, the scripts are transcribed call by call; tonumber is an arbitrary function [theories/PropProfile.v]"
  },
  {
   "property": "C68",
   "status": "partial",
   "theorems": [
    "c68_roads",
    "c68_lifts",
    "c68_rails",
    "c68_other_ways",
    "c68_places",
    "c68_areas",
    "c68_levels",
    "c68_old_rails_refuted",
    "c68_water_refuted",
    "c68_half_levels_refuted"
   ],
   "note": "positive theorems for roads, lifts, rails, waterways, places, areas and levels; the _refuted theorems show that disused/abandoned rails are never imported, that no water is shown at zoom 10, and how fractional or dashed levels are misread; tonumber is assumed to read decimal int64 texts [theories/PropProfile.v]"
  },
  {
   "property": "C69",
   "status": "proved",
   "theorems": [
    "c69_objects",
    "c69_areas",
    "c69_loads",
    "c69_buffers"
   ],
   "note": "osmium's reader and multipolygon assembler are parameters; file_ok asks for sorted nodes with distinct ids (ignoring the sign), at most 2^31 nodes and ways without locations; both variants of int32_t arithmetic ([all]) [theories/PropLoadOsm.v]"
  },
  {
   "property": "C70",
   "status": "proved",
   "theorems": [
    "c70_job_ok",
    "c70_objects_shown",
    "c70_roads_shown",
    "c70_places_shown",
    "c70_areas_shown",
    "c70_waterways_shown",
    "c70_rails_shown"
   ],
   "note": "end to end: ModelLoadOsm -> ModelProfile -> ModelOsm -> ModelImport -> server; contents_ok: tags below 16 MiB, objects below 2^24 points, unique ids per kind, areas with rings of at least four points (osmium's contract); roads on prepared tiles up to zoom 10 are joined with others and are not promised by c70_roads_shown (see C62, C64) [theories/PropLoadOsm.v]"
  },
  {
   "property": "C71",
   "status": "partial",
   "theorems": [
    "c71_exclusive",
    "c71_same",
    "c71_enough",
    "c71_race_refuted"
   ],
   "note": "c71_exclusive, c71_same and c71_enough under sequentially consistent memory; c71_race_refuted: an id can be read while it is written, which is a data race in C++ [theories/PropLoadOsm.v]"
  },
  {
   "property": "C72",
   "status": "proved",
   "theorems": [
    "c72_fits_renderer",
    "c72_points",
    "c72_lines",
    "c72_polygons",
    "c72_region"
   ],
   "note": "Area: up to one level 20 pixel, the library's rounding (clips_near). [theories/PropClip.v]"
  },
  {
   "property": "C73",
   "status": "proved",
   "theorems": [
    "c73_no_area_fails",
    "c73_fails_only",
    "c73_tile_fails"
   ],
   "note": "c73_tile_fails: one polygon without an area suppresses every tile it has to be drawn on. [theories/PropClip.v]"
  },
  {
   "property": "C74",
   "status": "partial",
   "theorems": [
    "c74_consistent",
    "c74_winding_refuted",
    "c74_sea_refuted",
    "c74_rounding_refuted"
   ],
   "note": "Opposite directions: proved for the clipped geometry (c74_consistent). The direction the specification asks for is refuted (rings turn the other way, also the sea), and rounding to tile pixels may turn a ring. [theories/PropClip.v]"
  },
  {
   "property": "C75",
   "status": "proved",
   "theorems": [
    "c75_tile_fine"
   ],
   "note": "[theories/PropTileForm.v]"
  },
  {
   "property": "C76",
   "status": "proved",
   "theorems": [
    "c76_total",
    "c76_tile_fine",
    "c76_nothing_else",
    "c76_includes",
    "c76_stats"
   ],
   "note": "[theories/PropCrash.v]"
  },
  {
   "property": "C77",
   "status": "proved",
   "theorems": [
    "c77_object_shown",
    "c77_sea_shown",
    "c77_kill_preparing",
    "c77_completes_after"
   ],
   "note": "[theories/PropCrash.v]"
  },
  {
   "property": "C78",
   "status": "proved",
   "theorems": [
    "c78_line_shown",
    "c78_lines_only",
    "c78_line_shown_stopped",
    "c78_lines_only_stopped",
    "c78_fits",
    "c78_segments"
   ],
   "note": "[theories/PropJoined.v]"
  },
  {
   "property": "C79",
   "status": "partial",
   "theorems": [
    "c79_serves_refuted",
    "c79_elsewhere",
    "c79_repaired",
    "c79_happens"
   ],
   "note": "c79_serves_refuted: tiles with an object handled before the exception fail; the other theorems hold. [theories/PropAbort.v]"
  },
  {
   "property": "C80",
   "status": "proved",
   "theorems": [
    "c80_coast_total",
    "c80_coast_nothing_else",
    "c80_osm_elsewhere",
    "c80_end_total",
    "c80_end_nothing_else",
    "c80_repaired",
    "c80_happens_end",
    "c80_happens_osm",
    "c80_happens_coast"
   ],
   "note": "Under tail_kept (a byte behind the packs is not 0), whose failure is C08; tiles close to objects fail if the kill happens while the OSM file is read, as shown in C79. [theories/PropKill.v]"
  },
  {
   "property": "C81",
   "status": "partial",
   "theorems": [
    "c81_lines",
    "c81_all_levels",
    "c81_goes_on",
    "c81_empty_refuted"
   ],
   "note": "c81_empty_refuted: number of empty tiles and average are wrong in the code; the other parts hold. [theories/PropPrepLog.v]"
  },
  {
   "property": "C82",
   "status": "proved",
   "theorems": [
    "c82_statistics",
    "c82_size",
    "c82_entries"
   ],
   "note": "[theories/PropNodeStats.v]"
  },
  {
   "property": "C83",
   "status": "proved",
   "theorems": [
    "c83_debug_tile",
    "c83_same_outcome"
   ],
   "note": "[theories/PropDebug.v]"
  },
  {
   "property": "C84",
   "status": "proved",
   "theorems": [
    "c84_preparing"
   ],
   "note": "[theories/PropLive.v]"
  },
  {
   "property": "C85",
   "status": "partial",
   "theorems": [
    "c85_packing",
    "c85_packing_refuted",
    "c85_restart_refuted"
   ],
   "note": "Proved: an error or the answer of a database a stopped run leaves. Refuted: that a tile stays shown while packing; that a server need not be restarted after an import. [theories/PropLive.v]"
  },
  {
   "property": "C86",
   "status": "partial",
   "theorems": [
    "c86_same",
    "c86_switches",
    "c86_total",
    "c86_counts",
    "c86_times",
    "c86_report",
    "c86_iter_refuted"
   ],
   "note": "All parts hold but for ITER_FEATURE's times, which are refuted. [theories/PropPerf.v]"
  },
  {
   "property": "C87",
   "status": "partial",
   "theorems": [
    "c87_same",
    "c87_lines",
    "c87_debug",
    "c87_debug_refuted"
   ],
   "note": "c87_debug_refuted: the line about the debug layer counts nothing; everything else in the statement is proved for all other layers [theories/PropTileStats.v]"
  },
  {
   "property": "C88",
   "status": "proved",
   "theorems": [
    "c88_same",
    "c88_place",
    "c88_segments",
    "c88_segments_shown",
    "c88_points_shown",
    "c88_points",
    "c88_areas"
   ],
   "note": "[theories/PropSeam.v]"
  },
  {
   "property": "C89",
   "status": "proved",
   "theorems": [
    "c89_both_show",
    "c89_same",
    "c89_coast",
    "c89_sea"
   ],
   "note": "[theories/PropSame.v]"
  }
 ]
}