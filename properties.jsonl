{"id": "C01", "title": "Tile keys round-trip and bad coordinates are rejected", "statement": "tile_to_key(tile,n) either throws because a component does not fit its bit field (z<32, x,y<2^21, n<2^17) or returns a 64-bit key from which key_to_tile/key_to_n recover exactly the tile and n that were put in. No two accepted (tile,n) pairs share a key.", "quantifier": "all 32-bit x, y, z and n", "why_tests_cant": "2^128 inputs; a wrong shift or mask only shows for particular bit patterns", "anchors": ["include/tiles/db/tile_index.h: tile_to_key, key_to_tile, key_to_n"]}
{"id": "C02", "title": "Database key order is the (z, y, x, n) order", "statement": "Comparing two keys as unsigned 64-bit integers (the order the database iterates in) is the lexicographic comparison of (z, y, x, n); every feature bucket of one tile row between two columns is one contiguous key interval.", "quantifier": "all pairs of accepted tiles", "why_tests_cant": "order isomorphism must hold for every pair", "anchors": ["include/tiles/db/tile_index.h: make_feature_key", "include/tiles/get_tile.h: pack_records_foreach"]}
{"id": "C03", "title": "A tile query visits exactly the feature packs overlapping the tile", "statement": "For every database content and every valid query tile, the feature-pack enumeration done by get_tile calls its callback exactly once, in key order, for every pack record stored under an index-zoom-level (10) tile that is an ancestor, descendant or equal to the query tile, and for no other record; it stops neither early nor late at row ends or at the end of the table.", "quantifier": "all databases (sets of keys with record lists), all query tiles with z<=20", "why_tests_cant": "off-by-one at row ends only show for particular neighbouring keys present/absent in the table", "anchors": ["include/tiles/get_tile.h: pack_records_foreach", "include/tiles/db/tile_index.h: make_feature_key, key_to_tile"]}
{"id": "C04", "title": "Pack record list codec", "statement": "pack_records_deserialize(pack_records_serialize(v)) = v for every list of records; pack_records_update(dat, r) decodes to the old list followed by r (also for an empty old value); foreach visits the same records in the same order; a byte string whose length is not a multiple of 16 is rejected rather than read out of bounds.", "quantifier": "all record lists and all byte strings", "why_tests_cant": "unbounded lists", "anchors": ["include/tiles/db/pack_file.h: pack_records_serialize, pack_records_update, pack_records_deserialize, pack_records_foreach"]}
{"id": "C05", "title": "Pack file: reads return what was appended, other records are untouched", "statement": "After any sequence of append, insert and move operations on a pack file handle, get on a record returned by append yields the appended bytes as long as no later insert/move wrote into its span; append never writes below the old end of file; move (even with overlapping source and target) puts at the target exactly the bytes the source had before.", "quantifier": "all operation sequences, all byte contents", "why_tests_cant": "overlapping moves and histories of arbitrary length", "anchors": ["include/tiles/db/pack_file.h: pack_handle::append, insert, move, get"]}
{"id": "C06", "title": "Pack file reads are confined to the file", "statement": "pack_handle.get(record) throws for every record that does not lie within the file, it never returns bytes from outside.", "quantifier": "all file sizes and all 64-bit offset/size pairs", "why_tests_cant": "the failing inputs need sums beyond 2^64", "anchors": ["include/tiles/db/pack_file.h: pack_handle::get"]}
{"id": "C07", "title": "Pack file: clean close and reopen preserves all records", "statement": "If a pack file handle is destroyed normally and the file is reopened, every record that was readable before is readable again with the same bytes, and records appended afterwards do not overlap it, whatever the bytes at the end of the file are (including NUL bytes).", "quantifier": "all operation histories and contents, any number of close/reopen cycles", "why_tests_cant": "depends on trailing NUL content at every close", "anchors": ["include/tiles/db/pack_file.h: pack_handle constructor and destructor"]}
{"id": "C08", "title": "Pack file: an abnormal stop must not corrupt committed records", "statement": "If the process stops without running the pack_handle destructor, after reopen all records appended before the stop and referenced by committed database entries stay readable and are not overwritten by later appends.", "quantifier": "all contents, all crash points after an append", "why_tests_cant": "crash points; depends on trailing bytes of the last record", "anchors": ["include/tiles/db/pack_file.h: pack_handle", "include/tiles/db/feature_inserter_mt.h: persist_feature_pack"]}
{"id": "C09", "title": "Feature pack round-trip", "statement": "For every list of serialized features (each of legal size), packing with pack_features and reading the pack with unpack_features calls the consumer with exactly the same byte strings in the same order, exactly once each.", "quantifier": "all feature lists", "why_tests_cant": "unbounded number and size of features, varint length boundaries", "anchors": ["include/tiles/db/feature_pack.h: feature_packer, unpack_features", "src/db/feature_pack.cc: pack_features"]}
{"id": "C10", "title": "Feature pack checksum", "statement": "A pack produced by the packer passes feature_pack_valid; changing the pack in any burst of up to 32 consecutive bits (in particular any single byte) makes feature_pack_valid return false.", "quantifier": "all packs and all corruption positions/values", "why_tests_cant": "all contents x all positions", "anchors": ["include/tiles/db/feature_pack.h: feature_packer::finish, feature_pack_valid"]}
{"id": "C11", "title": "Every feature the importer serializes can be packed", "statement": "pack_features never throws on features that serialize_feature produced.", "quantifier": "all features", "why_tests_cant": "the failing features are tiny and near the coordinate origin, unlikely in samples", "anchors": ["include/tiles/db/feature_pack.h: append_feature", "include/tiles/feature/serialize.h: serialize_feature"]}
{"id": "C12", "title": "Quad tree packing loses and duplicates nothing", "statement": "pack_features with a quad tree index (pack_features(root, ...)) keeps every feature of its input: a full unpack of the result yields, in some order, each input feature exactly as often as it was in the input, with the same id, layer, zoom levels and geometry and the same metadata up to order; the result passes feature_pack_valid, and can be packed again.", "quantifier": "all feature lists inside the root tile", "why_tests_cant": "unbounded sets of features and tree shapes", "anchors": ["src/db/feature_pack_quadtree.cc: pack_features, quadtree_feature_packer"]}
{"id": "C13", "title": "Indexed unpack finds every feature relevant for a tile", "statement": "Unpacking an indexed pack for query tile t hands over every packed feature whose minimum zoom level is at most max(root.z, t.z) and whose bounding box intersects t, and only features whose assigned quad tree node is an ancestor, a descendant or equal to t; each exactly once.", "quantifier": "all packs, all query tiles", "why_tests_cant": "unbounded trees x all query tiles", "anchors": ["include/tiles/db/feature_pack.h: unpack_features(root, pack, tile, fn)", "src/db/feature_pack_quadtree.cc", "src/db/quad_tree.cc: walk_quad_tree"]}
{"id": "C14", "title": "Best-tile assignment covers the bounding box", "statement": "The quad tree node selected for a feature during packing is a descendant-or-self of the root whose tile intersects the feature's box in every tile that the box intersects: any tile within the root that overlaps the feature's box is an ancestor or a descendant of the selected node. The search terminates for every box and throws only if the box misses the root tile.", "quantifier": "all boxes, all roots", "why_tests_cant": "2^128 boxes", "anchors": ["src/db/feature_pack_quadtree.cc: find_best_tile"]}
{"id": "C15", "title": "Quad tree walk is exact", "statement": "For entries laid out as quad_tree.h documents (z order, parents first, data consecutive), walk_quad_tree over make_quad_tree(root, entries) reports spans that together cover exactly the data of the entries whose tile is an ancestor, descendant or equal to the query tile, each exactly once; construction throws iff some entry lies outside the root.", "quantifier": "all entry lists with increasing data offsets, all query tiles", "why_tests_cant": "recursive structure of unbounded shape", "anchors": ["src/db/quad_tree.cc: make_quad_tree, walk_quad_tree"]}
{"id": "C16", "title": "Seaside tree membership", "statement": "bq_tree built by make_bq_tree(tiles): contains(q) is true iff some input tile is q or an ancestor of q.", "quantifier": "all lists of valid tiles up to zoom 23 (tree below 2^24 nodes), all query tiles", "why_tests_cant": "unbounded trees, overlapping and nested inputs", "anchors": ["src/db/bq_tree.cc: make_bq_tree, bq_tree::contains"]}
{"id": "C17", "title": "Seaside tree leaf enumeration", "statement": "all_leafs(q) returns {q} if q is covered, otherwise the maximal input tiles strictly below q, each exactly once; the area described by the result is exactly the covered area within q.", "quantifier": "all lists of valid tiles, all query tiles", "why_tests_cant": "unbounded trees", "anchors": ["src/db/bq_tree.cc: bq_tree::all_leafs"]}
{"id": "C18", "title": "Seaside tree survives storage", "statement": "The byte string of a bq_tree put in the meta table and loaded again answers contains and all_leafs identically; a byte string with a length that is not a multiple of 4 is rejected.", "quantifier": "all trees", "why_tests_cant": "all trees and queries", "anchors": ["src/db/bq_tree.cc: bq_tree(std::string_view), string_view"]}
{"id": "C19", "title": "Variable-length integers", "statement": "Varint and zigzag encoding as used for features, packs and the node index is invertible for every 64-bit value, is never longer than 10 bytes (5 bytes for values below 2^32) and is prefix-free, so a reader always stops at the right byte.", "quantifier": "all 64-bit values, all following bytes", "why_tests_cant": "2^64 values", "anchors": ["include/tiles/feature/serialize.h", "src/osm/hybrid_node_idx.cc: write_varint, get_varint", "include/tiles/db/feature_pack.h: append_feature"]}
{"id": "C20", "title": "Geometry serialization round-trip", "statement": "deserialize(serialize(g)) = g for every point set, polyline set and polygon set with representable coordinates whose rings have at least four points (shorter rings disappear on reading); empty and null geometries are rejected on writing, everything else is accepted.", "quantifier": "all geometries", "why_tests_cant": "unbounded nesting and lengths, all 33-bit deltas", "anchors": ["src/fixed/io/serialize.cc: serialize", "src/fixed/io/deserialize.cc: deserialize"]}
{"id": "C21", "title": "Feature serialization round-trip", "statement": "deserialize_feature(serialize_feature(f)) yields f's id, layer, zoom levels and geometry, and its metadata up to order, with and without a shared metadata dictionary.", "quantifier": "all features, all metadata dictionaries", "why_tests_cant": "unbounded metadata and geometry", "anchors": ["include/tiles/feature/serialize.h: serialize_feature", "include/tiles/feature/deserialize.h: deserialize_feature"]}
{"id": "C22", "title": "Feature filters", "statement": "deserialize_feature with a zoom level and box hint returns nothing iff the zoom level is outside the inclusive [min,max] zoom range of the feature, or the query box and the stored bounding box are disjoint as closed boxes, or simplification at that zoom level leaves nothing of the geometry; a feature with any segment touching the query box is never dropped by the box filter, and a feature that is not dropped comes back with all its data.", "quantifier": "all features, boxes and zoom levels", "why_tests_cant": "boundaries of ranges for every value", "anchors": ["include/tiles/feature/deserialize.h: deserialize_feature"]}
{"id": "C23", "title": "Precomputed simplification masks select a subset of the points", "statement": "Deserializing at a zoom level with simplification masks yields for each line or ring exactly the stored points whose mask bit is set, in order and with exact coordinates (skipped points do not shift later ones); without masks all points are returned.", "quantifier": "all geometries and masks", "why_tests_cant": "unbounded; an error accumulates over delta decoding", "anchors": ["src/fixed/io/deserialize.cc: deserialize(pz, simplify)", "include/tiles/fixed/algo/make_simplify_mask.h"]}
{"id": "C24", "title": "Scaling to tile coordinates", "statement": "shift(geometry, z) maps every coordinate c to floor(c / 2^(20-z)), keeps point order, leaves no two equal adjacent points in a line or ring, and drops only degenerate lines (fewer than 2 points) and rings (fewer than 3).", "quantifier": "all geometries and zoom levels", "why_tests_cant": "all coordinates", "anchors": ["include/tiles/fixed/algo/shift.h: shift, transform_erase"]}
{"id": "C25", "title": "Vector tile geometry encoding is decodable", "statement": "For every shifted geometry encode_geometry produces a command stream that a Mapbox Vector Tile decoder reads back to exactly the points relative to the tile origin (points, lines, closed rings), and it never throws for geometries produced by shift.", "quantifier": "all shifted geometries, all tiles", "why_tests_cant": "unbounded geometries; zero-length segments", "anchors": ["src/mvt/encode_geometry.cc: encode_geometry"]}
{"id": "C26", "title": "Vector tile tags refer to the right strings", "statement": "In each layer of a rendered tile every (key index, value index) pair of a feature resolves to exactly the metadata key and value of that feature (excluding internal keys), all indices are within the layer's tables, and equal values share an index.", "quantifier": "all sequences of features", "why_tests_cant": "histories of insertions of arbitrary length", "anchors": ["src/mvt/tile_builder.cc: layer_builder::write_metadata, get_or_create_index"]}
{"id": "C27", "title": "One feature per id, layer and geometry kind", "statement": "When several parts of the same feature id are added to a layer, the rendered layer contains that id once (per geometry kind for aggregated kinds), layers come out in layer-index order and layers without geometry are absent.", "quantifier": "all feature sequences", "why_tests_cant": "histories", "anchors": ["src/mvt/tile_builder.cc: tile_builder, layer_builder"]}
{"id": "C28", "title": "Layer names persist with stable indices", "statement": "read_layer_names(write_layer_names(v)) = v; during an import each distinct layer name gets one index for all its features, indices are dense from 0 in first-use order with coastline fixed at 0, also under concurrent importer threads.", "quantifier": "all name lists; all call sequences/interleavings of get_layer_idx", "why_tests_cant": "interleavings", "anchors": ["include/tiles/db/layer_names.h"]}
{"id": "C29", "title": "Shared metadata dictionary consistency", "statement": "Every encode/decode pair agrees: if the coder encodes a (key,value) to id i then decoding i yields that (key,value); it encodes exactly the entries of the dictionary; storing and loading the dictionary preserves ids.", "quantifier": "all dictionaries", "why_tests_cant": "unbounded dictionaries", "anchors": ["include/tiles/db/shared_metadata.h: shared_metadata_coder, shared_metadata_builder::store, make_shared_metadata_coder"]}
{"id": "C30", "title": "Shared metadata counting", "statement": "After any number of update calls in any order the builder's count of a (key,value) pair equals the number of times it was seen, and store writes exactly the pairs seen at least twice in descending count order.", "quantifier": "all update histories", "why_tests_cant": "histories, merge boundaries", "anchors": ["include/tiles/db/shared_metadata.h: shared_metadata_builder"]}
{"id": "C31", "title": "In-order queue", "statement": "For every interleaving of worker threads the in_order_queue runs the consumer for the enqueued items one at a time, in index order, each exactly once, and at the end (all threads done) no item is left behind.", "quantifier": "all schedules of any number of threads", "why_tests_cant": "interleavings", "anchors": ["include/tiles/util_parallel.h: in_order_queue::process_in_order"]}
{"id": "C32", "title": "Draining the result queue at the end of an import stage", "statement": "When the last worker has finished, the draining loop has processed every result that workers produced: for load_coastlines no result is lost in any schedule; for repack_features the same must hold.", "quantifier": "all schedules", "why_tests_cant": "needs a preemption between two adjacent reads", "anchors": ["include/tiles/db/repack_features.h: repack_features (dequeue_results)", "src/osm/load_coastlines.cc: load_coastlines", "include/tiles/util_parallel.h: queue_wrapper"]}
{"id": "C33", "title": "Tile preparation covers every tile once", "statement": "For all schedules of the preparation threads each tile of every zoom level 0..max within the database's bounds is rendered by exactly one thread, and afterwards exactly the non-empty ones are stored under their own key.", "quantifier": "all tile ranges, batch sizes, thread schedules", "why_tests_cant": "interleavings and range shapes", "anchors": ["src/db/prepare_tiles.cc: prepare_manager::get_batch, prepare_tiles"]}
{"id": "C34", "title": "Feature inserter persists every feature exactly once", "statement": "For any sequence (and any interleaving of threads) of inserts, after the inserter is destroyed the database holds for each index tile packs which together contain exactly the features inserted for that tile, each once; flushing keeps the cache size accounting exact and never leaves the cache above its threshold.", "quantifier": "all insert histories, thresholds, schedules", "why_tests_cant": "histories and interleavings", "anchors": ["include/tiles/db/feature_inserter_mt.h: feature_inserter_mt"]}
{"id": "C35", "title": "Feature inserter is crash consistent", "statement": "At every crash point of the inserter (between writing a pack into the pack file and committing the database transaction) every record in the committed database references fully written bytes of the pack file.", "quantifier": "all crash points of all histories", "why_tests_cant": "crash points", "anchors": ["include/tiles/db/feature_inserter_mt.h: persist_feature_pack", "include/tiles/db/pack_file.h"]}
{"id": "C36", "title": "Repacking never overwrites live data and rewrites every tile once", "statement": "While feature packs are repacked in place, no write into the pack file overlaps a record that still has to be read or that has already been assigned as a final result; at the end every tile of the input has exactly one updated record list that references the bytes the packing function produced for it.", "quantifier": "all record layouts, all result sizes, all completion orders", "why_tests_cant": "unbounded layouts and schedules", "anchors": ["include/tiles/db/repack_features.h: repack_memory_manager"]}
{"id": "C37", "title": "Packing a database is crash safe", "statement": "If the process stops while pack_features(db) is running, every feature can still be found from the database after restart.", "quantifier": "all crash points", "why_tests_cant": "crash points", "anchors": ["src/db/feature_pack.cc: pack_features(tile_db_handle&, pack_handle&)"]}
{"id": "C38", "title": "Node index lookup", "statement": "After building the hybrid node index from any valid node stream, get_coords(id) returns exactly the coordinates that were pushed for id and nothing for ids that were not pushed, for all id gaps, span lengths and coordinate jumps.", "quantifier": "all node streams with ascending ids, all ids", "why_tests_cant": "unbounded histories; span splits", "anchors": ["src/osm/hybrid_node_idx.cc: hybrid_node_idx_builder, get_coords(id)"]}
{"id": "C39", "title": "Node index batch lookup equals single lookups", "statement": "The batch lookup used while resolving way nodes returns for every queried id the same coordinates as the single lookup, for every sorted query vector with duplicates.", "quantifier": "all indices, all query vectors", "why_tests_cant": "state machine with many transitions", "anchors": ["src/osm/hybrid_node_idx.cc: get_coords(vector)"]}
{"id": "C40", "title": "Node locations survive the index", "statement": "A node location written into the index and read back by update_locations equals the location in the OSM file for every location on earth, without undefined behaviour.", "quantifier": "all valid OSM locations", "why_tests_cant": "requires particular longitudes", "anchors": ["src/osm/hybrid_node_idx.cc: hybrid_node_idx_builder::push, update_locations"]}
{"id": "C41", "title": "Line aggregation preserves the drawn lines", "statement": "Joining line features of a tile keeps every segment: the multiset of undirected segments of the result equals that of the input, lines are only joined at end points shared by exactly two lines, and joining terminates.", "quantifier": "all sets of lines, including cycles and self-loops", "why_tests_cant": "graph shapes", "anchors": ["src/feature/aggregate_line_features.cc: join_lines, aggregate_line_features"]}
{"id": "C42", "title": "Tile URLs", "statement": "parse_tile_url accepts /z/x/y.mvt for all numeric z, x, y and yields exactly that tile; paths without the .mvt suffix are never answered with a tile.", "quantifier": "all strings", "why_tests_cant": "all strings", "anchors": ["include/tiles/parse_tile_url.h"]}
{"id": "C43", "title": "HTTP server request handling", "statement": "For every request the server answers exactly once, with the status determined by method, encoding and tile lookup; url decoding is exact for percent encoded strings and rejects truncated or non-hexadecimal escapes.", "quantifier": "all requests", "why_tests_cant": "all strings", "anchors": ["src/server.cc: serve_request, url_decode"]}
{"id": "C44", "title": "Prepared tiles are served verbatim", "statement": "get_tile at or below the prepared zoom level returns the stored bytes if the tile was stored, otherwise renders exactly the seaside-only tile if the tile is covered by sea and nothing otherwise; above it, it renders from features.", "quantifier": "all databases, all tiles", "why_tests_cant": "state space of the database", "anchors": ["include/tiles/get_tile.h: get_tile"]}
{"id": "C45", "title": "Tags keep their meaning and type", "statement": "A feature tag added as boolean is stored as true iff its value is \"true\"; one added as integer is stored as exactly that integer; strings and directly added values keep type and value.", "quantifier": "all tag values", "why_tests_cant": "all strings / 64-bit integers", "anchors": ["include/tiles/osm/pending_feature.h: add_tag_as_bool, add_tag_as_integer"]}
{"id": "C46", "title": "Metadata of a feature has one value per key", "statement": "After finishing a pending feature its metadata is sorted, holds at most one value per key, and every key that was added is still there.", "quantifier": "all metadata lists", "why_tests_cant": "unbounded lists", "anchors": ["include/tiles/osm/pending_feature.h: finish_metadata"]}
{"id": "C47", "title": "Shapefile rings are read from their own points", "statement": "For every polygon record with several parts each ring consists of exactly the points from its part index up to the next one.", "quantifier": "all shapefile records", "why_tests_cant": "multi-part records", "anchors": ["src/osm/load_shapefile.cc: read_polygon, read_ring"]}
{"id": "C48", "title": "Polygon rings of a tile have at least three points", "statement": "Every polygon ring written into a vector tile has a MoveTo and a LineTo with at least two points before ClosePath, as the vector tile standard demands, so that strict readers accept the tile.", "quantifier": "all tiles and all clipped polygon geometries", "why_tests_cant": "depends on how rings of any shape collapse when coordinates are shifted to the zoom level", "anchors": ["include/tiles/fixed/algo/shift.h: shift", "src/mvt/encode_geometry.cc: encode_geometry", "include/tiles/util.h: transform_erase"]}
{"id": "C49", "title": "Features are inserted as the profile approved them", "statement": "For every OSM object and every sequence of profile calls the object is inserted iff it was approved and has a geometry, with its id, the index of the layer set last, the zoom range approved last, its geometry and the metadata added by the calls; an approved object without layer throws; a script error keeps the effect of the earlier calls.", "quantifier": "all OSM objects, geometries and call sequences of a profile script", "why_tests_cant": "profiles are arbitrary scripts", "anchors": ["src/osm/feature_handler.cc: handle_feature", "include/tiles/osm/pending_feature.h: pending_feature"]}
{"id": "C50", "title": "OSM geometries are read completely and safely", "statement": "Ways become the line of their known node locations, areas the polygons of their closed rings with inner rings at their outer ring; rings with too few points are dropped and reading never has undefined behaviour.", "quantifier": "all ways and areas, any subset of node locations missing", "why_tests_cant": "missing node locations occur in any combination in extracts", "anchors": ["src/osm/read_osm_geometry.cc: read_osm_geometry, nodes_to_fixed"]}
{"id": "C51", "title": "Static files come from the resource directory", "statement": "The answer to any request depends on no file outside the configured resource directory.", "quantifier": "all request targets, all file systems", "why_tests_cant": "all strings, including encoded and doubled separators and parent components", "anchors": ["src/server.cc: run_tiles_server (maybe_serve_file)"]}
{"id": "C52", "title": "A served tile shows exactly the stored features that belong to it", "statement": "For a database as the importer leaves it (packed or not yet packed) and any tile above the prepared zoom levels, get_tile succeeds, and the decoded tile contains every stored feature whose zoom range includes the tile, whose bounding box touches the tile and of which simplification, clipping and rounding leave something, with its id, layer, tags and geometry; and it contains nothing that is not such a stored feature (within the overdraw margin), a joined line of such features, or a sea square of a seaside tile.", "quantifier": "all databases, packed or unpacked, all tiles with z<=20, all dictionaries and third-party clippers meeting their contract", "why_tests_cant": "end-to-end over every database content and tile; an omission in one index level hides single features on single tiles", "anchors": ["include/tiles/get_tile.h: get_tile, render_features, pack_records_foreach", "include/tiles/feature/feature_pack.h: unpack_features", "include/tiles/mvt/tile_builder.h"]}
{"id": "C53", "title": "Malformed shapefiles", "statement": "Reading a shapefile ends for every sequence of bytes, and a file that is cut off or inconsistent is refused with an exception instead of being read beyond its end.", "quantifier": "all byte sequences", "why_tests_cant": "all byte sequences", "anchors": ["src/osm/load_shapefile.cc: read_shapefile, read_int_big, read_int_little, read_double_little"]}
{"id": "C54", "title": "Serving prepared tiles shows what rendering would show", "statement": "After prepare_tiles(db, max) has finished, get_tile answers for every tile of zoom level at most max within the bounds of the features exactly what rendering the tile from the database (with lines and polygons joined) gives, including tiles fully covered by sea, which are not stored; a tile outside the bounds that is not covered by sea is empty.", "quantifier": "all databases, tiles, schedules of the preparing threads, later changes of the features", "why_tests_cant": "all tiles and schedules; the three cases stored / skipped / empty must agree with rendering for every input", "anchors": ["src/db/prepare_tiles.cc: prepare_tiles", "include/tiles/get_tile.h: get_tile"]}
{"id": "C55", "title": "Repacking succeeds whenever the pack file has room", "statement": "Repacking a valid database (records inside the pack file, not overlapping) completes without an exception when the pack file has more free space than the largest record.", "quantifier": "all databases and layouts of the pack file, all orders in which the packing threads finish", "why_tests_cant": "the in-place defragmentation terminates or gives up depending on the exact layout of all records", "anchors": ["include/tiles/db/repack_features.h: repack_memory_manager, defragment", "src/db/feature_pack.cc: pack_features"]}
{"id": "C56", "title": "Packing a database keeps the features of every tile", "statement": "After pack_features(db) has finished, every tile that had features in the database has exactly one entry, and it refers to the bytes the packing function made of all feature packs of exactly that tile; tiles without features have none. Every entry that is committed on the way is already correct.", "quantifier": "all databases, layouts, packing functions, completion orders and moments between two transactions", "why_tests_cant": "unbounded databases, layouts and schedules", "anchors": ["src/db/feature_pack.cc: pack_features(tile_db_handle&, pack_handle&)", "include/tiles/db/repack_features.h: repack_features"]}
{"id": "C57", "title": "Coastline import partitions the map", "statement": "For every land shapefile and every schedule of the worker threads: when the coastline import ends without an exception, the zoom-10 tiles for which a sea polygon was stored and the tiles recorded as fully seaside are pairwise disjoint (none equals, contains or lies in another), all exist on their zoom level (10 for stored polygons, 5 to 10 for seaside tiles), and every stored feature has the tile's key as id, the coastline layer, zoom levels 0 to 21 and no metadata. For every shapefile and at least one worker there is a schedule that ends.", "quantifier": "all lists of land polygons, all numbers of workers, all interleavings of workers and the storing thread, all behaviours of the polygon clipper that do not throw", "why_tests_cant": "The tile tree has 4^10 leaves and the order of tasks depends on the scheduler; a test sees one shapefile under one schedule.", "anchors": ["src/osm/load_coastlines.cc: process_coastline, finalize_tile, load_coastlines", "include/tiles/util_parallel.h: queue_wrapper"]}
{"id": "C58", "title": "Sea is drawn as sea, land as land", "statement": "For every land shapefile, a polygon clipper that moves borders by less than one level-20 pixel per operation, and every schedule: after an import without exceptions, every level-20 pixel that is more than eight pixels away from all land lies in a fully seaside tile or in the sea polygon stored for its zoom-10 tile; and every pixel more than eight pixels inside exactly one land polygon (and as far outside all others) lies in no seaside tile and in no stored sea polygon of its tile.", "quantifier": "all lists of land polygons (holes inside the box of the outer ring), all clippers within the rounding contract, all pixels, all schedules", "why_tests_cant": "It ranges over all polygons and all 2^64 pixels, and over six levels of repeated clipping whose rounding errors add up.", "anchors": ["src/osm/load_coastlines.cc: bounding_box, touches, within, box_to_path, intersection, to_fixed_polygon, finalize_tile, process_coastline"]}
{"id": "C59", "title": "The stored seaside tree answers exactly for the seaside tiles", "statement": "After every coastline import without exceptions, the seaside tree can be built (whatever the number of seaside tiles), its stored bytes read back as the same tree, and a query for any tile up to zoom 23 answers yes exactly if the tile lies in one of the tiles recorded as fully seaside.", "quantifier": "all shapefiles, all schedules (all sets and orders of seaside tiles), all query tiles", "why_tests_cant": "There are up to 4^10 seaside tiles in any order, and the 24 bit node index could overflow for large inputs only.", "anchors": ["src/osm/load_coastlines.cc:328-341", "src/bq_tree.cc: make_bq_tree, bq_tree::contains", "include/tiles/get_tile.h: make_render_ctx"]}
{"id": "C60", "title": "Feature packs never overlap while features are inserted", "statement": "At every moment of an import, so at every crash point, the committed features table contains only entries of index tiles, all pack records lie inside the pack file, no two records of the database share a byte, and every record leads to exactly the pack made of its features; the features of an index tile are the old ones followed by inserted ones, none twice, and all of them once the inserter was destroyed without a failure.", "quantifier": "all databases to start from, all thresholds, all numbers of threads, all sequences of insert calls, all schedules", "why_tests_cant": "Appending to the pack file, updating the table in a transaction and committing happen in steps that several threads interleave; an overlap of two packs would only show up when a later repacking overwrites one of them.", "anchors": ["include/tiles/db/feature_inserter_mt.h: feature_inserter_mt::flush", "include/tiles/db/pack_file.h: pack_handle::append", "include/tiles/db/tile_index.h: pack_records_update"]}
{"id": "C61", "title": "After every history of imports the server answers every tile request", "statement": "For any valid input, any run of the import tool that loads coastlines and/or features into a database in any state, followed by any runs that pack (any number of times, but not after preparing) or prepare tiles: for every tile up to zoom level 20 the server answers (a tile or nothing) without failing.", "quantifier": "all databases to start from, all shapefiles, OSM objects and profiles, all task lists and orders of runs, all schedules of the worker threads, all tiles", "why_tests_cant": "It composes every stage of the program over all inputs, histories and schedules; a failing tile can depend on any of them.", "anchors": ["src/import.cc", "include/tiles/db/clear_database.h", "src/server.cc", "include/tiles/get_tile.h"]}
{"id": "C62", "title": "Imported map objects are shown on every tile they belong to", "statement": "After such a history with features loaded, an object approved by the profile is on every tile served whose zoom level is at least the approved one and whose square its bounding box meets: in its layer, with its id, its metadata (one value per key) and its geometry, simplified if packed, clipped, and rounded to pixels, unless nothing of it is left, another object shares its layer, id and kind of geometry, or (on prepared tiles) lines are joined and small polygons dropped.", "quantifier": "all databases, inputs, task lists, histories, schedules, tiles and objects", "why_tests_cant": "It is the end-to-end promise of the program: nothing may be lost between the profile's approval and the tile, for any input and any interleaving of the import's threads.", "anchors": ["src/import.cc", "src/osm/feature_handler.cc", "include/tiles/db/feature_inserter_mt.h", "src/db/feature_pack.cc", "src/db/prepare_tiles.cc", "include/tiles/get_tile.h"]}
{"id": "C63", "title": "The sea is shown on every tile", "statement": "After such a history with coastlines loaded, every tile that lies in a region found to be sea only shows the square of the sea; a tile that contains such regions shows the square of each (unless tiles are prepared and nothing else is stored for it); and a sea polygon found for a tile of zoom level 10 is shown on every tile it touches that contains that tile or lies in it.", "quantifier": "all databases, shapefiles, histories, schedules and tiles", "why_tests_cant": "It composes coastline import, seaside tree, inserter, packing, preparation and rendering for all inputs and schedules.", "anchors": ["src/osm/load_coastlines.cc", "src/import.cc", "include/tiles/get_tile.h"]}
{"id": "C64", "title": "Nothing else is shown", "statement": "After such a history, every feature on a served tile is the square of a region found to be sea only, a sea polygon found for a tile of zoom level 10, or an object approved by the profile for a zoom level up to the tile's, near its bounding box, in its layer with its id, metadata and geometry (lines may be joined on prepared tiles). In particular nothing of an earlier import is shown.", "quantifier": "all databases to start from, inputs, histories, schedules and tiles", "why_tests_cant": "Stale or foreign data could come from any earlier state of the database and any stage.", "anchors": ["src/import.cc", "include/tiles/db/clear_database.h", "include/tiles/get_tile.h"]}
{"id": "C65", "title": "Imports can be completed", "statement": "A run that loads coastlines and/or map objects of a moderate size (less than a GiB in all, every stored feature at least 32 bytes, coastlines without exception, objects approved for a zoom level up to 20 with a layer) can be completed whatever the database contained before, including packing, statistics and preparing tiles if asked for; so can later runs that compute statistics or prepare tiles of a nonempty database. The phases of a run are those asked for, or all.", "quantifier": "all databases to start from, inputs, task lists, histories", "why_tests_cant": "No input must lead into a state in which a phase can only throw or wait; the phases' preconditions must be met by whatever the phase before leaves.", "anchors": ["src/import.cc", "src/db/feature_pack.cc", "src/db/prepare_tiles.cc", "include/tiles/db/repack_features.h", "include/tiles/db/feature_inserter_mt.h", "src/osm/load_coastlines.cc", "src/osm/load_osm.cc"]}
{"id": "C66", "title": "Statistics never fail", "statement": "After every history of runs, computing the statistics of the database does not throw.", "quantifier": "all databases to start from, inputs, histories and schedules", "why_tests_cant": "It reads every pack and every prepared tile of any database the import can make.", "anchors": ["src/db/database_stats.cc"]}
{"id": "C67", "title": "The profiles that come with the program never fail", "statement": "Whatever the tags of a node, way or area are, no API call of profile/full.lua and profile/background.lua fails; an approved object has one of twelve layer names and a minimum zoom level of at most 18, and at most eight metadata entries, all well-formed. So imports with these profiles meet the script-related expectations of C61 to C66.", "quantifier": "all objects with any tags, both profiles, all three functions, all areas", "why_tests_cant": "Tags are free text: there is no end to the combinations of keys and values.", "anchors": ["profile/full.lua", "profile/background.lua", "include/tiles/osm/pending_feature.h", "src/osm/feature_handler.cc"]}
{"id": "C68", "title": "What the profiles select", "statement": "Roads, lifts, rails, waterways and places get the layer and minimum zoom level of a table by the value of their tag, and are rejected otherwise; roads keep highway, name and - from zoom level 9 or earlier - ref; branch lines are shown later than other rails; areas get layer, zoom level (by size) and kind of land use from the first rule that fits one of their tags; \"a;b\" and \"a\" in the level tag of stairs and lifts become from_level and to_level. Not so: disused railways, water at zoom level 10, levels with fractions or a dash.", "quantifier": "all objects with any tags, areas of any size, level texts of any length", "why_tests_cant": "Rules are tried in order and hide each other; tests of single tags do not show what an object with several of them gets.", "anchors": ["profile/full.lua", "profile/background.lua"]}
{"id": "C69", "title": "An OSM file is loaded completely", "statement": "Loading an OSM file hands to the profile exactly: each node at its location; each way with the points of those of its nodes that the file contains, in order (no geometry if these are fewer than two); each area assembled from the relations and from the ways with the locations of their nodes. The result does not depend on how the file is split into buffers, and fails only if an area cannot be read. This holds for nodes west of 34.7483648 degrees as the language defines int32_t, everywhere if it wraps around.", "quantifier": "all files with sorted node ids, any number of nodes, ways, relations and buffers; any order of the threads' work", "why_tests_cant": "The node index has many layouts (spans, deltas, buffers); a wrong one moves single nodes of some files.", "anchors": ["src/osm/load_osm.cc load_osm", "src/osm/hybrid_node_idx.cc update_locations", "src/osm/read_osm_geometry.cc"]}
{"id": "C70", "title": "Roads, places, areas, rails and waterways of an OSM file are on the map", "statement": "After loading an OSM file with one of the shipped profiles, packing and preparing in any admissible history, every object the profile selects is shown on every tile it meets from its zoom level on; in particular a way tagged as a road of the table is a line in layer road with its highway and name tags, and a node tagged as a place is a point at its pixel with its place and name tags. Likewise areas in the layer, from the zoom level and with the kind the first fitting row of the profile's table says, rails with their kind of line, and waterways.", "quantifier": "all files, both profiles, all tiles and zoom levels, all histories of runs", "why_tests_cant": "It spans every component; each file, tile and history is a new case.", "anchors": ["src/import.cc", "src/osm/load_osm.cc", "profile/full.lua", "profile/background.lua", "include/tiles/get_tile.h", "src/server.cc"]}
{"id": "C71", "title": "Every thread of the OSM pipeline has its own handler", "statement": "Two threads never use the same feature handler, a thread gets the same handler in every call, and the error 'more threads than expected' occurs only if more threads work than there are handlers. (The ids are read and written without synchronization: a data race.)", "quantifier": "all schedules of any number of threads and calls", "why_tests_cant": "Depends on the interleaving of scans, the counter and the writes.", "anchors": ["src/osm/load_osm.cc get_handler"]}
{"id": "C72", "title": "Clipping keeps what lies in the area of a tile, and only that", "statement": "Clipping a geometry to the draw area of a tile keeps exactly the points strictly inside, the pieces of lines the library returns that have at least two points, and for polygons one polygon per contour of the solution that is not a hole, with the holes directly inside it, islands in holes included; the area that remains is the area inside the box up to one level 20 pixel at its border, nothing lies outside, the kind stays, rings are closed.", "quantifier": "all geometries, boxes and solutions (contour trees of any depth) of the clipping library", "why_tests_cant": "Trees of contours nest arbitrarily; a dropped island or hole only shows for particular geometries.", "anchors": ["src/fixed/algo/clip.cc clip, to_fixed_polygon2"]}
{"id": "C73", "title": "Clipping fails only for polygons without an area", "statement": "Clipping fails only for polygons of which the library accepts no ring; in particular no polygon with a ring that encloses an area fails. A polygon whose rings all lie on straight lines always fails, and a tile on which such a polygon has to be drawn cannot be delivered at all.", "quantifier": "all polygons, boxes, databases and tiles", "why_tests_cant": "One degenerate polygon anywhere in the data suppresses whole tiles.", "anchors": ["src/fixed/algo/clip.cc clip (utl::verify AddPath1)", "include/tiles/get_tile.h get_tile"]}
{"id": "C74", "title": "Winding order of polygon rings", "statement": "In every delivered polygon, exterior rings and interior rings wind in opposite directions, as the vector tile specification asks for (exterior positive by the surveyor formula in tile coordinates).", "quantifier": "all polygons and tiles", "why_tests_cant": "Depends on orientation conventions and rounding of every ring.", "anchors": ["src/fixed/algo/clip.cc boost::geometry::correct", "src/mvt/encode_geometry.cc"]}
{"id": "C75", "title": "Every tile sent is a well-formed vector tile", "statement": "Whatever the server sends for a tile is the compressed form of a non-empty vector tile an independent reader accepts: layers with distinct names, version 2, extent 4096 and at least one feature; key and value tables without duplicates; no two features of a layer with the same id and kind of geometry; no key twice in a feature; geometries non-empty, lines of two or more points, closed rings of three or more, no repeated points, all coordinates within the tile and its border.", "quantifier": "all imports, histories of runs, tiles and zoom levels", "why_tests_cant": "Must hold for every tile of every database.", "anchors": ["include/tiles/get_tile.h get_tile", "src/mvt/tile_builder.cc", "src/mvt/encode_geometry.cc", "include/tiles/fixed/algo/shift.h", "src/import.cc"]}
{"id": "C76", "title": "A stopped import leaves a usable database", "statement": "If the import tool is stopped after loading (killed, or ended by an exception) at any point while packing or preparing tiles or in between, and possibly run again, the server answers for every tile without failing, every tile it sends is a well-formed vector tile, it shows nothing that was not loaded, and statistics can be computed.", "quantifier": "all inputs, all points at which a run is stopped (also within a write to the pack file), all histories of runs", "why_tests_cant": "Needs every crash point of every schedule.", "anchors": ["src/import.cc", "src/db/feature_pack.cc pack_features", "include/tiles/db/repack_features.h", "src/db/prepare_tiles.cc", "include/tiles/db/pack_file.h pack_handle"]}
{"id": "C77", "title": "What a stopped import loses", "statement": "Unless packing was stopped, nothing is lost: every approved object and the sea are shown as after complete runs. If packing was stopped, every index tile that has an entry in the table of features kept all its objects. A run that only prepares tiles may be killed at any time without changing the stored features, and preparing tiles can be completed by a later run.", "quantifier": "all inputs, stop points, histories of runs, objects and tiles", "why_tests_cant": "Needs every crash point of every schedule.", "anchors": ["src/import.cc", "src/db/feature_pack.cc pack_features", "include/tiles/db/repack_features.h", "src/db/prepare_tiles.cc prepare_tiles"]}
{"id": "C78", "title": "Lines on prepared tiles", "statement": "On tiles up to zoom level 10 of a database with prepared tiles, every approved object with lines that reaches the tile is drawn together with others of its layer that have the same metadata: their lines are joined where exactly two of them meet and simplified, cut at the tile, and shown with that metadata and the smallest of the ids unless nothing is left. These tiles show no other lines. Without simplification no segment is lost or added.", "quantifier": "all inputs, histories of runs (also stopped ones), objects with lines and tiles up to zoom level 10", "why_tests_cant": "Needs every set of objects and every way they share end points and tags.", "anchors": ["src/mvt/tile_builder.cc layer_builder::impl", "src/feature/aggregate_line_features.cc aggregate_line_features", "src/db/prepare_tiles.cc", "src/get_tile.cc"]}
{"id": "C79", "title": "An import that fails while loading the OSM file", "statement": "If the import tool ends with an exception while it reads the OSM file (which has been handled in part), a server of the database should answer for every tile, or not start. In fact it starts, answers for all tiles away from the objects handled so far, and fails for every tile one of them (of a layer other than coastline) is to be drawn on, until another run that loads is completed, which is always possible.", "quantifier": "all inputs, all parts of the objects handled before the exception, all schedules of the inserter, all tiles", "why_tests_cant": "Needs every point at which the exception can happen, with every schedule of the threads that insert features.", "anchors": ["src/import.cc", "src/osm/load_osm.cc load_osm", "include/tiles/db/layer_names.h", "include/tiles/db/feature_inserter_mt.h", "src/mvt/tile_builder.cc tile_builder::add_feature"]}
{"id": "C80", "title": "An import that is killed while loading", "statement": "If the import tool is killed while it loads coastlines, or while the last features are written after the OSM file was read, a server of the database it left answers for every tile and shows nothing but pieces of the sea and objects that were given to it, with their shapes and tags; if it is killed while the OSM file is read, the server answers for every tile away from the objects handled so far (close to them it fails as in C79). Another run that loads can be completed in any case. The packs in the table must lie before the last byte of the pack file that is not 0 (see C08).", "quantifier": "all inputs, all points of the load phase, all schedules of coastline and inserter threads, any bytes at the end of the pack file, all tiles", "why_tests_cant": "Needs every crash point within every schedule of the threads that load.", "anchors": ["src/import.cc", "src/osm/load_coastlines.cc load_coastlines", "src/osm/load_osm.cc load_osm", "include/tiles/db/feature_inserter_mt.h feature_inserter_mt::flush", "include/tiles/db/pack_file.h pack_handle::append", "src/get_tile.cc get_tile"]}
{"id": "C81", "title": "What the log says about prepared tiles", "statement": "While tiles are prepared, exactly one line is logged for each zoom level from 0 to the last one, after all tiles of that level were rendered; it gives the number of tiles prepared, the time this took altogether, the number of tiles without content and the average size of the others. In fact the last two are wrong: the number of empty tiles is the number of tiles with content, and the average is the total size divided by the number of empty tiles.", "quantifier": "all tables of features, all sizes of tiles, all schedules of any number of threads", "why_tests_cant": "Which thread finishes the last tile of a level, and whether the next level has begun by then, depends on the schedule.", "anchors": ["src/db/prepare_tiles.cc prepare_manager::get_batch", "src/db/prepare_tiles.cc prepare_manager::finish"]}
{"id": "C82", "title": "Contents, size and statistics of the node index", "statement": "For every accepted stream of OSM nodes the data file of the node index consists of gaps and runs whose nodes are exactly the nodes of the stream in order; a run is continued exactly as long as the differences to the next node take no more bytes than a new run; the file takes at most nine bytes per node, one more for every 64 nodes, and ten per break in the ids; the index has at most one entry per 1025 nodes; computing the statistics never writes outside the counters, and every printed statistic (entries, bytes, nodes, spans, differences by length, spans by size) is the true number.", "quantifier": "all streams of nodes accepted by the builder", "why_tests_cant": "streams, ids and coordinates are unbounded; an index behind a statistics array shows up only for particular coordinate differences", "anchors": ["src/osm/hybrid_node_idx.cc: hybrid_node_idx_builder::push, push_coord_span, get_varint_size, dump_stats"]}
{"id": "C83", "title": "The debug layer only adds to a tile", "statement": "With the debug switch of the render context on, building a tile succeeds or fails exactly as without it; the bytes start with the bytes of the tile without it and a vector tile reader then reads the same layers followed by exactly one more, tiles_debug_info, with a point in the middle of the tile labelled with its x, y and z in decimal and the closed outline of the tile.", "quantifier": "all tiles, all lists of features, all cutters and joiners that meet their contracts", "why_tests_cant": "there are 4^20 tiles and unboundedly many feature lists; the layer has to stay readable for each of them", "anchors": ["src/mvt/tile_builder.cc: tile_builder::impl::finish", "include/tiles/get_tile.h: render_ctx::tb_render_debug_info_"]}
{"id": "C84", "title": "A server goes on while tiles are prepared", "statement": "While another process prepares tiles or computes statistics on the database (and after it finished, was killed or stopped by an exception), a server that was started before answers every request: if tiles had been prepared when it was started, exactly as a server started at that moment, and otherwise exactly as at its start.", "quantifier": "all interrupted histories of imports, all moments of all later runs without loading and packing, all tiles up to zoom level 20", "why_tests_cant": "the moments of the run and the histories before it are unbounded, and a request may fall on each of them", "anchors": ["src/server.cc: main", "src/import.cc: main", "include/tiles/get_tile.h: get_tile", "include/tiles/db/prepare_tiles.h: prepare_tiles"]}
{"id": "C85", "title": "A server goes on while features are packed", "statement": "While another process packs the features, every request to a server that was started before is answered with an error (500) or as by a server started on the database that the run leaves behind if it is stopped at that moment. (Stronger claims are refuted: a tile that was shown before becomes empty when packing begins, and a server that was started before an import answers with errors after it.)", "quantifier": "all interrupted histories of imports, all moments of all later runs without loading, killed or stopped by an exception, all tiles up to zoom level 20", "why_tests_cant": "every moment of packing is a different state of table and file, and the histories before it are unbounded", "anchors": ["src/server.cc: main", "src/import.cc: main", "src/db/feature_pack.cc: pack_features", "include/tiles/db/pack_file.h: pack_handle"]}
{"id": "C86", "title": "The benchmark renders and measures what it says", "statement": "The benchmark's tiles have the outcomes of the server's rendering; on a database left by imports it ends without an exception; it reports one measurement per tile (total, rendering, finishing), per answer (size, compression), per square of sea, per feature read or skipped; if the clock does not go back, the parts of rendering sum to at most rendering, fetching, rendering and compressing to at most the total and the total to at most the time of the run; each line's q95 and maximum are the 95 percent quantile and maximum of the measurements. (Refuted: the same for the time spent between packs, which also counts time between tiles.)", "quantifier": "all databases, all lists of tiles, all clocks that do not go back, all lists of fewer than 2^47 measurements", "why_tests_cant": "times differ on every run and lists of tiles and databases are unbounded", "anchors": ["src/benchmark.cc: run_tiles_benchmark", "include/tiles/perf_counter.h: perf_counter", "src/perf_counter.cc: print", "include/tiles/get_tile.h: get_tile"]}
{"id": "C87", "title": "What is printed about the layers of a tile", "statement": "With the statistics switch on, a tile is built exactly as without it (the same bytes or the same failure), and one line is printed per layer of the tile, in the tile's order: the layer's name, the size of its message, as many features written as the layer shows, and as many added as features of different id (per kind of geometry, or without geometry) were given for the layer, never fewer than written. (Refuted: the same for the debug layer, whose line says that nothing was written.)", "quantifier": "all render contexts, tiles, feature lists and libraries that clip into the tile and join lines of the ids they are given", "why_tests_cant": "the counters are kept in six places (duplicates, features without geometry, buffers, dropped polygons, joined lines) and have to agree with what any list of features leaves in the tile", "anchors": ["src/mvt/tile_builder.cc: layer_builder::add_feature, write_feature, aggregate_geometry, finish", "include/tiles/get_tile.h: render_ctx::tb_print_stats_", "src/benchmark.cc"]}
{"id": "C88", "title": "Neighbouring tiles fit together", "statement": "After any history of imports, served tiles of the same zoom level that draw the same imported object put it in the same place of the map. Points and lines all inside the squares that several tiles draw (which extend beyond the tiles) are drawn by each of them on the same pixels of the map: the position in the data, rounded to the pixels of the zoom level. Of a line of any length, each tile that its bounding box meets draws every segment that has both ends inside the tile's square, from the one end's pixel to the other's (if these differ, from the approved zoom level on, and above the prepared zoom levels). Of several points, each one inside the square is drawn on its pixel. Of an area, of any size, each tile shows the same simplified outline rounded to the same pixels, inside the square it draws, up to one level 20 pixel at the border of the area or the square. So a road that crosses the border of two tiles leaves one exactly where it enters the other.", "quantifier": "all histories of imports, all objects that are the only ones of their layer with their id and kind of geometry, all tiles up to zoom level 20, all libraries that cut lines and areas as documented", "why_tests_cant": "tiles are rendered one by one, from boxes, simplifications and shifts that depend on the tile; that the pieces meet has to hold for every pair of tiles and every geometry", "anchors": ["include/tiles/mvt/tile_spec.h: tile_spec", "src/mvt/tile_builder.cc: add_feature, write_feature", "include/tiles/get_tile.h: get_tile", "include/tiles/fixed/algo/clip.h, shift.h"]}
{"id": "C89", "title": "The map does not depend on how it was imported", "statement": "Take two databases left by any histories of imports, with any numbers of threads, any order of events, any other objects and coastlines, whether or not tiles were prepared, both packed or both not. An object that both contain is shown by both servers on every tile it belongs to with the same id, the same tags and the same geometry; and on every tile that both send, whatever they show of the object is the same. Reading the same coastlines has the same result (the same pieces of sea and the same tiles of sea only) whatever the threads and their schedule, and two databases with the same coastlines show the sea on the same tiles and the same pieces of it.", "quantifier": "all pairs of histories of imports that have the object (the only one of its layer, id and kind of geometry), all tiles up to zoom level 20, all pairs of libraries that agree on numbers, simplification, cutting and areas", "why_tests_cant": "imports run on many threads, intern layer names and metadata in the order in which objects arrive and place features next to whatever else is there; two runs can differ everywhere except in what is shown", "anchors": ["src/import.cc", "src/osm/load_osm.cc", "include/tiles/osm/feature_handler.h", "include/tiles/db/layer_names.h", "include/tiles/db/shared_metadata.h", "src/server.cc"]}
