{"id": "C01", "title": "Columns stay sorted and separated", "statement": "Starting from a freshly built heightfield, after any history of span insertions (floor <= ceiling) and filter passes, walking any column from span_at through next visits finitely many spans, each with floor <= ceiling, and every span's ceiling is strictly below the floor of the span above it.", "quantifier": "every heightfield size, every finite sequence of insertions and filter calls with any arguments, every column", "why_tests_cant": "The invariant must survive every interleaving of merges; a test only sees the insert orders it lists.", "anchors": ["crates/rerecast/src/heightfield.rs:Heightfield::add_span", "crates/rerecast/src/heightfield.rs:Heightfield::span_key_at", "crates/rerecast/src/span.rs:Span"]}
{"id": "C02", "title": "Span storage has no dangling key, no sharing and no leak", "statement": "After any history of insertions and filter passes, every key reachable from a column resolves to an allocated span, no span is reachable twice (neither twice in a column nor from two columns), and every allocated span is reachable from some column. Hence the allocated span count equals the number of spans seen by walking all columns.", "quantifier": "every heightfield size and every finite history of operations", "why_tests_cant": "It is a global heap invariant of a pointer structure; tests only look at the end of short insert sequences.", "anchors": ["crates/rerecast/src/heightfield.rs:Heightfield::add_span", "crates/rerecast/src/span.rs:Spans"]}
{"id": "C03", "title": "Insertion adds exactly the requested voxels", "statement": "Inserting a span [min,max] into a column makes the solid height levels of that column exactly the old ones plus min..max, and leaves the spans of every other column unchanged (same floors, ceilings and areas).", "quantifier": "every reachable heightfield, every in-range column, every min <= max, every area and merge threshold", "why_tests_cant": "Coverage must be exact for every overlap pattern with an unbounded number of existing spans.", "anchors": ["crates/rerecast/src/heightfield.rs:Heightfield::add_span"]}
{"id": "C04", "title": "Column geometry does not depend on insertion order", "statement": "Two histories that insert the same multiset of spans in different orders (with any merge thresholds and areas) end in heightfields whose columns have identical floor/ceiling lists. Neither does it matter how often a span is inserted: the same set of spans gives the same lists. So meshes with the same triangles, in any order, any number of times and with any areas, are rasterized to the same floors and ceilings, before and after the filters.", "quantifier": "every multiset of insertions and every permutation of it; all insertion lists with the same set of spans; all pairs of valid meshes with f32 coordinates and the same set of triangles", "why_tests_cant": "There are n! orders; rasterization order follows the triangle order of user meshes.", "anchors": ["crates/rerecast/src/heightfield.rs:Heightfield::add_span", "crates/rerecast/src/heightfield.rs:Heightfield::populate_from_trimesh"]}
{"id": "C05", "title": "Area of a merged span", "statement": "The span that ends up containing an inserted span gets as area the maximum of the inserted area and of the areas of those merged spans whose ceiling is at most flag_merge_threshold below the inserted ceiling; spans it does not touch keep their area. In particular the documented 'maximum of the two area types' holds when the threshold is at least the ceiling difference and fails otherwise.", "quantifier": "every reachable column, every inserted span, every threshold", "why_tests_cant": "The result folds over an unbounded number of merged spans; the documentation sentence needs a counterexample, not a test.", "anchors": ["crates/rerecast/src/heightfield.rs:Heightfield::add_span", "crates/rerecast/src/span.rs:AreaType"]}
{"id": "C06", "title": "Insertion never panics and rejects columns outside the storage", "statement": "On every reachable heightfield an insertion either succeeds or, exactly when the linear column index is outside the span table, returns an error and changes nothing; it never panics and always terminates. span_at with coordinates outside width x height is documented to return None, but returns another column's span when the linear index is still inside the table.", "quantifier": "every reachable heightfield and every insertion", "why_tests_cant": "Panic freedom and termination over all pointer structures cannot be sampled.", "anchors": ["crates/rerecast/src/heightfield.rs:Heightfield::add_span", "crates/rerecast/src/heightfield.rs:SpanInsertionError", "crates/rerecast/src/heightfield.rs:Heightfield::span_at"]}
{"id": "C07", "title": "Low-hanging-obstacle filter is exact and local", "statement": "filter_low_hanging_walkable_obstacles changes no floor, ceiling or link; a span's new area is the original area of the span directly below it when the span was unwalkable, the one below was originally walkable and the ceiling difference is at most walkable_climb, and is its old area otherwise. Hence it never removes walkability and never propagates through two consecutive unwalkable spans.", "quantifier": "every reachable heightfield and every walkable_climb", "why_tests_cant": "The in-place update must not feed back into later spans for columns of any length.", "anchors": ["crates/rerecast/src/pre_filter.rs:Heightfield::filter_low_hanging_walkable_obstacles"]}
{"id": "C08", "title": "Ledge filter removes exactly the ledge spans", "statement": "After filter_ledge_spans a walkable span becomes unwalkable exactly when one of its four neighbour cells is outside the field, or a neighbour column offers a gap of at least walkable_height whose floor is more than walkable_climb below (including the empty space under the first span), or the floors of neighbours reachable within walkable_climb (and its own floor) differ by more than walkable_climb. Nothing else changes; early exits and processing order do not matter.", "quantifier": "every reachable heightfield, walkable_height and walkable_climb", "why_tests_cant": "The loop has two early exits and updates in place; equality with an order-free specification must hold for all neighbour columns.", "anchors": ["crates/rerecast/src/pre_filter.rs:Heightfield::filter_ledge_spans"]}
{"id": "C09", "title": "Low-height filter is exact and idempotent", "statement": "After filter_walkable_low_height_spans a span is walkable iff it was walkable before and the distance from its ceiling to the floor of the span above (or 65535) is at least walkable_height; running it twice equals running it once.", "quantifier": "every reachable heightfield and walkable_height", "why_tests_cant": "Exactness is needed for every column content.", "anchors": ["crates/rerecast/src/pre_filter.rs:Heightfield::filter_walkable_low_height_spans"]}
{"id": "C10", "title": "The filter pipeline leaves only standable, non-ledge spans", "statement": "After the three filters as run by populate_from_trimesh every walkable span has clearance >= walkable_height, is not in a border cell, and has no neighbour gap >= walkable_height dropping more than walkable_climb. What they give depends only on the columns of spans, not on the order in which these were inserted.", "quantifier": "every reachable heightfield and parameters", "why_tests_cant": "It is a composition property over all fields: a later filter must not re-establish what an earlier one removed.", "anchors": ["crates/rerecast/src/heightfield.rs:Heightfield::populate_from_trimesh", "crates/rerecast/src/pre_filter.rs"]}
{"id": "C11", "title": "Compact span packing", "statement": "For directions 0..3, con after set_con(d,Some v) is Some v for v < 63 and None after set_con(d,None); other directions and the height are unchanged; height after set_height(h) is h and leaves all connections unchanged. Values 63 and above are not representable: Some(63) reads back as None and Some(64) as Some(0).", "quantifier": "every 32-bit data word, direction, neighbour value and height byte", "why_tests_cant": "2^32 words times all arguments; tests use three.", "anchors": ["crates/rerecast/src/compact_span.rs:CompactSpan"]}
{"id": "C12", "title": "Compaction lists exactly the walkable spans", "statement": "into_compact produces for each cell the walkable spans of that column bottom-up, contiguously and in row-major cell order, each with y = solid ceiling, height = min(255, clearance) and the same area; nothing else appears and areas and spans have equal length.", "quantifier": "every reachable heightfield whose columns have at most 255 walkable spans", "why_tests_cant": "Bijection between a pointer structure and a packed table for all sizes.", "anchors": ["crates/rerecast/src/compact_heightfield.rs:Heightfield::into_compact"]}
{"id": "C13", "title": "Compaction connections are sound and complete", "statement": "When into_compact returns Ok and no column has 63 or more walkable spans, con(dir) is Some k exactly when the neighbour cell is in bounds and its k-th span is the lowest one whose shared open gap is >= walkable_height and whose floor differs by at most walkable_climb; None means there is no such span.", "quantifier": "every reachable heightfield, span, direction and parameters", "why_tests_cant": "All pairs of neighbouring columns with any number of layers.", "anchors": ["crates/rerecast/src/compact_heightfield.rs:Heightfield::into_compact"]}
{"id": "C14", "title": "Connections are symmetric when climb <= height", "statement": "If walkable_climb < walkable_height (or <= when every solid span is at least one unit thick) and no column has more than 62 walkable spans, then whenever span A is connected to span B in direction d, B is connected to A in the opposite direction. Each assumption is needed: there are heightfields with one-way connections when climb > height, when climb = height with zero-thickness spans, and when a column has 63 walkable spans.", "quantifier": "every reachable heightfield and parameters, every span and direction", "why_tests_cant": "Needs a uniqueness argument about candidates in arbitrary columns; contour walking relies on it.", "anchors": ["crates/rerecast/src/compact_heightfield.rs:Heightfield::into_compact", "crates/rerecast/src/math.rs:dir_offset_x"]}
{"id": "C15", "title": "Too many layers are reported", "statement": "Documented: into_compact returns an error if the heightfield has too many layers for the connection encoding. The claim 'if Ok then no traversable neighbour was dropped' fails: a traversable neighbour at layer 62 is dropped silently; the error is returned exactly when some span has, in some direction, a traversable neighbour of layer 63 or more and none below layer 62.", "quantifier": "every reachable heightfield", "why_tests_cant": "The boundary case needs a column with 63 layers; no test has one.", "anchors": ["crates/rerecast/src/compact_heightfield.rs:CompactHeightfieldError", "crates/rerecast/src/compact_heightfield.rs:Heightfield::into_compact"]}
{"id": "C16", "title": "Compaction does not panic", "statement": "into_compact never panics on a reachable heightfield whose columns hold at most 255 walkable spans (with fewer than 2^32 spans); with 256 walkable spans in one column the span counter overflows.", "quantifier": "every reachable heightfield", "why_tests_cant": "Requires ruling out every index and overflow site for all inputs.", "anchors": ["crates/rerecast/src/compact_heightfield.rs:Heightfield::into_compact", "crates/rerecast/src/compact_cell.rs:CompactCell::inc_count"]}
{"id": "C17", "title": "Following a connection always lands on a span of the neighbour cell", "statement": "For every compact heightfield produced by into_compact and any later pass (erosion, area marking, distance field, regions), con_indices on any existing connection yields in-bounds coordinates and an index within the neighbour cell's index_range.", "quantifier": "every reachable compact heightfield, span, direction", "why_tests_cant": "Index safety of all later stages depends on it for all inputs.", "anchors": ["crates/rerecast/src/compact_heightfield.rs:CompactHeightfield::con_indices"]}
{"id": "C18", "title": "Erosion removes exactly the spans within the chamfer radius", "statement": "erode_walkable_area(r), r <= 127, makes span i unwalkable iff the shortest two-sweep chamfer path (axis step 2, diagonal step 3) from i to a span that is unwalkable or has fewer than four walkable neighbours is shorter than 2r. Every removed span really has such a path; spans touching the boundary are always removed for r >= 1.", "quantifier": "every well-formed compact heightfield and radius", "why_tests_cant": "Exact distance characterisation over arbitrary connectivity graphs.", "anchors": ["crates/rerecast/src/erosion.rs:CompactHeightfield::erode_walkable_area"]}
{"id": "C19", "title": "Erosion only removes and is monotone in the radius", "statement": "Erosion changes nothing but areas, never makes a span walkable nor changes a walkable area to another walkable area; radius 0 changes nothing; a larger radius (<= 127) removes at least as much.", "quantifier": "every well-formed compact heightfield and pair of radii", "why_tests_cant": "Quantifies over all fields and pairs of radii.", "anchors": ["crates/rerecast/src/erosion.rs:CompactHeightfield::erode_walkable_area"]}
{"id": "C20", "title": "Erosion for large radii", "statement": "The erosion radius is accepted as u16. Monotonicity fails from 128 on: with r = 128 the threshold wraps to 0 and nothing is eroded, while r = 127 erodes.", "quantifier": "radii 128..65535", "why_tests_cant": "The wrap is invisible with the radii used in tests.", "anchors": ["crates/rerecast/src/erosion.rs:CompactHeightfield::erode_walkable_area"]}
{"id": "C21", "title": "Distance field is exact, and computed without overflow", "statement": "On every non-empty compact heightfield with min(width,height) <= 32766, build_distance_field terminates without panic or overflow; before blurring, each span's distance is the minimum two-sweep chamfer path weight to a boundary span (one with a missing or different-area neighbour).", "quantifier": "every well-formed non-empty compact heightfield", "why_tests_cant": "The unreached marker 65535 must never be incremented, for every connectivity.", "anchors": ["crates/rerecast/src/watershed_distance_field.rs:CompactHeightfield::build_distance_field"]}
{"id": "C22", "title": "Distance field bounds", "statement": "After build_distance_field, dist has one entry per span, every entry is <= max_distance, and an entry is 0 exactly for boundary spans.", "quantifier": "every well-formed compact heightfield", "why_tests_cant": "Region building indexes level stacks by these values for all inputs.", "anchors": ["crates/rerecast/src/watershed_distance_field.rs:CompactHeightfield::build_distance_field", "crates/rerecast/src/watershed_distance_field.rs:box_blur"]}
{"id": "C23", "title": "Distance field of a field without walkable spans", "statement": "build_distance_field should be total; it panics on a compact heightfield with no spans (e.g. geometry without walkable surface).", "quantifier": "the empty compact heightfield", "why_tests_cant": "Tests always use geometry with walkable spans.", "anchors": ["crates/rerecast/src/watershed_distance_field.rs:CompactHeightfield::build_distance_field"]}
{"id": "C24", "title": "Convex area marking touches only walkable spans in its footprint", "statement": "mark_convex_poly_area changes only areas, only of walkable spans whose cell centre is in the polygon and whose floor is within the vertical range, and sets them to the given area; unwalkable spans stay unwalkable.", "quantifier": "every compact heightfield and convex volume", "why_tests_cant": "All footprints and fields.", "anchors": ["crates/rerecast/src/mark_convex_poly_area.rs:CompactHeightfield::mark_convex_poly_area"]}
{"id": "C25", "title": "Only walkable spans get regions", "statement": "After build_regions every span whose region is not NONE has a walkable area, and no area or connection has changed.", "quantifier": "every well-formed compact heightfield with distance field, and all parameters", "why_tests_cant": "The algorithm interleaves flooding, expansion and merging over arbitrary graphs.", "anchors": ["crates/rerecast/src/watershed_build_regions.rs:CompactHeightfield::build_regions"]}
{"id": "C26", "title": "Each region has a single area type", "statement": "After build_regions any two spans with the same non-NONE, non-border region id have the same area type.", "quantifier": "every well-formed compact heightfield and parameters", "why_tests_cant": "Merging decisions must never combine different areas, in any order.", "anchors": ["crates/rerecast/src/watershed_build_regions.rs:CompactHeightfield::build_regions", "crates/rerecast/src/contours.rs"]}
{"id": "C27", "title": "Region ids are bounded by max_region", "statement": "After build_regions every non-border region id is at most max_region. The documented 'maximum region id of any span' is only an upper bound.", "quantifier": "every well-formed compact heightfield and parameters", "why_tests_cant": "Later stages size their storage by max_region.", "anchors": ["crates/rerecast/src/watershed_build_regions.rs:CompactHeightfield::build_regions", "crates/rerecast/src/compact_heightfield.rs:CompactHeightfield.max_region"]}
{"id": "C28", "title": "Borders are painted and survive", "statement": "With border_size > 0, after build_regions every walkable span within border_size cells of an edge carries the border flag, and in fields of fewer than 32764 spans no other span does. (The limit is exact: a field of 32764 spans exists where a span away from the edge carries the flag.)", "quantifier": "every well-formed compact heightfield and border size", "why_tests_cant": "Must survive all later flooding, merging and renumbering.", "anchors": ["crates/rerecast/src/watershed_build_regions.rs:CompactHeightfield::build_regions"]}
{"id": "C29", "title": "Region building terminates", "statement": "Every loop of build_regions (expansion, flooding, pruning, merging) terminates for every well-formed field. For fields of fewer than 32768 spans with a max_distance below 65535 it succeeds: no panic, no overflow, no lack of ids. (Both limits are there for a reason: a max_distance of 65535 panics, and on a field of 65544 spans it fails for all parameters.)", "quantifier": "every well-formed compact heightfield and parameters", "why_tests_cant": "Termination over all inputs.", "anchors": ["crates/rerecast/src/watershed_build_regions.rs"]}
{"id": "C30", "title": "Regions are connected", "statement": "After build_regions the spans of each non-border region are connected through span connections.", "quantifier": "every well-formed compact heightfield and parameters", "why_tests_cant": "Documented ('Non-null regions will consist of connected, non-overlapping walkable spans'), needs an invariant through merging.", "anchors": ["crates/rerecast/src/watershed_build_regions.rs"]}
{"id": "C31", "title": "Raw contours are closed lattice loops", "statement": "With symmetric connections, a contour walk returns to its start; consecutive raw vertices (cyclically) differ by exactly one unit along exactly one of x and z. Every raw vertex is the end of a boundary side of the region, lies at the height of the highest floor connected around that corner, names the region beyond the side, and is flagged as a border vertex exactly where two spans of one border region meet two spans of one area outside the border. The area of a contour is the area of a span of its region.", "quantifier": "every region-labelled compact heightfield with symmetric connections", "why_tests_cant": "The walk follows arbitrary layered graphs.", "anchors": ["crates/rerecast/src/contours.rs:CompactHeightfield::build_contours"]}
{"id": "C32", "title": "Contour simplification keeps order, portals and tolerance", "statement": "Simplified vertices are raw vertices in cyclic order; every raw vertex where the neighbouring region or area border changes is kept; simplification terminates; without edge splitting no raw vertex on a wall or area border is further than max_error from the contour, in real numbers up to one part in a million of max_error and of the size of the field.", "quantifier": "every raw contour and parameters", "why_tests_cant": "Iterative refinement over arbitrary contours.", "anchors": ["crates/rerecast/src/contours.rs"]}
{"id": "C33", "title": "Contour building accepts any number of contours", "statement": "build_contours should succeed for any number of contours; it panics when there are more contours than max(max_region,8), because the contour table never grows.", "quantifier": "every region-labelled field", "why_tests_cant": "Needs more contours than regions.", "anchors": ["crates/rerecast/src/contours.rs:CompactHeightfield::build_contours"]}
{"id": "C34", "title": "Contour building accepts documented parameters", "statement": "max_edge_len of 256 or more overflows the squared length; a field narrower than twice its border underflows.", "quantifier": "all max_edge_len and border sizes", "why_tests_cant": "Only unusual parameters expose it.", "anchors": ["crates/rerecast/src/contours.rs"]}
{"id": "C35", "title": "Triangulation yields n-2 triangles conserving area", "statement": "When triangulate succeeds on n >= 3 vertices it returns exactly n-2 triangles with in-range indices, and the signed areas of the triangles sum to the signed area of the polygon.", "quantifier": "every vertex list and index order", "why_tests_cant": "Holds for every polygon of any length, by induction on ear cutting.", "anchors": ["crates/rerecast/src/poly_mesh.rs:triangulate"]}
{"id": "C36", "title": "Vertex welding", "statement": "add_vertex returns an index whose vertex has the same x and z and a y within 2 of the requested one, never changes existing vertices, and no two stored vertices with equal x,z have y within 2; the hash buckets never change the result of a linear search.", "quantifier": "every sequence of vertices", "why_tests_cant": "Sequences of any length and any hash collisions.", "anchors": ["crates/rerecast/src/poly_mesh.rs:add_vertex"]}
{"id": "C37", "title": "Polygon merging", "statement": "Merging two polygons along a shared edge gives a polygon with na+nb-2 <= nvp vertices, no vertex lost, the signed area of the union, and every corner strictly convex if the inputs' corners are.", "quantifier": "every pair of polygons with a shared edge", "why_tests_cant": "All sizes and positions.", "anchors": ["crates/rerecast/src/poly_mesh.rs"]}
{"id": "C38", "title": "Mesh adjacency is symmetric", "statement": "After build_mesh_adjacency, if polygon p's edge e lists neighbour q then q has the reversed edge listing p.", "quantifier": "every polygon table with fewer than 65535 edges", "why_tests_cant": "All meshes.", "anchors": ["crates/rerecast/src/poly_mesh.rs:build_mesh_adjacency"]}
{"id": "C39", "title": "Polygon mesh tables have consistent lengths", "statement": "The public PolygonNavmesh should have one area, region and flag per polygon; the regions table is longer than the polygon table whenever merging or contour count leaves slack.", "quantifier": "every contour set", "why_tests_cant": "Only visible by comparing lengths on inputs where triangles merge.", "anchors": ["crates/rerecast/src/poly_mesh.rs"]}
{"id": "C40", "title": "Vertex removal terminates", "statement": "into_polygon_mesh should terminate; hole building loops forever (or reads padding) when a border vertex is removed.", "quantifier": "contour sets with removable border vertices", "why_tests_cant": "Non-termination cannot be observed by a test.", "anchors": ["crates/rerecast/src/poly_mesh.rs"]}
{"id": "C41", "title": "Hull triangulation", "statement": "triangulate_hull appends exactly nhull-2 triangles for a hull of nhull >= 3 points, using only hull vertices; with an empty hull (which sample distance 0 produces) it panics.", "quantifier": "every hull and vertex list", "why_tests_cant": "All hull sizes; documented parameter 0 is not tested.", "anchors": ["crates/rerecast/src/detail_mesh.rs:triangulate_hull"]}
{"id": "C42", "title": "Trimesh concatenation", "statement": "TriMesh::extend keeps every triangle of both meshes: same corner positions, same area type, same order; valid index ranges stay valid.", "quantifier": "every pair of well-formed meshes", "why_tests_cant": "All sizes.", "anchors": ["crates/rerecast/src/trimesh.rs:TriMesh::extend"]}
{"id": "C43", "title": "Compound colliders place each part by its own isometry", "statement": "to_trimesh of a compound should place each child's triangles at that child's isometry; the code applies each isometry to the parts gathered before it.", "quantifier": "every compound shape", "why_tests_cant": "Single-child compounds at identity hide it.", "anchors": ["crates/avian_rerecast/src/collider_to_trimesh.rs"]}
{"id": "C44", "title": "Walkable marking", "statement": "mark_walkable_triangles sets area 255 exactly on triangles whose unit normal's y exceeds cos(threshold) and changes nothing else.", "quantifier": "every mesh and threshold", "why_tests_cant": "All meshes.", "anchors": ["crates/rerecast/src/trimesh.rs:TriMesh::mark_walkable_triangles"]}
{"id": "C45", "title": "Direction tables", "statement": "The offset to direction table inverts the direction to offset tables; the direction two steps away has the opposite offset; next and prev are inverse on every index range.", "quantifier": "all directions and index ranges", "why_tests_cant": "Used by every neighbour computation; next/prev for all n.", "anchors": ["crates/rerecast/src/math.rs"]}
{"id": "C46", "title": "Heightfield dimensions", "statement": "HeightfieldBuilder::build returns a well-formed field with exactly width*height empty columns whenever both cell counts are below 65536; above that the stored width saturates and disagrees with the table, and a count above u128::MAX panics instead of giving the error.", "quantifier": "every bounding box and cell size", "why_tests_cant": "Float range boundaries.", "anchors": ["crates/rerecast/src/heightfield.rs:HeightfieldBuilder::build"]}
{"id": "C47", "title": "Triangle clipping", "statement": "In exact arithmetic, dividing a convex polygon by an axis-aligned line gives two convex polygons, exactly the parts of it on either side of the line, each with at most one more vertex than the input, and rasterizing any triangle never exceeds the 7-slot buffers; with f32 rounding it can, and panics.", "quantifier": "every convex polygon and line", "why_tests_cant": "All geometries; buffer overflow would panic.", "anchors": ["crates/rerecast/src/rasterize.rs:divide_poly"]}
{"id": "C48", "title": "Triangles outside the field add no spans", "statement": "In exact arithmetic, rasterizing a triangle adds to every cell with the triangle over its inside exactly one span, whose heights are the triangle's extremes over the cell rounded outward, and none to untouched cells, except in the first row and column when the triangle hangs over the low side of the field: there untouched cells get phantom spans and heights include geometry outside. With f32 rounding a triangle that ends on a grid line also leaves spans in the row or column behind that line.", "quantifier": "every triangle and field", "why_tests_cant": "Needs geometry hanging over the field's edge by more than a cell.", "anchors": ["crates/rerecast/src/rasterize.rs"]}
{"id": "C49", "title": "Editor scene export indices", "statement": "In the navmesh input returned by the editor's BRP method the meshes, materials and images are numbered without gaps or repetitions: every index is in range and stands for the asset with that handle, equal handles share one index, distinct handles get distinct entries, and there is one visual, in order, per visible entity with a loaded mesh, without a material index exactly if its material is absent, not loaded or uses a texture that is not loaded. Not every image sent is used.", "quantifier": "every scene", "why_tests_cant": "All scenes and sharing patterns.", "anchors": ["crates/bevy_rerecast_editor_integration/src/brp.rs:get_navmesh_input", "crates/bevy_rerecast_editor_integration/src/transmission/serialized_standard_material.rs:try_from_standard_material"]}
{"id": "C50", "title": "Generation queue", "statement": "Along any sequence of generation requests and other uses of the navmesh asset store, the queue holds one entry per request, in request order, with the configuration of the request and the handle it returned; all handles are distinct. (At this commit nothing consumes the queue: no navmesh is ever loaded under a requested handle.)", "quantifier": "every sequence of requests and asset operations", "why_tests_cant": "Schedules.", "anchors": ["crates/bevy_rerecast_core/src/generator.rs:NavmeshGenerator::generate"]}
{"id": "C51", "title": "The polygon mesh tiles its contours", "statement": "For contours with distinct corners, no border vertices and coordinates below 32768, into_polygon_mesh returns; it fails only with InvalidContour on a contour that is not strictly convex; otherwise every contour is tiled by polygons of at most max_vertices_per_polygon corners which carry its region and area, the total area is that of the contours, neighbours are reciprocal, and strictly convex contours give strictly convex polygons.", "quantifier": "every contour set with at most 65535 potential edges", "why_tests_cant": "Contours of any shape, size and number.", "anchors": ["crates/rerecast/src/poly_mesh.rs:into_polygon_mesh"]}
{"id": "C52", "title": "Reading a bevy mesh", "statement": "TriMesh::from_mesh accepts exactly indexed triangle lists with Float32x3 positions whose index count is a multiple of three; triangle k of the result has the indices 3k, 3k+1, 3k+2, positions are unchanged and every triangle starts as not walkable.", "quantifier": "every mesh", "why_tests_cant": "All index buffers.", "anchors": ["crates/bevy_rerecast_core/src/mesh.rs:TriMesh::from_mesh"]}
{"id": "C53", "title": "Bounding box of a mesh", "statement": "compute_aabb is None exactly for a mesh without vertices; without NaN coordinates the box contains every vertex, and for finite coordinates each face touches one; a NaN coordinate makes the box forget earlier vertices.", "quantifier": "every vertex list", "why_tests_cant": "All floats including infinities and NaN.", "anchors": ["crates/rerecast/src/trimesh.rs:TriMesh::compute_aabb", "crates/rerecast/src/math.rs:Aabb3d::from_verts"]}
{"id": "C54", "title": "Field sizes beyond i16", "statement": "Rasterizing into a heightfield at least 32768 cells wide never adds a span, and into one at least 32768 cells long (or with no rows) it panics for every triangle that touches the box, although up to 65535 cells can be built.", "quantifier": "every field of such size and every triangle", "why_tests_cant": "Needs very large fields and all triangles.", "anchors": ["crates/rerecast/src/rasterize.rs:rasterize_triangle"]}
{"id": "C55", "title": "Rasterized fields are well formed", "statement": "rasterize_triangle, rasterize_triangles and populate_from_trimesh on a well-formed heightfield never return an error; unless they panic, the result is a well-formed field of the same shape reached by valid in-bounds insertions (and filters).", "quantifier": "every field, mesh, area and threshold, including NaN and infinite coordinates", "why_tests_cant": "All float inputs.", "anchors": ["crates/rerecast/src/rasterize.rs", "crates/rerecast/src/heightfield.rs:populate_from_trimesh"]}
{"id": "C56", "title": "The editor shows the exported scene", "statement": "Importing an exported scene into the editor never panics (for meshes whose standard attributes have the standard formats), leaves the editor's other assets alone, and yields one affector per backend affector with the same triangles and, per visible entity with a loaded mesh, in order, an entity with the same transform, an equal mesh (topology, indices and the eight standard attributes) and an equal material with equal textures, or plain white if it has none that could be sent; meshes are shared exactly as in the game.", "quantifier": "every scene and every state of the editor's asset stores", "why_tests_cant": "All scenes, sharing patterns and editor states.", "anchors": ["crates/bevy_rerecast_editor/src/get_navmesh_input.rs:fetch_navmesh_input", "crates/bevy_rerecast_editor_integration/src/transmission/serialized_mesh.rs"]}
{"id": "C57", "title": "When the export fails", "statement": "get_navmesh_input fails exactly if parameters are given, no affector backend is registered, the backend fails, or one of the asset stores is missing; parameters and only parameters are reported as invalid parameters; the affectors of the backend are passed on unchanged.", "quantifier": "every world", "why_tests_cant": "All combinations of missing resources.", "anchors": ["crates/bevy_rerecast_editor_integration/src/brp.rs:get_navmesh_input"]}
{"id": "C58", "title": "Sample distance must be positive", "statement": "DetailNavmesh::new returns a result for a nonempty mesh only if detail_sample_dist is positive; with the documented value 0 (also what the config makes of anything below 0.9) it panics on every nonempty mesh.", "quantifier": "every polygon mesh, compact heightfield, error and sample distance including NaN", "why_tests_cant": "Needs all meshes; the failure is independent of the input.", "anchors": ["crates/rerecast/src/detail_mesh.rs:build_poly_detail", "crates/rerecast/src/detail_mesh.rs:triangulate_hull"]}
{"id": "C59", "title": "The detail sub-mesh table is consistent", "statement": "There is one sub-mesh per polygon; vertex and triangle ranges follow each other without gaps and exhaust the arrays; a sub-mesh has at most 127 vertices and 255 triangles with local indices in range; its first vertices are the polygon's corners, in order, moved to the world; then come those of the edges, then those of the interior; the edge flags are set exactly on the outline; either the triangles cover the outline exactly or each is a non-degenerate triangle of the given orientation.", "quantifier": "every polygon mesh whose polygons have three or more vertices, every field and every parameter", "why_tests_cant": "All meshes and height data.", "anchors": ["crates/rerecast/src/detail_mesh.rs:DetailNavmesh::new", "crates/rerecast/src/detail_mesh.rs:build_poly_detail", "crates/rerecast/src/detail_mesh.rs:set_tri_flags"]}
{"id": "C60", "title": "Detail error", "statement": "On every polygon edge no height sample is farther than detail_sample_max_error from the detail edge over it (in real numbers: plus a 2^-20th of it and a 2^-19th of the size of the coordinates); both polygons at an edge sample the same positions; the samples of an edge are evenly spaced, at most the sampling distance apart unless there are 32 of them or the outline has no room left; every interior sample is a vertex, or within the error of a triangle it lies over (measured in f32; close to the true distance unless the triangle is thin), or over no triangle that is not thin, or the sub-mesh is full.", "quantifier": "every polygon mesh, field, sample distance and error", "why_tests_cant": "All height data.", "anchors": ["crates/rerecast/src/detail_mesh.rs:build_poly_detail", "crates/rerecast/src/detail_mesh.rs:dist_to_tri_mesh"]}
{"id": "C61", "title": "Polygons that merge several regions", "statement": "A polygon without a region (RegionId::NONE) gets a detail mesh. Refuted: the search for a start reads the scratch vertices instead of the mesh's; if it is the first polygon and not at the left side, building panics.", "quantifier": "every mesh, field and parameter", "why_tests_cant": "All positions.", "anchors": ["crates/rerecast/src/detail_mesh.rs:get_height_data", "crates/rerecast/src/detail_mesh.rs:seed_array_with_poly_center"]}
{"id": "C62", "title": "Room for the detail mesh", "statement": "Storing never fails while the totals stay within 256 of the first allocation; beyond that the growth bookkeeping can underflow and building panics (witness: 140 triangles with eight detail vertices each).", "quantifier": "every sequence of sub-mesh sizes for the first part", "why_tests_cant": "Depends on the totals over a whole mesh and on the vector's growth policy.", "anchors": ["crates/rerecast/src/detail_mesh.rs:DetailNavmesh::new"]}
{"id": "C63", "title": "Height queries", "statement": "A height query answers with the height of the cell it falls into; if that is not set, with a height from the nearest ring of cells that has any, of those the one closest in height; with 65535 only if there is none within the search radius.", "quantifier": "every patch, position and radius up to 32767", "why_tests_cant": "The spiral's geometry needs induction over rings.", "anchors": ["crates/rerecast/src/detail_mesh.rs:get_height"]}
{"id": "C64", "title": "Every returned polygon mesh is well formed", "statement": "Whatever the contours (touching themselves, overlapping, with border flags), a polygon mesh that into_polygon_mesh returns has one neighbour row, flag and area per polygon and at least as many regions; every vertex is a contour corner; every polygon lists three to max_vertices_per_polygon vertex indices followed by padding, and the indices are in range when there are fewer than 65535 corners; a neighbour is missing, a polygon of the mesh, or a portal if the mesh has a border; areas and regions are those of contours (or region 0).", "quantifier": "every contour set, polygon size of at least 3 and number of steps", "why_tests_cant": "Contours of any shape, including the ones that make vertex removal run.", "anchors": ["crates/rerecast/src/poly_mesh.rs:into_polygon_mesh"]}
{"id": "C65", "title": "Border vertices are removed from the polygon mesh", "statement": "Vertices flagged as border vertices are removed. (Refuted, and in the strongest form: for contours with distinct corners, whenever a mesh is returned it equals the mesh of the same contours without any border flag, so no vertex is ever removed; the remaining runs panic or never end.)", "quantifier": "every contour set with distinct corners per contour and fewer than 65535 corners", "why_tests_cant": "That removal never succeeds is a statement about all meshes.", "anchors": ["crates/rerecast/src/poly_mesh.rs:remove_vertex"]}
{"id": "C66", "title": "The minimum region size", "statement": "After build_regions, around every span of a region at least min_region_area spans can be reached without leaving the regions, or the border can be reached; conversely a region of at least min_region_area spans is never removed, and with a minimum of at most one span nothing is removed. (The documentation speaks of isolated islands. A patch of another area inside a large floor, which is not isolated, is removed as well.)", "quantifier": "every compact field of at most 65535 x 65535 cells with a distance field, every border and pair of size limits", "why_tests_cant": "Islands are found by a search over the graph of regions; its completeness and the counting need invariants over arbitrary graphs.", "anchors": ["crates/rerecast/src/watershed_build_regions.rs:merge_and_filter_regions", "crates/rerecast/src/watershed_build_regions.rs:build_regions"]}
{"id": "C67", "title": "Merging regions never stacks floors", "statement": "If two spans of one column end up in the same region, they were in the same region before small regions were merged: merging never joins a region with one above or below it.", "quantifier": "every compact field, border and pair of size limits", "why_tests_cant": "The list of floors of a region is updated by every merge; that it stays complete is an invariant over arbitrary sequences of merges.", "anchors": ["crates/rerecast/src/watershed_build_regions.rs:merge_and_filter_regions", "crates/rerecast/src/watershed_build_regions.rs:Region::can_merge_with"]}
{"id": "C68", "title": "The frame of a contour set", "statement": "build_contours keeps the field's resolution and vertical bounds; it subtracts the border from both sides of width and depth and moves the horizontal bounds in by border times cell size, and leaves them alone when there is no border; every raw and every simplified vertex lies on or inside the resulting frame.", "quantifier": "every region-labelled compact heightfield with symmetric connections whose border is painted", "why_tests_cant": "The bound on the vertices follows from the painting of borders and from the walk on arbitrary fields.", "anchors": ["crates/rerecast/src/contours.rs:CompactHeightfield::build_contours"]}
{"id": "C69", "title": "The configuration in voxels", "statement": "NavmeshConfigBuilder::build gives the least number of voxels that hold the agent's height and radius, and the greatest number that does not exceed its climb and the edge length: exactly in the direction of the rounding, and up to the error of one f32 division in the other. The border is the radius plus 3. It panics only if the radius is more than 65532 cells, or if with tiling the tile and its border exceed u16. The documented rounding of the climb (up) and the documented limit of the sampling distance (0 or at least 0.9) hold.", "quantifier": "every builder with positive voxel sizes and non-negative finite measures", "why_tests_cant": "The statement compares real quotients with rounded f32 quotients over all pairs of floats.", "anchors": ["crates/rerecast/src/config.rs:NavmeshConfigBuilder::build", "crates/rerecast/src/config.rs:NavmeshConfig"]}
{"id": "C70", "title": "Every vertex of a navmesh is beside a place where the agent can stand", "statement": "If a build returns a navmesh, every vertex of its polygon mesh is the corner of a cell with a walkable floor where the agent can stand: the space above the floor is at least as high as the agent, the floor is not a ledge of the rasterized geometry, the agent can walk its radius in each of the four directions from there with its height and climb, and the cell is outside the border. The height of the vertex is that of a floor that is within the agent's climb of each step between the cells around the corner.", "quantifier": "every scene, configuration and platform cosine with a climb below the height and a radius of at most 127 cells; fields of at most 32767 cells a side, 62 walkable layers per column and regions of at most 10000 spans", "why_tests_cant": "It relates the end of a pipeline of ten stages to its beginning, for all scenes.", "anchors": ["crates/bevy_rerecast_editor/src/build.rs:build_navmesh", "crates/rerecast/src/poly_mesh.rs:ContourSet::into_polygon_mesh"]}
{"id": "C71", "title": "A returned navmesh is consistent", "statement": "If a build returns a navmesh, all per-polygon tables have one entry per polygon; polygons have three to max_vertices_per_polygon corners, padded, and refer to existing vertices; neighbours are none, an existing polygon, or a portal on a side of a mesh with a border; every polygon has the walkable area and some triangle of the scene faces up; the submeshes of the detail mesh, one per polygon, partition its vertices and triangles, and triangles refer to vertices of their own submesh.", "quantifier": "as C70", "why_tests_cant": "All scenes and configurations.", "anchors": ["crates/bevy_rerecast_editor/src/build.rs:build_navmesh"]}
{"id": "C72", "title": "Obstacles inside a region", "statement": "A floor with an obstacle in the middle gets a mesh around the obstacle: the outline of a hole (wound the other way) among the contours does not keep the other contours from becoming polygons.", "quantifier": "every contour set with a hole outline, and every scene", "why_tests_cant": "A test shows one scene; that holes of every shape fail needs a proof about ear clipping.", "anchors": ["crates/rerecast/src/contours.rs:CompactHeightfield::build_contours", "crates/rerecast/src/poly_mesh.rs:triangulate", "crates/bevy_rerecast_editor/src/build.rs:build_navmesh"]}
{"id": "C73", "title": "What a scene contributes, and empty scenes", "statement": "The triangles of a build are those of all affectors whose mesh can be read, each moved by the affector's transform, in order; other affectors make no difference to the result. The build reports an empty scene exactly if no readable mesh has a vertex. A scene without walkable triangles gives an error or an empty mesh.", "quantifier": "every list of affectors with valid indices and at most 2^32-1 vertices in total", "why_tests_cant": "All scenes.", "anchors": ["crates/bevy_rerecast_editor/src/build.rs:build_navmesh", "crates/rerecast/src/trimesh.rs:TriMesh::extend"]}
{"id": "C74", "title": "No walkable floor is forgotten", "statement": "After build_distance_field and build_regions on a field of fewer than 32764 spans, every walkable span away from the border is in a region, except for patches of fewer than min_region_area spans: a span without region belongs to such a patch of connected spans of its area that are all without region. With a minimum of one or less there is no exception. This needs one span with neighbours of its area on all four sides; a field without such a span, for example a long walkway two cells wide, gets no region at all.", "quantifier": "every well-formed compact heightfield of that size, every border size and region sizes", "why_tests_cant": "A span can be rejected at any water level, because of any of eight neighbours, and picked up again by an expansion that is limited to eight rounds at all levels but the last.", "anchors": ["crates/rerecast/src/watershed_build_regions.rs:CompactHeightfield::build_regions", "crates/rerecast/src/watershed_distance_field.rs:CompactHeightfield::build_distance_field"]}
{"id": "C75", "title": "Portals mark exactly the edges along the sides", "statement": "In every polygon mesh that into_polygon_mesh returns (fewer than 65535 contour corners), the neighbour entry of an edge is a polygon, a portal or none. It is a portal exactly if the contour set has a border, no polygon shares the edge, and both ends lie on the same side of the field; the entry then names the side (0x8000 plus direction), and if both ends lie on two sides, the first in the order -x, +z, +x, -z.", "quantifier": "every contour set, valid or not, and every number of vertices per polygon from 3 on", "why_tests_cant": "Must hold for every edge of every polygon after triangulation, merging and removal of vertices.", "anchors": ["crates/rerecast/src/poly_mesh.rs:ContourSet::into_polygon_mesh"]}
{"id": "C76", "title": "The boundaries of regions enclose exactly their regions", "statement": "build_contours walks a set of boundaries of regions, each a closed loop of unit steps along sides of its region that no other boundary shares, each side followed by the next one around the corner, and turns them, in order, into contours. Where a boundary runs along one other region of the same area, the contour has a single edge from one end of that stretch to the other, whatever the tolerance. No boundary is forgotten: every side of a region is in one, and for every region, the boundaries go round each cell of the field exactly as often as the cell has spans of that region, so every span of a region is enclosed. A boundary gets no contour only if it is that of a single span or if two of its positions stand for it (all points on walls and area borders are within the tolerance, all changes of neighbour are kept). So not every region gets a contour: a single isolated cell does not, nor does a region that one other region of the same area encloses.", "quantifier": "every compact heightfield with symmetric connections and regions of at most 10000 spans, every tolerance, edge length and build flags for which contour building does not panic", "why_tests_cant": "Walks consume flags of sides that later walks need; that none is missed, for every shape of region with any number of holes and layers, is a statement about the whole sequence of walks.", "anchors": ["crates/rerecast/src/contours.rs:CompactHeightfield::build_contours"]}
{"id": "C77", "title": "Where the agent has room, there is navigation mesh", "statement": "The converse of C70. Take a build that succeeds, an agent whose height and climb together are at most 255 voxels, and a walkable place of the filtered heightfield, outside the border, around which the agent has room: wherever n moves to neighbouring cells lead (3n + 1 < 4 times the radius), it can go on in all four directions. Then the place is inside a contour, and, if the contours have distinct corners without border vertices, polygons of the mesh tile that contour, all walkable. The exceptions are places of a patch of fewer than min_region_area places, which the minimum region size removes, and those whose boundary gets no contour (C76). It is required that somewhere a place and its four neighbours have room. Agents of more than 255 voxels get no mesh at all, however much room there is.", "quantifier": "every scene, configuration and build that succeeds within the stated sizes, every place of its heightfield", "why_tests_cant": "It is a statement about every place of every scene, through filters, compaction, erosion, watershed, contours and polygons; a test sees that some floors get a mesh, not that no floor is forgotten.", "anchors": ["crates/rerecast/src/compact_heightfield.rs", "crates/rerecast/src/erosion.rs", "crates/rerecast/src/region.rs", "crates/rerecast/src/contours.rs", "crates/rerecast/src/poly_mesh.rs"]}
{"id": "C78", "title": "The editor draws exactly the navmesh", "statement": "For every navmesh that a build returns (within the stated sizes): drawing it does not panic; the lines of the polygon mesh go around each polygon once, in world units, and end where they start; the triangles of its surface triangulate each polygon and none of them folds over if the polygon is convex; lines and surface of the detail mesh show each triangle of each sub-mesh at the vertices of its own sub-mesh, in order. The triangles of an affector are outlined; if one has an index out of range, the editor panics.", "quantifier": "every polygon mesh, detail mesh and affector, and every build that succeeds within the stated sizes", "why_tests_cant": "Polygon sizes, padding and sub-mesh tables combine without bound; a picture test compares a few.", "anchors": ["crates/bevy_rerecast_editor/src/visualization.rs"]}
{"id": "C79", "title": "What the editor shows follows the checkboxes", "statement": "After any sequence of clicks on the four checkboxes, builds, loads and systems run in any order, no system panics; and after one further frame, with the systems in any order, the polygon mesh, the detail mesh, the affectors and the visual meshes are shown if and only if their box is ticked, the meshes being those of the latest build and the scene that of the latest load, provided some checkbox was clicked after the latest load. Without such a click this fails: a scene loaded after two frames without input shows its visual meshes and no affector whatever the boxes say, and the old navmesh keeps its surface but loses its lines.", "quantifier": "all finite sequences of events, all orders of the systems", "why_tests_cant": "It is about every history and every schedule of systems that react to changes; tests try a few histories under one schedule.", "anchors": ["crates/bevy_rerecast_editor/src/visualization.rs", "crates/bevy_rerecast_editor/src/ui.rs", "crates/bevy_rerecast_editor/src/get_navmesh_input.rs"]}
{"id": "C80", "title": "The polygons of a region hang together", "statement": "In a polygon mesh made from contours of different regions (as in C51) in which no directed edge occurs twice, one can go from any polygon of a region to any other polygon of the same region by stepping from polygons to their neighbours; and from any polygon of one region to any of another if their contours have an edge in common. Whatever edges occur, polygons of one contour are joined by chains of polygons that share edges. If two floors lie above each other at a distance that welding bridges (two cells), they take each other's neighbours and a region can fall apart.", "quantifier": "all contours and mesh sizes within the stated limits, all pairs of polygons", "why_tests_cant": "Connectedness must hold for every way of cutting ears, merging and matching edges; tests look at the neighbours of a few polygons.", "anchors": ["crates/rerecast/src/poly_mesh.rs"]}
{"id": "C81", "title": "The editor builds the navmesh of the game's geometry", "statement": "The mesh backend gives one affector for every entity whose mesh is loaded and readable as triangles, in order, with its transform, and nothing for others; the collider backend one for every collider of a supported shape that belongs to a static body. Of several backends the one set last is used. Loading the game into the editor and building there gives the same result as building from the triangles of the backend, whatever the editor held before; with the mesh backend, the same as building from the game's own meshes. Areas that a backend gives its triangles are lost on the way.", "quantifier": "all games, backends, editors and configurations within 32-bit sizes", "why_tests_cant": "It relates two programs over all scenes; tests compare a few scenes.", "anchors": ["crates/bevy_rerecast_core/src/backend.rs", "crates/bevy_rerecast_core/src/mesh.rs", "crates/avian_rerecast/src/lib.rs", "crates/bevy_rerecast_editor/src/get_navmesh_input.rs", "crates/bevy_rerecast_editor/src/build.rs"]}
{"id": "C82", "title": "Neighbouring regions are joined in the mesh", "statement": "Where a contour of one region runs along another region of the same area, from p to q, it has a single edge there, and a contour of the other region has the same edge from q to p, whatever the tolerance and edge lengths are, unless that boundary of the other region is not drawn at all. In the polygon mesh one can then go from every polygon of the one region to every polygon of the other through neighbours, if the contour vertices at p and q differ by at most two in height. This needs corners of the common boundary at which there is one floor and at which no third thing is wedged in between two cells of the other region; without that it is false: a floor of 9 x 10 cells with one blocked cell becomes two regions whose polygons are not linked.", "quantifier": "all compact heightfields with symmetric connections and regions of at most 10000 spans, all tolerances, edge lengths and flags for which contour building does not panic; for the mesh, contours as in C51 and C80", "why_tests_cant": "Each region is traced and simplified on its own; that both sides choose the same vertices is a statement about two independent runs over all shapes of boundary.", "anchors": ["crates/rerecast/src/contours.rs:CompactHeightfield::build_contours", "crates/rerecast/src/poly_mesh.rs:ContourSet::into_polygon_mesh"]}
{"id": "C83", "title": "Height patches show the polygon's own floor", "statement": "The heights under a polygon of one region are those of that region: in every column of the patch in which the region has a span, the patch shows the floor of the lowest such span, however many floors lie above each other there. Elsewhere it shows the floor of a span that can be reached from the region through links between columns of the patch, or no height (65535), and no height only where no link leads from a span that is shown. Collecting them always ends and never panics.", "quantifier": "all well-formed compact heightfields of at most 32767 x 32767 columns with floors below 65535, all rectangles inside, all non-zero regions with a span in the rectangle, all previous contents of the buffers", "why_tests_cant": "The patch is filled by a flood fill through links over stacked floors; that it neither mixes floors nor leaves reachable columns empty is a statement about all fields and regions.", "anchors": ["crates/rerecast/src/detail_mesh.rs:DetailNavmesh::new"]}
{"id": "C84", "title": "Building the detail mesh returns", "statement": "For polygons of 3 to 126 corners, each of one region that has a span at one of the polygon's corners, a positive sample distance and cell size, a simplification error of at most 32767 cells, and sides shorter than 2^64 sample distances, building the detail mesh neither loops forever nor panics: it returns one sub-mesh per polygon and nothing else, or else the polygons need more than 256 vertices or triangles beyond what was reserved at the start (one and a half vertex per corner, twice as many triangles), which is the one thing that can make it panic.", "quantifier": "all polygon meshes and fields as stated, all cell sizes, heights, sample distances and errors as 32-bit floats including infinite and NaN heights and errors", "why_tests_cant": "The indices come from floating point positions rounded to cells, with overflow checks on; only reasoning about all roundings excludes negative or overflowing cells.", "anchors": ["crates/rerecast/src/detail_mesh.rs:DetailNavmesh::new"]}
{"id": "C85", "title": "Once a scene is rasterized, its build returns", "statement": "Building the navmesh of a rasterized scene ends for one of few reasons. If no span is walkable after filtering, it panics. Otherwise, with at most 62 walkable spans per column and fewer than 32768 in all, it finds regions. If these have at most 10000 spans each and the border fits the field, it panics because the regions have more boundaries than the code makes room for, or it makes contours. If the contours touch themselves and the border nowhere and fit 16-bit indices, it reports an invalid contour, one that is not strictly convex; or it panics because the detail of the polygons needs more room than was reserved; or it returns a navmesh. It never loops forever and never fails in another way.", "quantifier": "all scenes of at most 32767 x 32767 cells whose rasterization returned, all configurations with 0 <= climb < height <= 65535, radius at most 127, 3 to 126 vertices per polygon, edge lengths of at most 255 or no edge splitting, an edge error of at most 32767, a positive finite cell size of at most 2^40 and at most 2^40 sample distances, all other fields arbitrary including infinite and NaN floats", "why_tests_cant": "Every stage works with checked arithmetic, indices into tables and loops without a bound; that none of them can fail depends on what all stages before guarantee, for every scene.", "anchors": ["crates/bevy_rerecast_editor/src/build.rs:build_navmesh"]}
{"id": "C86", "title": "The editor's camera obeys its controls", "statement": "In every session of the editor the camera moves and turns only while the user has grabbed it (the toggle key pressed an odd number of times, or the mouse button held), except that it coasts to a stop within 139 frames after being let go; while it is not grabbed no cursor is locked or hidden, and a grab locks the cursor of every window with the focus. While it is grabbed the velocity is that of the pressed keys, opposite keys cancelling out, and the camera never looks beyond straight up or down. Documented settings do not work as described: the running speed is ignored, and scrolling down ten lines within one frame stops the camera for good, more than ten reverses its controls, and a grab in a window without the focus leaves the cursor visible.", "quantifier": "all sequences of frames with arbitrary input, time steps, focus changes and window counts, finite mouse motion (and finite scroll where speed matters), all rotations", "why_tests_cant": "The state carries over from frame to frame; that it is right after every sequence of events, and that the decay in f32 reaches zero from every velocity, needs induction over the session.", "anchors": ["crates/bevy_rerecast_editor/src/camera/camera_controller.rs:run_camera_controller", "crates/bevy_rerecast_editor/src/camera/camera_controller.rs:CameraController"]}
{"id": "C87", "title": "Where agents of different height and climb can stand", "statement": "After the three filters an agent can stand on a span exactly if the span was walkable, or is at most its climb above the walkable span below it, the space above is at least its height, and the span is not a ledge for it. An agent that climbs better (or is smaller) should be able to stand wherever another one can. That is false; but a better climber loses a place only if it can step up from there farther than the other agent could and the floors around then differ by more than its climb, and a smaller agent only if there is an opening beside the place that is high enough for it and too low for the other.", "quantifier": "all heightfields reached by insertions and filter passes, all cells and spans, all pairs of agents", "why_tests_cant": "It compares two runs on every possible field; the exceptions depend on the heights of all neighbouring columns.", "anchors": ["crates/rerecast/src/pre_filter.rs:filter_low_hanging_walkable_obstacles", "crates/rerecast/src/pre_filter.rs:filter_ledge_spans", "crates/rerecast/src/pre_filter.rs:filter_walkable_low_height_spans", "crates/rerecast/src/heightfield.rs:populate_from_trimesh"]}
{"id": "C88", "title": "The order of triangles and the walkable floors", "statement": "Whether a floor is walkable should not depend on the order in which the triangles of a scene are rasterized. It does: a walkable span inserted into the middle of an unwalkable one makes its top walkable, and does not if it is inserted first. But every inserted span lies within a span of its column, whose area is the area of one of the spans inserted within it and at least that of each one that reaches up to the merge threshold below its ceiling. So the order matters only for spans that contain a walkable one ending farther below their top. For meshes with the same triangles in different orders: both are rasterized, with the same floors and ceilings in every column, and the same walkable spans but for these. Where all triangles have one area the columns are the same, before and after the filters.", "quantifier": "all heightfield sizes and all sequences of insertions inside the field with one merge threshold, all permutations of them; all valid meshes with f32 coordinates (fields of less than 65536 cells per side) and all orders of their triangles", "why_tests_cant": "There are as many orders as permutations; that the exceptions are exactly these needs an invariant over all insertion sequences.", "anchors": ["crates/rerecast/src/heightfield.rs:add_span", "crates/rerecast/src/rasterize.rs:rasterize_triangles"]}
{"id": "C89", "title": "Scenes that rasterize without a panic in f32", "statement": "Building a navmesh from ordinary level geometry should not panic in the rasterizer. That is false: with the default configuration a 10 by 10 floor builds, and the same floor with one axis-aligned rectangle above it panics; whether it does depends on the order of the rectangle's corners. A triangle across the axes can panic as well. But a right-angled triangle with sides along x and z, whose end toward larger z is at least a sixteenth of a cell away from every line where a row of cells begins, is always rasterized without a panic or an error, if no coordinate is larger than 8192 cells; so is every scene of such triangles, and the far side of the scene's bounding box is always clear of those lines.", "quantifier": "all f32 triangles, meshes, configurations and scenes of this kind, all heightfields reached by insertions, all merge thresholds", "why_tests_cant": "The panic depends on rounding of each clipped coordinate in relation to all cell lines; no set of sample scenes shows that the clip buffers never overflow for the rest.", "anchors": ["crates/rerecast/src/rasterize.rs:divide_poly", "crates/rerecast/src/rasterize.rs:rasterize_triangle", "crates/rerecast/src/heightfield.rs:populate_from_trimesh", "crates/bevy_rerecast_editor/src/build.rs:build_navmesh"]}
{"id": "C90", "title": "The editor's Load Scene dialog", "statement": "With at most one click per frame, the editor never shows two Load Scene dialogs; x and Load close the dialog, only Load asks for a scene, once, and nothing behind an open dialog reacts. Any number of clicks in one frame on the buttons of a dialog close it and ask for at most one scene. But two clicks on Load Scene in the same frame open two dialogs, and from then on no sequence of clicks closes a dialog, builds a navmesh or changes what is shown.", "quantifier": "all finite sequences of frames with any clicks that the open dialogs let through", "why_tests_cant": "It is about all histories, and the last part about all continuations of one.", "anchors": ["crates/bevy_rerecast_editor/src/ui.rs:close_modal", "crates/bevy_rerecast_editor/src/ui.rs:spawn_load_scene_modal", "crates/bevy_rerecast_editor/src/ui.rs:load_scene"]}
{"id": "C91", "title": "Where the detail mesh has vertices inside a polygon", "statement": "Every vertex that the detail mesh has inside a polygon (beyond the polygon's corners and those along its sides) is, seen from above, at most a ninth of a cell from a position of the sampling grid, whose lines are the multiples of the sampling distance; and that position is inside the polygon by the even-odd rule in exact arithmetic, or within a 32nd of a cell of one of its sides. But the positions do not keep half the sampling distance from the sides, as the code means them to: it compares that with a squared distance, so what is kept depends on the unit of length.", "quantifier": "all polygon meshes and fields whose coordinates are at most 8192 cells and 2^40, and sampling distances of at least half a cell at that size, for which the detail mesh is built; all polygons and detail vertices", "why_tests_cant": "It bounds the rounding errors of the inside test and of the jitter over all f32 coordinates.", "anchors": ["crates/rerecast/src/detail_mesh.rs:build_poly_detail", "crates/rerecast/src/detail_mesh.rs:dist_to_poly", "crates/rerecast/src/detail_mesh.rs:get_jitter_x"]}
