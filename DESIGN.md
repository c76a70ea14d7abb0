# Formal model of rerecast in Rocq: design

The model lives in `rocq/theories` and follows `/repo/crates/rerecast/src`
function by function. Properties are listed in `properties.jsonl`; the status of
each is in `MANIFEST.json`.

## Modelling conventions

* **Result of running Rust code.** `outcome A` is `Done a`, `Panicked` or
  `OutOfFuel`. A Rust panic (index out of bounds, `unwrap` on `None`, integer
  overflow, `clamp` with min > max) is the value `Panicked`. Rust `Result` and
  `Option` stay ordinary data inside `Done`.
* **Integer overflow.** The model follows the profile with overflow checks
  (debug and test builds): overflowing `+ - *` panics. `as` casts wrap or
  saturate as in Rust. A theorem concluding `Done` therefore also covers release
  builds, where the same run has no overflow to wrap.
* **Numbers.** `u8/u16/u32/i32` data are `Z` with explicit range checks at the
  operations that can overflow. Indices and loop counters (`usize`, and the
  `u16` cell coordinates) are `nat`.
* **f32.** Where the code computes with floats the model either uses the
  standard library's `SpecFloat` with 24 bits of precision (`f32` semantics, one
  NaN, round to nearest even) or, where stated in the definition's comment,
  exact rationals.
* **Vec, slices.** Lists with std++ lookup/insert. Out-of-range access panics.
* **SlotMap.** A finite map from keys to spans plus a counter for fresh keys.
  Simplification: keys are never reused (slotmap reuses a slot only with a new
  version, so live keys are never confused).
* **Loops.** `for` loops are monadic folds. `while` loops that are not
  structurally bounded take fuel; running out of fuel is the explicit outcome
  `OutOfFuel`, and theorems that conclude `Done` exclude it.
* **`&mut self`.** State in, state out.

## Files

One model file per Rust module (`Model*.v`, definitions only), small
specification files (`Spec*.v`) that do not use model helpers, proof files, and
`Properties*.v` holding the theorems for the listed properties, `Print
Assumptions` for each, and examples showing the hypotheses are satisfiable.

## Plan per property

| id | modelled | how proved |
|---|---|---|
| C01-C06 | `add_span` on slotmap + linked columns, fuelled loop | heap invariant (columns are disjoint key lists covering the map) preserved by each operation; refinement of the linked loop to a pure insertion on interval lists; order independence via canonical interval lists |
| C07-C10 | three filters over the linked heightfield | refinement to per-column list functions, then comparison with an order-free pointwise specification; equal columns give equal results |
| C11 | bit operations on `Z` | bit-level extensionality |
| C12-C17 | `into_compact`, both loops | loop invariants over the scan; symmetry from a uniqueness argument; counterexamples by computation |
| C18-C20 | erosion sweeps on `u8` with saturation | sweeps compute minimum over paths; both directions by induction over scan order |
| C21-C23 | distance sweeps on `u16` with overflow check, blur | same path theorem; overflow excluded by an invariant on scan order |
| C24 | footprint test | fold invariant |
| C25-C30 | watershed flooding, expansion, pruning, merging, renumbering | invariants over each loop, termination measures |
| C66, C67 | pruning and merging of regions | the search over the region graph collects a closed group with its exact span count; floor lists stay complete under merges |
| C74 | the same as C25-C30 | a span is rejected because of a neighbour; the direction in which it lies cannot grow along a chain of rejected spans, and each step uses up cells in that direction, so the chain ends in a span that the last expansion takes |
| C28, C29 on large fields | the same | spans without connections have different ids; pigeonhole |
| C31-C34, C68 | contour walk and simplification | injectivity of the walk step; cyclic-index invariants; rounding errors of the distance to a segment over the reals (Flocq); counterexamples |
| C35-C40 | triangulation, welding, merging, adjacency, vertex removal | induction on ear cutting; hash-chain refinement; counterexamples |
| C41 | hull triangulation | loop invariant |
| C42-C44 | trimesh operations, compound assembly | list reasoning; counterexample for compound |
| C52-C53 | reading bevy meshes, bounding boxes | list induction; order facts about f32 comparison |
| C45 | direction tables, next/prev | case analysis, modular arithmetic |
| C46 | builder with SpecFloat | case analysis on saturating casts |
| C47-C48 | `divide_poly` and the row and cell loops, once over any arithmetic, instantiated with f32 and with rationals | sign-change counting for vertex counts; hulls as intersections of half-spaces; loop invariants; counterexamples in f32 |
| C54-C55 | the same in any arithmetic | safety invariant of the loops, refinement to insertion histories |
| C49, C56, C57 | scene export with its three caches, mesh, image and material conversions, the editor's import | cache invariants (each cache is a numbering of handles) over the entity loop, composed with the import's invariants |
| C58-C62 | detail meshes: sampling along edges, hull and Delaunay triangulation, interior samples, storing, growth | loop invariants over each phase; partial correctness over a monad with panics; counterexamples; for the edges of C60 rounding bounds of the f32 distance to a segment in space, and of the f32 weights of a point in a triangle that is not thin (Flocq) |
| C63 | the spiral search over a height patch | closed form of the spiral by ring and offset, induction over rings |
| C64 | all of `into_polygon_mesh`, with vertex removal | partial correctness (if the code returns, then ...) with invariants for every phase |
| C75 | the same | invariant over polygons and slots |
| C76 | the same as C31-C34 | the flags never separate sides of one loop; a loop that goes down goes up again, and visiting a span clears its side towards -x, so at the end all sides in z direction are in loops; sides between spans of one region cancel in the sum of crossings of a ray; points are only inserted on stretches along walls and area borders, and degenerate removal keeps neighbours of different position |
| C77 | the whole build (C70) | places of the heightfield and spans of the compact field correspond one to one, and moves to connections; a chamfer path of weight w is at most 2w/3 moves, so erosion keeps places with room (C18); then C74, C76 and C51 |
| C78 | drawing of meshes and affectors in the editor | the fan is a way to cut ears, so it triangulates (as in C35); folds over sub-meshes; C71 for what the build returns |
| C79 | run conditions and systems of the editor's view, as a session of events | an invariant of sessions with a ghost bit for 'clicked since the latest load'; what a system achieved is kept by all others |
| C80 | triangulation, merging and adjacency of the polygon mesh | cutting an ear and merging two polygons keep 'no division without a common edge'; such polygons are joined by chains (a reached set that is not everything grows); edges that occur once become neighbours (C38) |
| C81 | the backends, with export, import and the build | list induction; the affector meshes read back as the same triangles (C56), and a build only looks at those (C73) |
| C82 | contours and polygon mesh together | a side and its opposite belong to walks in opposite directions: what follows a side, seen from the other region, precedes its opposite; so stretches along each other match, changes at their ends included; C76 makes them single edges, welding gives their ends common indices, C80 links the polygons |
| C83 | collecting the heights under a polygon | a queue invariant of the flood fill: queued spans are shown, shown spans are reached from the region, and spans already dequeued have no link to an empty column of the patch |
| C84 | the whole detail step | sign and range of every f32 position (Flocq for points along edges) give cells that fit; C83 for the patch, the termination of each polygon's refinement from C58-C60, and an invariant on reserved sizes over the polygons |
| C85 | the whole build after rasterization | the totality theorems of the stages (C10, C15, C19, C21, C22, C29, C33, C51, C84) in sequence; what each needs comes from the stages before (C12, C17, C31, C32, C64, C68), the length of sides in sample distances from rounding in Flocq's reals |
| C86 | the camera controller as a function of one frame, over any type of rotations | induction over the session for the flags, cursors, settings and angles; halving in f32 bounded with Flocq's reals; witnesses |
| C87 | the filters of C07-C10 | the result of all three filters in full from their pure forms; comparison of two agents; witnesses |
| C88 | histories of `add_span`, `rasterize_triangles` | induction over the insertions with C03 and C05; a triangle makes the same insertions whatever the field holds (relation between two runs of the rasterizer); witnesses |
| C89 | f32 clipping against the lines of the grid | error bounds of each f32 operation in Flocq's reals place every clipped corner before, on or behind the next line up to a tolerance; an abstract interpretation of the clip buffers over these places, closed by computation over all of its states, bounds the corners by seven; the loops carry it |
| C90 | the observers of the editor's buttons, clicks per frame | refinement to an automaton with one dialog, by induction over frames; invariant of two dialogs |
| C91 | the samples of the detail mesh and the even-odd test in f32 | error bounds over the reals (Flocq's rounding); induction over the sides; witness |
| C65 | the same | the edge list of the hole starts and ends in a way that puts padding into the hole or stops progress |
| C69 | the configuration builder in f32 | Flocq's theorems on rounding connect the model's f32 operations with real numbers; counterexamples |
| C70, C71 | the whole build as the editor runs it | composition of the theorems of all stages; areas of spans traced through insertion and filters |
| C72 | the same | no corner of a convex polygon wound the other way is an ear; by computation for a floor with a box |
| C73 | the same | list induction; the stages on a field without walkable spans |
| C50 | generation queue with bevy's asset allocator | induction over histories of operations |

## Trusted base

* Coq 8.16.1's kernel, including its bytecode evaluator (`vm_compute` is used for
  witnesses and examples).
* No axioms are added. `Print Assumptions` follows each theorem in its
  `Properties*.v` file, so a build prints the list. It reports "Closed under the
  global context" for every theorem named in `MANIFEST.json` except those about real
  numbers in `PropertiesConfig.v`, `C84_detail_returns`, `C85_build_returns`, four about the
  camera, `C89_right_angled`, `C89_mesh`, `C89_field`, `C89_scene`,
  `C91_inside`, `C32_tolerance`, `C32_contours_follow_walls`, `C60_edges_in_space`, `C60_interior_in_space` and `C60_thin_triangle_refuted`, whose proofs use real numbers. These depend on axioms of Coq's standard library
  that its real numbers are built on:
  `ClassicalDedekindReals.sig_forall_dec` and
  `FunctionalExtensionality.functional_extensionality_dep` (all of them), and
  `ClassicalDedekindReals.sig_not_dec` and `Classical_Prop.classic` (those that use
  Flocq's rounding theorems: `C69_agent_in_voxels`, `C69_no_panic`,
  `C69_large_radius_panics`, `C84_detail_returns`, `C85_build_returns`, `C86_comes_to_rest`, `C86_pitch`,
  `C86_keys`, `C86_scrolling_adjusts_speed_refuted`, `C89_right_angled`, `C89_mesh`,
  `C89_field`, `C89_scene`, `C91_inside`, `C32_tolerance`, `C32_contours_follow_walls`, `C60_edges_in_space`,
  `C60_interior_in_space`, `C60_thin_triangle_refuted`). `C69_default` is closed.
* Loading std++ brings seven axioms of Coq's own standard library into the
  environment. They are the sealed interface of the `under` tactic
  (`Coq.ssr.ssrunder.Under_rel`): `Under_rel`, `Under_rel_from_rel`,
  `Under_relE`, `over_rel`, `over_rel_done`, `Over_rel`, `under_rel_done`. No
  theorem here depends on them.
* `Lra` and `Lqa` (tactics for rational arithmetic) and `SpecFloat` load parts of
  the standard library's reals. That brings its axioms into the environment:
  `ClassicalDedekindReals.sig_forall_dec`, `ClassicalDedekindReals.sig_not_dec`,
  `FunctionalExtensionality.functional_extensionality_dep` and the sealed names of
  `Rdefinitions.RbaseSymbolsImpl` and `RinvImpl` (`R`, `Rabst`, `Rrepr`, `Rquot1`,
  `Rquot2`, `R0`, `R1`, `Rplus`, `Rmult`, `Ropp`, `Rlt`, `Rinv` and their `_def`
  equations). Apart from the theorems on real numbers above, no theorem depends on
  them.
* The hand translation from Rust to the `Model*.v` files. Every definition cites
  the lines it models and names its simplifications.

## What is modelled

| Rust | model | theorems |
|---|---|---|
| `heightfield.rs` `add_span`, spans, columns | `ModelHeightfield.v` | C01-C06, C88 |
| `pre_filter.rs` | `ModelFilters.v` | C07-C10, C87 |
| `compact_heightfield.rs`, `compact_span.rs`, `compact_cell.rs` | `ModelCompact.v` | C11-C17 |
| `erosion.rs`, `watershed_distance_field.rs` | `ModelDistance.v` | C18-C23 |
| `mark_convex_poly_area.rs` | `ModelMarkArea.v` | C24 |
| `watershed_build_regions.rs`, `region.rs` | `ModelRegions.v` | C25-C30, C66, C67, C74 |
| `contours.rs` | `ModelContours.v` | C31-C34, C68, C76, C82 |
| `poly_mesh.rs` | `ModelPoly.v` | C35-C40, C51, C64, C65, C75, C80, C82 |
| `trimesh.rs`, `avian_rerecast/collider_to_trimesh.rs` (assembly only; parry's tessellation is an input), `bevy_rerecast_core/mesh.rs` `from_mesh` | `ModelTriMesh.v` | C42-C44, C52, C53 |
| `rasterize.rs`, `heightfield.rs` `HeightfieldBuilder::build`, `populate_from_trimesh` | `ModelRasterize.v` (theorems in `PropertiesRasterize.v` and `PropertiesRound.v`) | C46-C48, C54, C55, C89 |
| `config.rs` | `ModelConfig.v` | C69 |
| `bevy_rerecast_editor/build.rs` | `ModelPipeline.v` | C70-C73, C85 |
| `bevy_rerecast_core/backend.rs`, `mesh.rs` `mesh3d_backend`, `avian_rerecast/lib.rs` | `ModelBackend.v` | C81 |
| `bevy_rerecast_editor/visualization.rs` (change detection as flags; the checkboxes of `ui.rs`) | `ModelView.v` | C78, C79 |
| `bevy_rerecast_editor/ui.rs` (layout left out; which entities the pointers are over as in bevy's picking: found once per frame, a dialog's backdrop hides what is behind it) | `ModelMenu.v` | C90 |
| `bevy_rerecast_editor/camera/` (trigonometry of rotations is an input) | `ModelCamera.v` | C86 |
| `detail_mesh.rs` | `ModelDetail.v` | C41, C58-C63, C83, C84, C91 |
| `math.rs` | `ModelMath.v` | C45 |
| `bevy_rerecast_editor_integration` `brp.rs` and `transmission/` (up to the byte encoding), `bevy_rerecast_editor/get_navmesh_input.rs` (from the decoded response on), `bevy_rerecast_core/generator.rs` | `ModelExport.v` | C49, C50, C56, C57 |

## What is not modelled

* Allocation failure, `usize` overflow, `serde`, `Debug`/`Display`, logging.
* Rendering, the editor's user interface (except its buttons, C79 and C90, and its camera, C86), asset loading and the network
  transport of the remote protocol.

## Findings

What the proofs found wrong in the code or its documentation. Each is a theorem
named `..._refuted` (or a theorem stating a panic) with a concrete witness.

* A floor with an obstacle in the middle cannot be built: the outline of the hole is
  never merged into the outline around it, and polygon building then fails with
  `InvalidContour` (C72). A hole with three corners becomes a polygon of the wrong
  winding instead.
* Building panics if nothing in the scene is walkable, or no span is left (C23, C73).
* Detail building never returns when a polygon away from the left side of the field
  touches several regions (C61), can panic after growing its tables once (C62), and
  always panics with the documented sampling distance 0 (C58).
* The samples of a detail mesh are meant to keep half the sampling distance from the
  sides of the polygon, but the code compares that with a squared distance, so what is
  sampled depends on the unit of length (C91).
* The distance of a sample from a triangle of the detail mesh is wrong by far more than
  rounding for thin triangles some hundred cells long, so that samples farther away than
  the maximum error add no vertex (C60).
* Vertices flagged for removal are never removed (C65), and trying to can loop
  forever (C40).
* `build_contours` panics with more contours than `max_region` (C33), for fields
  narrower than twice the border, and for edge lengths that are squared beyond `u16`
  (C34). The edge length limit and the error tolerance are not kept (C32, C34).
* Polygons with coordinates above 32767 overflow (C35). Merging two polygons that run
  along an edge in the same direction loses vertices (C37). The region table of a mesh
  is longer than its polygon table (C39). Welding depends on the order (C36).
* An agent that climbs better, or is smaller, can lose places where another one can
  stand (C87).
* Whether a floor is walkable depends on the order of the triangles: a walkable span
  inserted into the middle of an unwalkable one makes its top walkable (C88).
* Two clicks on Load Scene in one frame open two dialogs that never close again,
  because the observer that closes a dialog runs only if there is exactly one (C90).
* Erosion with a radius of 128 cells removes nothing, and larger radii are taken
  modulo 128 or panic (C20).
* Rasterizing in f32 panics on ordinary scenes with the default configuration: a floor
  from (0, -2) to (10, 8) with a level rectangle from (0.4, -1.1) to (1.8, -0.8) above it
  overruns the seven slots of a clip buffer (C89). The rectangle ends on a line between
  rows of cells, the polygon that is left is empty, and `divide_poly` of an empty
  polygon leaves the buffers as they were, so the last one is divided again. With its
  corners in another order it is rasterized.
* Rasterizing in f32 can overrun the seven-vertex buffer (C47), fills cells that a
  triangle does not touch along the low sides, and clamps heights (C48). A triangle
  that ends on a grid line (such as 5.1 with cells of 0.3) also leaves the spans of its
  last row or column in the one behind it, since dividing an empty polygon keeps the
  previous counts (C48). Fields above
  65535 cells a side have inconsistent sizes or panic (C46).
* In the editor, scrolling down ten lines within a frame stops the camera for good and
  more than ten reverses its keys, the running speed of a controller is ignored, and a
  grab in a window without the focus leaves the cursor visible (C86).
* Colliders with several parts are placed wrongly: each part is moved by the
  placements of all later ones and not by its own (C43).
* Connections to layers above the limit are dropped without the documented error
  (C15). One-way connections exist if the climb is not below the height (C14).
* Marking an area treats heights below the field minimum wrongly (C24).
* Regions are not always in one contour, may overlap, and `max_region` is never
  attained (C27, C30). Small regions are not re-assigned as documented (C25).
* A patch of another area inside a large floor is removed as if it were an isolated
  island (C66). A level whose floors are all at most two cells wide gets no region, and
  so no navmesh (C74). From 32764 spans on, region ids can be taken for border flags
  (C28); on large fields ids run out or distances overflow (C29).
* Clearance is kept in a byte. An agent of more than 255 voxels gets an empty mesh, without
  an error (C77); with height + climb above 255 some steps that it could climb are lost.
* A region of a single cell and a region enclosed by one other region of the same area get
  no contour; in the second case the contour of the outer region covers it (C76).
* Floors of different regions less than three cells above each other, with the same corners,
  take each other's neighbours, so that a region can fall apart (C80).
* Regions that touch each other on both sides of an obstacle's corner get contours that do not
  match, so that the mesh falls apart: a floor of 9 x 10 cells with one blocked cell has two
  regions without a link (C82).
* Areas that a backend gives its triangles are lost on the way to the editor (C81).
* Loading a scene into the editor shows its visual meshes and hides its affectors whatever
  the checkboxes say, and leaves the old navmesh's surface without its lines, until the
  next click (C79). An affector with an index out of range makes it panic (C78).
* Exported scenes keep images of materials that fail to serialize (C49). Custom
  attributes are lost, and reused attribute ids panic on import (C56).
* A scene without a walkable span makes the build panic instead of reporting an error or an
  empty navmesh (C23, C85).
* Documented but not so: the maximum area on merging spans (C05), `None` outside the
  field (C06), the climb rounded up and the limit of the sampling distance (C69).
