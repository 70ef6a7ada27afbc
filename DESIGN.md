# Formal model of vega: design

vega converts finite-element models between solvers (Nastran, Optistruct in; Aster, Systus,
Nastran out).  `/verif/rocq` holds a Coq 8.16.1 model of parts of its C++ code, written by hand
from the text of `/repo`, and proofs about that model.

## Method

* Each C++ function is modelled by a small total Gallina function; each definition carries a
  comment citing the file and lines.  Model files (`*Model.v`) hold definitions only; proof files
  (`*Proofs.v`) hold lemmas; `Properties*.v` hold the final statements, an `Example` showing the
  hypotheses are met by a non-trivial case, and `Print Assumptions`.
* Specifications used in statements live at the top of the `Properties` file, next to the theorems,
  and do not use the model's helpers.
* Undefined behaviour of C++ (out-of-bounds access, end-iterator dereference, null pointers, signed
  overflow where relevant) and exceptions are distinct outcomes of the model (`Base.v`: `Ok`,
  `Throw`, `UB`, and `NoFuel` for loops and recursion given a bound; theorems show the bound is
  enough or quantify over it).
* Where the code violates the property the full property is kept as a statement and its negation
  is proved with a witness (`..._refuted`); the sub-case that holds is proved as `..._partial` or
  under a name of its own.  The manifest says `partial` for such properties.
* Integers: C++ `int` is modelled by Z.  Where the range matters the range is a hypothesis.
* `double`: geometry and mechanics are modelled over the real numbers `R` (rounding, overflow and
  NaN are not modelled; a quotient whose denominator can vanish is `UB` or excluded by a
  hypothesis).  Texts of reals denote exact decimals.  Elsewhere values are of an arbitrary type.
* `std::map`/`std::set` are modelled as association lists, sorted lists or functions, with the
  ordering stated where the code depends on it.
* Theorems are tested against wrong programs: definitions of the models are edited in a scratch
  copy and the build must fail.  `seeded/LOG.jsonl` records every attempt.

## Modules

| model file | code modelled | properties |
|------------|---------------|------------|
| DofModel | Abstract/Dof.cpp, Dof.h: DOF, DOFS, DOFMatrix, DOFCoefs | C01-C06 |
| ReferenceModel | Abstract/Reference.h, Object.h, Model::Container in Model.h | C07-C09 |
| MeshNodeModel | Mesh.cpp node storage and parts, MeshComponents.cpp Node | C10-C13, C51, C52 |
| MeshCellModel | Mesh.cpp cell storage, cell types | C14, C15 |
| MeshGroupModel | Mesh.cpp groups, MeshComponents.cpp CellContainer | C16, C53 |
| FaceModel | MeshComponents.cpp faces of solid cells | C17, C18 |
| ConnectModel | node orders, NastranParser_geometry.cpp and NastranWriter.cpp | C25, C26, C54 |
| TextModel, TokenizerModel | NastranTokenizer.cpp | C19-C21, C55 |
| RealModel | NastranTokenizer.cpp nextDouble | C22 |
| WriterLineModel | NastranWriter.cpp class Line | C23, C24 |
| CardModel | cards MPC, CONM1, RBE2, RBE3, SPC, SPC1 in parser and writer | C27, C28, C56-C58 |
| CaseControlModel | NastranParser.cpp case control | C29-C31, C59, C60 |
| MatrixElementModel | Element.cpp MatrixElement, Model.cpp splitDirectMatrices and replaceDirectMatrices, SystusAsc.cpp | C33, C61-C64 |
| GeomModel | Value.cpp vectors, CoordinateSystem.cpp, CORD cards | C36, C37, C65, C66 |
| RigidModel | Constraint.cpp rigid links, supports in local axes | C34, C35 |
| LoadModel | Loading.cpp | C38-C40, C67 |
| SupportModel | Constraint.cpp SPC and sets, Analysis.cpp removeSPCNodeDofs, Model.cpp removeRedundantSpcs, removeConstrainedImposed | C43, C44, C47, C68 |
| CombineModel | Model.cpp replaceCombinedLoadSets, parseLOAD | C32 |
| AnalysisModel | Analysis.cpp parameters, boundary DOFs, reuse; Model.cpp active and common sets | C41, C42, C50, C69 |
| SectionModel | Element.cpp sections, Material.cpp ElasticNature, MAT1, emulateAdditionalMass | C45, C46, C70 |
| GridModel | NastranParser_geometry.cpp GRID, GRDSET; CoordinateSystem.cpp storage; NastranWriter.cpp writeNodes, coordinate systems | C71, C72, C73 |
| LoadCardModel (FieldProofs: reading optional fields) | NastranParser.cpp FORCE, MOMENT, FORCE1, FORCE2, GRAV, RFORCE, LOAD, PLOAD, PLOAD1, PLOAD2, PLOAD4; NastranWriter.cpp writeLoadings | C74-C76 |
| PropCardModel | NastranParser.cpp PBAR, PBARL, PBEAM, PBEAML, PROD, CONROD, PSHELL, PIHEX, PSOLID, PLSOLID, PCOMP, PBUSH, CONM2; Element.cpp getFullLayers; NastranWriter.cpp writeElements | C77-C79 |
| SpringModel | NastranParser_geometry.cpp CELAS1, CELAS2, CELAS4, CDAMP1, CMASS2; NastranParser.cpp PELAS, PDAMP, PVISC, parseDOF; Element.cpp ScalarSpring::addSpring; Model.cpp splitElementsByDOFS | C80 |
| DiscreteExportModel | Element.cpp DiscretePoint, DiscreteSegment, StructuralSegment, ScalarSpring vectors; AsterWriter.cpp writeAffeCaraElem (DISCRET) | C81 |
| FreqModel | NastranParser.cpp EIGRL, EIGR, EIGB, EIGC, FREQ, FREQ1, FREQ3, FREQ4, TABLED1, TABLES1, TABDMP1; Value.cpp StepRange, BandRange, FunctionTable; AsterWriter.cpp writeValue, writeCalcFreq (BAND), modal damping; SystusDat.cpp writeLinearModalAnalysis, writeFrequencyExcit, writeModalDamping | C82, C83, C84 |
| MembershipModel | Model.cpp 178-312 removals, 382-543 insertion into and contents of load, constraint and objective sets | C85 |
| RelationCellsModel | Model.cpp 1668-1757 makeCellsFromLMPC, 1759-1906 makeCellsFromRBE, SystusWriter.cpp 1868-1890 LMPC table | C86, C87 |
| AsterScriptModel (lemmas AsterScriptProofs, AsterScriptAnalysis, AsterScriptOne, AsterScriptNames; specification AsterScriptReady) | AsterWriter.cpp 125-673 (analyses, results, comm file), 797-936 (values), 1441-1692 (constraints, loads, contacts), 2234-3062 (analyses), 3114-3150 (frequency assertions), Model.cpp 835-867; only the names that commands define, use and destroy, not what they compute; mesh, model and material commands out of scope | C89, C90 |
| DynaLoadModel | NastranParser.cpp 1337-1395, 1469-1487, 1836-1849, 3243-3434 (DAREA, DELAY, DPHASE, DLOAD, LSEQ, RLOAD1, RLOAD2), Model.cpp 412-422, Model.h 550-592, Loading.cpp 800-862, AsterWriter.cpp 2635-2653 and 2856-2880, SystusWriter.cpp 1318-1345 and 1917-1940; parsing errors throw (strict mode), warnings and table placeholders omitted; the other cards that make a LOAD set are one event | C88 |
| RbarModel | NastranParser.cpp 1320-1336, 3106-3163 (CRIGD1, RBAR, RBAR1), Constraint.cpp 208-210, Model.cpp 2261-2265, NastranWriter.cpp 426-469; node numbers stand for positions, putting the relations into the constraint sets is omitted | C91 |
| AsterConstraintModel | AsterWriter.cpp 1441-1484, 1694-1730, 1765-1793, 1819-1950, 2152-2212, Constraint.cpp 360-489 and 537-597, MeshComponents.cpp 977-1068; the file is a structure of keywords, numbers are exact, names of groups are numbers, LIAISON_MAIL and contacts omitted; Code_Aster's reading (last DDL_IMPO counts, lists of one length) is the specification | C92 |
| AsterLoadModel | AsterWriter.cpp 1486-1529, 1732-1763, 1951-2150, 2177-2212, Loading.cpp 117-124, Utility.h 67-73; the file is a structure of keywords, numbers are exact, a nodal force is given in global axes at each of its nodes, DEFI_FONCTION is not modelled (a name per value); Code_Aster's reading (last occurrence counts, or occurrences add) is the specification, both are treated | C93 |
| SystusVectorModel | SystusWriter.cpp 1014-1763, 2416-2510, 2582-2640, 2873-2878, 2981-3025: load cases, vectors, lists, node lines, counts; the file is its numbers, nodes are positions, angles of local systems and global forces at nodes are inputs, titles and the text format are not modelled; options CONTINUOUS and SHELL; the loads of an excitation other than nodal forces are dismissed as in the code | C94 |
| OrientModel | NastranParser_geometry.cpp 134-290, Mesh.cpp 336-432 (numbers, nodes and systems), 594-657, 729-737, CoordinateSystem.cpp 289-369, AsterWriter.cpp 1348-1373, NastranWriter.cpp 262-264, 340-357; the number of a new orientation is any unused one, the numbers INT_MIN and INT_MAX (absent field, absent node) are not treated as special, the groups of properties are left to C16, vectors are reals; a comparison with the vector of an orientation that has none yet is undefined behaviour | C95 |
| SystusAxesModel | SystusWriter.cpp 119-231, 2643-2713: default axes and angles of elements; angles as real numbers, the text format and the error on another dimension are not modelled | C96 |
| SystusElementModel | SystusWriter.cpp 59-95, 236-262, 2721-2943: element lines, header count, groups, part numbers; lines as numbers, the text layout, the comments of groups and the overflow of the part counter are not modelled | C97 |
| SystusMaterialModel | SystusWriter.cpp 36-57, 101-116, 264-341, 1948-2245 (fillMaterial), 2263-2306 (reduction numbers of springs), 2948-2981, 3026-3061; Element.cpp 231-310, 929-966, 1031-1046: materials as ascending lists of fields, real numbers for doubles, unavailable numbers as none; the layout of the text, the offsets of masses (dismissed by the code) and the values of nature getters are not modelled | C98 |
| NastranControlModel | NastranWriter.cpp 197-243 (writeSOL), 497 and 555 (set numbers of MPC and CONTACT cards), 919-1034 (writeModel down to BEGIN BULK); NastranParser.cpp 192-235, 330-536, 651-978: the section as a list of lines, whole, written and read; combinations (SUBCOM), direct matrices, titles and recovery after an error in a SET are not followed | C99 |
| NastranElementModel | NastranParser_geometry.cpp 424-458, 562-653 (solids and shells from the fields of the card), NastranParser.cpp 55-86, 536-570 (handlers, dismissed cards); NastranWriter.cpp 245-367 (writeCells): keyword and fields of every cell, sets in order; cells and properties already in the mesh, groups and the printed warnings are not followed | C100 |
| MaterialModel | NastranParser.cpp 109-112, 536-570, 1863-2025 (MAT1, MAT8, MATHP, MATS1); Material.h 64-188, Material.cpp 50-65, 100-300 (natures and getters); Model.cpp 736-743, 2184-2216 (isotropic layers); NastranWriter.cpp 380-411; AsterWriter.cpp 937-1039, 2538-2560 (DEFI_MATERIAU by names and numbers, RELATION): real numbers for doubles, an unavailable number is none; the digits of the Aster file, DEFI_COMPOSITE, AFFE_MATERIAU, rigid natures and the printed warnings are not modelled | C101-C104 |
| MedModel | MedWriter.cpp 38-359 (families of nodes and cells, coordinates, connectivity, groups): a file is the list of what is handed to the MED library, which is not modelled; the order of the sections, debug output and names with a zero byte are not modelled | C105 |
| OffsetModel | `Model::splitElementsByCellOffsets`: the grouping by rounded sixth power, the copies, the erasures and the additions to the registry of ReferenceModel. Not modelled: the rounding of `pow`, offsets above 1448 (range of `long`), what the rest of a shell is made of. | C106 |
| ForceLineModel | `Model::changeParametricForceLineToAbsolute`: the checks, the tables of X and their addition to the model, over rationals. Not modelled: the rounding of doubles, placeholders with the number of the table. | C107 |
| SpringSplitModel | `Model::splitElementsByDOFS` on the group registry of MeshGroupModel. Not modelled: the container of element sets (the added sets come last, with automatic numbers). | C108 |
| ParamModel | `parsePARAM` and its sixteen functions, `to_string_with_precision`, the parameters of the model and what the writers make of seven of them. Not modelled: the warnings, strict mode, the rounding of the decimal of a card to a double before it is printed. | C109 |
| SegmentModel | `Model::convert0DDiscretsInto1D`, `Model::makeBoundarySegments`: the element and constraint registries are lists, the marks of written targets and the links from a contact to its groups are not modelled | C110 |
| OptistructModel | `OptistructParser::parseSET`, `parseSURF`, `parseCONTACT`, `NastranTokenizer::skipToNotEmpty`: the registries (a number or a group name taken already) and the written marks are not modelled; the values stay the list that was read, the sets made from it forget order and repetitions | C111 |
| GapModel | `parseCGAP`, `parsePGAP`, `GapTwoNodes::addGapNodes`, `getGaps`, the constants and lines `AsterWriter::writeDefiContact` writes for gaps: nodes are positions, the constants are keys (their texts: C90), the printing of numbers, slide, surface and body contacts are not modelled | C112 |
| F06Model | `F06Parser::add_assertions`, `readLine`, `parseSubcase`, the sections of displacements, eigenvalues and complex displacements and what adds them to the model: numbers are read by a parameter (`stod`), the vectors taken to the global system by another (C35), objective sets created for nothing, messages and the stresses of solids are not modelled | C113 |
| ContactSurfModel | BSSEG, BSCONP, BCBODY and BCTABLE cards; makeBoundarySurfaces of surface contacts; createSkin of element faces and generateSkinCell; bodies of a contact zone: what a BCTABLE card in error leaves behind, BSURF, BFRIC, the Skin element set and makeCellsFromSurfaceSlide are not modelled; reading past the end of a list is UB | C114 |
| VirtualModel | Model.cpp generateDiscrets: virtual point elements, the degrees of freedom given to nodes and the constraints added. Not modelled: the virtual material, the comments of the groups, the log | C115 |
| DirectCardModel | NastranParser.cpp K2GG/M2GG/B2GG (355-457), parseDMIG, parseSLOAD, parseSPCD, parseTEMP, parseSET1, parseSET3, parseSPCADD, parseBSURF, parseBCGRID, parseBLSEG, parseBFRIC, parseBCONP, parseNLPARM: warnings, input context, creation of the groups not modelled; the terms are kept as the calls of addComponent (MatrixElementModel builds the matrix) | C116 |
| FinishModel | Model.cpp:1129-1165 (assertions removed, default analysis), 1396-1416 (rigid segments), 1624-1659 (cells of direct matrices), 2006-2018 (detected analysis), 2091-2107 (node groups of sets): sets of segments carry the node numbers of their cells; non-matrix element sets are passed over; groups of displacement outputs, the beams of 937-1005 and log output are not modelled | C117 |
| ResultTestModel | AsterWriter.cpp:568-599, 3064-3178 (blocks of TEST_RESU) and SystusWriter.cpp:3209-3352 (tests in the LANGAGE section, with the loop that looks for a frequency); not modelled: the layout and digits of the text, the result names (AsterScriptModel), the phrases printed by Systus. What a block accepts is part of the specification: differences relative to VALE_REFE and VALE_CALC or absolute, compared with PRECISION and TOLE_MACHINE; the theorems hold whichever value of TOLE_MACHINE an absolute test uses | C118 |
| SystusCaseModel | SystusWriter.cpp:417-570 (automatic and chosen option, degrees of freedom) and 885-1012 (subcases), VegaCommandLine.cpp:300-309, 352-386 (their options): messages and logs are not modelled; an option word the command line refuses is outside the model of the writer (its fields stay uninitialised) | C119 |
| SystusRigidModel | SystusWriter.cpp:643-884 (generateRBEs) on the mesh of MeshCellModel: the stiffness of the rigid material (572-597), the material checks, markAsWritten and the groups of cells are not modelled (an element set is the set of positions of its cells) | C120 |
| SystusTableModel | SystusWriter.cpp:1766-1946 fillTables, 3068-3075 writeTables, SystusAsc.cpp:43-97, SystusDat.cpp:265-268 the line FUNCTION: number formats, the label of tables, warnings and the other lines of the analysis file are not modelled; doubles are rationals | C121 |
| MeshStatsModel | Mesh.cpp:865-908 calcStats, SystusWriter.cpp:572-598 generateRbarStiffness, 661-672 and 844-856 the value given to rigid materials: rounding, overflow of the squares, how a modulus is found and warnings are not modelled; cells are given as the points of their nodes | C122 |
| OptionsModel | VegaCommandLine.cpp:71-129, 131-420 convertStudy (exit code only), normalize_path, readCommandLineParameters: the solver, its command, server and version, the test file, the tolerance, the listing of options and the parsing by boost::program_options are not modelled | C123 |
| SlideCellModel | Constraint.cpp:969-1039 SurfaceSlide::makeCellsFromSurfaceSlide: the R-tree is the list of its entries and a query returns any nearest one; the group, element set and identifiers of the new cells are not modelled | C124 |
| ValidateModel | Model.h:503-530, Model.cpp:436-500 (reading sets), 2362-2503, Loading.cpp:107-115, Analysis.cpp:94-105, 263-315, 400-427, 629-645, 690-706, 740-756 (validation of a model and check of writing): the answer and the mark of each object are inputs, messages are not modelled | C125 |
| IncludeModel | NastranParser.cpp:536-570 (the loop), 1813-1835, SolverInterfaces.cpp:163-182 (INCLUDE of the bulk data): other commands are only recorded, file names are texts as in boost::filesystem version 3 | C126 |
| PruneModel | Model.cpp:178-271 and 1006-1066, Analysis.cpp:166-215, removal of what has no effect: which objects are ineffective is an input; unused nodes of node groups and messages are not modelled | C127 |
| SystusDatModel | SystusWriter.cpp:372-409, 885-929 and 3076-3267, command files: a file is a list of blocks, their text, the ASC files and the files of matrices are not modelled | C128 |
| SystusCheckModel | SystusWriter.cpp:3224-3253 and 3273-3351, checks of results: numbers are exact reals, the text of the checks is given its meaning, the printed tables are not modelled | C129 |
| RunnerModel | SolverInterfaces.h:171-179, SolverInterfaces.cpp:227-258, AsterRunner.cpp:41-117, NastranRunner.cpp:40-67, SystusRunner.cpp:37-178, VegaCommandLine.cpp:422-433: the solver is any function of its command file and the directory; not modelled: the text of the commands, files that cannot be removed, the directory repe_out, the messages | C130 |
| ProcessModel | VegaCommandLine.cpp:462-672, VegaCommandLine.h:41-59, vegamain.cpp:24-57: what each step finds or does is an input; not modelled: the messages, the build without fork | C131 |
| ReasonModel | VegaCommandLine.cpp:40-56, 674-681, vegamain.cpp:42-48: the reason printed with a code; the streams are not modelled | C131 |
| CsvModel | CSVResultReader.cpp, ConfigurationParameters.cpp names | C48, C49 |

## Simplifications that matter

The comment of each definition states its own.  The main ones:

* Identifiers and counters do not wrap around at 2^31; the integers of Systus matrices are unbounded.
* `vector::erase(end())` (C59) is undefined by the standard; C31 says so, C59 assumes the effect it
  has in libstdc++.
* The LU inversion of ublas is replaced by the exact inverse, failing on a zero determinant (C36).
* A coefficient or value equal to the reserved "unavailable" double is `None`.
* Supports and loads are identified by their internal number (no reader gives them an original
  number); a newly created set comes last in an analysis; the comparison of two imposed values is an
  arbitrary predicate; a null set pointer is `UB`.
* The cells that accompany split matrices and discrete elements are not modelled.
* The modes an analysis computes are described by its search, its method and its sets of supports.
* CSV: quoted columns are not modelled, `atof` is an arbitrary function.
* Sections: areas and second moments are compared with integrals over the section; the torsion
  constant is compared with bounds only.
* Additional mass: element sets are supposed to have no common cell.

## Not modelled

Boost, libmed/HDF5 below the calls that are recorded, the command line driver, process execution of
solvers, log output, file system access, floating-point rounding, hash-table iteration order, memory
allocation failure, stresses in F06 result files, body contacts beyond what C112 says, and the parts of the
writers that the table does not name.

## Trusted base

* Coq 8.16.1's kernel and the reading of the C++ text recorded in the comments.
* No axiom is declared here.  `Print Assumptions` (run in the `Properties` files, and over every
  theorem of a claim for this list) names, from the standard library only:
  * nothing ("Closed under the global context") for 685 theorems: all but those below;
  * `ClassicalDedekindReals.sig_forall_dec` for `C88_systus_direct_refuted`, `C122_value`,
    `C123_accepted`, `C123_dropped_refuted`, `C123_exclusive_refuted`, `C123_exit_refuted`,
    `C123_graph`, `C123_graph_refuted`, `C123_lagrangian`, `C123_level`, `C123_malformed_refuted`,
    `C123_mode`, `C123_penalty`, `C123_rigidity_ignored`, `C123_single_mark`, `C123_size`,
    `C123_strict`, `C123_subcases`, `C123_subcases_text`, `C123_table_size_refuted`,
    `C123_unknown_level_refuted`, `C123_words`;
  * `ClassicalDedekindReals.sig_forall_dec`,
    `FunctionalExtensionality.functional_extensionality_dep` for C32 (all), C34 (all),
    `C39_displacements_refuted`, `C39_intensities_partial`, `C39_rotation_refuted`,
    `C40_gravity_refuted`, C45 (all), C70 (all), `C91_crigd1_read`, `C91_dependent_refuted`,
    `C91_numbers_refuted`, `C91_rbar1_refuted`, `C91_rbar_meaning_partial`, `C91_solid_refuted`,
    `C91_written_partial`, `C92_conflict_refuted`, `C92_function_refuted`, `C92_relation_close`,
    `C92_relation_partial`, `C92_set_partial`, `C92_small_refuted`, C94 (all),
    `C96_bar_axes_unique`, `C96_triangle_axes_unique`, `C98_inertia_refuted`, `C98_masses_partial`,
    `C98_masses_refuted`, `C98_reduction_refuted`, C101 (all), C102 (all), `C103_assigned_refuted`,
    `C103_density_refuted`, `C103_expansion_refuted`, `C103_layers_partial`, C104 (all),
    `C112_meaning_partial`, `C112_second_node_refuted`, `C118_search`,
    `C123_lagrangian_in_penalty_refuted`, `C123_rigidity`, C124 (all), `C129_map`,
    `C129_missing_frequency_refuted`;
  * `ClassicalDedekindReals.sig_forall_dec`, `ClassicalDedekindReals.sig_not_dec`,
    `FunctionalExtensionality.functional_extensionality_dep` for C35 (all), C36 (all), C37 (all),
    C38 (all), `C39_nodal_forces`, `C40_ineffective_partial`, `C40_kept_partial`,
    `C40_nodal_force_bound`, `C40_two_nodes_refuted`, C46 (all), C66 (all), C67 (all),
    `C71_nodes_placed_partial`, `C75_directed_written`, `C77_rod_inertia`, `C88_aster_partial`,
    `C88_delay_refuted`, `C88_kind_refuted`, `C88_nature_refuted`, C93 (all), `C95_accepted`,
    `C95_aster_partial`, `C95_axes`, `C95_bush_system_refuted`, `C95_deck_partial`,
    `C95_displacement_axes_refuted`, `C95_groups`, `C95_length`, `C95_rewritten_axes`,
    `C95_undefined_system_refuted`, `C95_uninitialised_refuted`, `C98_accepted`, `C98_beam_partial`,
    `C98_block`, `C98_card`, `C98_damper_refuted`, `C98_elastic_partial`, `C98_materials`,
    `C98_no_shear_refuted`, `C98_poisson_refuted`, `C98_rectangular_bar_refuted`,
    `C98_shear_refuted`, `C98_stiffness`, `C98_web`, `C112_openings_refuted`,
    `C112_written_partial`, `C112_z_refuted`, `C118_agree`, `C118_agree_refuted`, `C118_aster`,
    `C118_instant`, `C118_other_frequency_refuted`, `C118_small_refuted`, `C118_systus`,
    `C118_systus_harmonic_partial`, `C118_systus_harmonic_refuted`, `C118_zero_mode_refuted`,
    `C122_coincident_refuted`, `C122_computed`, `C122_first_call`, `C122_longest`, `C122_mean`,
    `C122_min_length_refuted`, `C122_no_mean`, `C122_points_refuted`, `C122_second_model_refuted`,
    `C122_shortest`, `C122_stale_refuted`, `C122_stiffness`, `C129_case_refuted`, `C129_complex`,
    `C129_strict`, `C129_verdict`;
  * `ClassicalDedekindReals.sig_forall_dec`, `ClassicalDedekindReals.sig_not_dec`,
    `Classical_Prop.classic`, `FunctionalExtensionality.functional_extensionality_dep` for C65
    (all), `C96_accepted`, `C96_bar`, `C96_cylindrical_refuted`, `C96_flat_triangle`, `C96_form`,
    `C96_quadrangle_refuted`, `C96_spatial_partial`, `C96_triangle_partial`, `C97_accepted`,
    `C97_header_partial`, `C97_header_refuted`, `C97_lines`, `C97_pyramid_line_refuted`,
    `C97_volumes_refuted`;
