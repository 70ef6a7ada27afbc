{"id": "C01", "title": "Component code of a DOF set decodes to the same set", "statement": "Writing a set of degrees of freedom as the digit code used on cards (1=DX ... 6=RZ) and decoding that code yields exactly the original set.", "quantifier": "every set of degrees of freedom", "why_tests_cant": "The law is about the pair of functions over the whole set space and about the empty set, which no card in the test-suite uses.", "anchors": ["Abstract/Dof.cpp: DOFS::nastranCode, DOFS::nastranCodeToDOFS"]}
{"id": "C02", "title": "Decoding a component code depends only on its digits", "statement": "Decoding an integer whose decimal digits all lie in 1..6 yields the set of those digits, whatever their order or repetition; a code with another digit is rejected with an error and never silently truncated.", "quantifier": "every non-zero machine integer", "why_tests_cant": "There are infinitely many digit strings; tests use a handful such as 123 and 123456.", "anchors": ["Abstract/Dof.cpp: DOFS::nastranCodeToDOFS"]}
{"id": "C03", "title": "DOF sets obey set algebra and iterate in order", "statement": "Union, difference, intersection and inclusion of DOF sets behave as on mathematical sets, and iterating a set yields each member once, in ascending order, as many members as its reported size.", "quantifier": "every pair of DOF sets and every degree of freedom", "why_tests_cant": "4096 pairs times six operations; tests check few literals.", "anchors": ["Abstract/Dof.cpp: DOFS::contains, containsAll, containsAnyOf, operator+, operator-, operator&, size, iterator"]}
{"id": "C04", "title": "A nodal matrix returns what was stored", "statement": "After any sequence of component writes, reading a component of a full, symmetric or diagonal 6x6 matrix returns the last value written at that component (for symmetric matrices: at it or its mirror), zero if never written, and no other write interferes.", "quantifier": "every matrix kind and every history of component writes", "why_tests_cant": "Interference between components depends on the write history.", "anchors": ["Abstract/Dof.cpp: DOFMatrix::addComponent, findComponent"]}
{"id": "C05", "title": "Exported matrix vectors agree with the stored components", "statement": "The column vector, the upper triangular vector and the diagonal exported from a nodal matrix have 9/36, 6/21 and 3/6 entries and each entry is the component the layout promises; transposing twice gives back every component. Asking whether a matrix is zero, diagonal, symmetric or equal to another gives the answer obtained by looking at every component, and is safe.", "quantifier": "every matrix and every index", "why_tests_cant": "The layout must be right at each index for every content.", "anchors": ["Abstract/Dof.cpp: DOFMatrix::asColumnsVector, asUpperTriangularColumnsVector, diagonal, transposed", "Abstract/Dof.cpp:377-465"]}
{"id": "C06", "title": "Combining coefficient sextuples ignores absent entries", "statement": "Adding two coefficient sextuples gives, per degree of freedom, the sum of the entries that are present on either side; an entry absent on one side leaves the other unchanged.", "quantifier": "every pair of sextuples with any pattern of absent entries", "why_tests_cant": "The failing patterns are combinations of absent/present entries that tests do not enumerate.", "anchors": ["Abstract/Dof.cpp: DOFCoefs::operator+=, getDOFS"]}
{"id": "C07", "title": "References are totally ordered consistently with equality", "statement": "The comparison used to key ordered maps by reference is a strict total order whose induced equivalence is the equality of references.", "quantifier": "every triple of references", "why_tests_cant": "Order laws quantify over triples; maps silently lose entries when violated.", "anchors": ["Abstract/Reference.h: Reference::operator<, operator=="]}
{"id": "C08", "title": "Equal references hash equally", "statement": "Two references that compare equal have the same hash, so that a hashed lookup finds an entry stored under an equal reference.", "quantifier": "every pair of references", "why_tests_cant": "The law is universally quantified and hash collisions hide failures.", "anchors": ["Abstract/Reference.h: std::hash<Reference>, operator=="]}
{"id": "C09", "title": "Object registry behaves as a finite map", "statement": "After any history of additions and removals, looking an object up by its typed original number or by its internal number returns the most recent object added under it and not removed since, and nothing otherwise.", "quantifier": "every history of add and erase operations", "why_tests_cant": "Histories are unbounded.", "anchors": ["Abstract/Model.h: Container::add, find, erase, get"]}
{"id": "C10", "title": "Node numbers and internal positions are in bijection", "statement": "After any history of node definitions, reservations and cell insertions, distinct node numbers have distinct positions, converting number to position and back is the identity, and the position of a number never changes once given.", "quantifier": "every history of mesh operations", "why_tests_cant": "Stability must hold along every history.", "anchors": ["Abstract/Mesh.cpp: Mesh::addNode, findOrReserveNode, findNodeId, findNodePosition"]}
{"id": "C11", "title": "The last definition of a node wins", "statement": "Reading a node returns the coordinates and coordinate systems given by the last definition of its number, even if the number was first reserved by a cell or constraint, and defining another number never alters it.", "quantifier": "every history of mesh operations and every node number", "why_tests_cant": "Interleavings of reservation and definition are unbounded.", "anchors": ["Abstract/Mesh.cpp: Mesh::addNode, findNode, findOrReserveNode"]}
{"id": "C12", "title": "Automatically numbered nodes get a fresh number", "statement": "A node added without a number receives a number that no node of the mesh has at that moment.", "quantifier": "every mesh state reachable by any history", "why_tests_cant": "Depends on which numbers the history already used.", "anchors": ["Abstract/Mesh.cpp: Mesh::addNode (AUTO_ID)"]}
{"id": "C13", "title": "A node that is used but never defined is reported", "statement": "If some number was referenced by a cell or constraint and never given coordinates, validating the mesh reports it.", "quantifier": "every history of mesh operations", "why_tests_cant": "A single missing definition in an arbitrary model must be caught.", "anchors": ["Abstract/Mesh.cpp: NodeStorage::validate, Mesh::findOrReserveNode"]}
{"id": "C14", "title": "Cells read back with their connectivity", "statement": "After any history of cell insertions in which each cell is given as many nodes as its type requires, reading a cell by its number returns its type, its property and its node numbers in the order given, whatever was inserted before or after, also for other cell types.", "quantifier": "every history of cell insertions", "why_tests_cant": "The storage interleaves cells of one type in one array, so correctness depends on all other insertions.", "anchors": ["Abstract/Mesh.cpp: Mesh::addCell, findCell, findCellPosition"]}
{"id": "C15", "title": "A malformed cell cannot corrupt other cells", "statement": "Adding a cell with a wrong number of nodes is rejected or at least leaves the connectivity of every other cell unchanged.", "quantifier": "every history of cell insertions with arbitrary node lists", "why_tests_cant": "Corruption shows up in unrelated cells.", "anchors": ["Abstract/Mesh.cpp: Mesh::addCell, findCell"]}
{"id": "C16", "title": "Group registry is consistent", "statement": "Creating a group under a fresh name makes it retrievable by that name and, when it has one, by its original number; renaming moves it; removing makes it unreachable by either key; other groups are unaffected.", "quantifier": "every history of group creations, renamings and removals", "why_tests_cant": "Two indexes must stay in step along every history.", "anchors": ["Abstract/Mesh.cpp: createCellGroup, createNodeGroup, renameGroup, removeGroup, findGroup"]}
{"id": "C17", "title": "Faces of solid cells form a closed surface", "statement": "For each solid cell type, every face lists distinct nodes of the cell and every edge of a face is shared, in opposite directions, by exactly one other face.", "quantifier": "every cell of every solid type with pairwise distinct nodes", "why_tests_cant": "Tests look at few faces; the closure law relates all faces.", "anchors": ["Abstract/MeshComponents.cpp: Cell::nodeIdsByFaceNum, CellType face tables"]}
{"id": "C18", "title": "A face is recovered from the two nodes naming it", "statement": "Selecting the face of a solid cell by the pair of nodes that identifies it and asking back for the pair of nodes identifying that face gives a pair selecting the same face.", "quantifier": "every solid cell, every face", "why_tests_cant": "Each type has its own table and several faces.", "anchors": ["Abstract/MeshComponents.cpp: Cell::faceids_from_two_nodes, two_nodeids_from_facenum"]}
{"id": "C19", "title": "Fixed-format cards split on column boundaries", "statement": "In short fixed format the n-th field is columns 8n+1..8n+8 with blanks trimmed (16 wide after the first in long format), continuation lines append their fields, and missing trailing fields of a continued line count as empty.", "quantifier": "every text line and every number of continuation lines", "why_tests_cant": "Lines are arbitrary strings.", "anchors": ["Nastran/NastranTokenizer.cpp: splitFixedFormat"]}
{"id": "C20", "title": "Free-format cards split on commas", "statement": "In free format the fields of a card are exactly the comma separated pieces, in order; a continuation line contributes its pieces after its first field; no data field is lost.", "quantifier": "every list of field texts without commas", "why_tests_cant": "The erased marker positions depend on the number of fields and on their text.", "anchors": ["Nastran/NastranTokenizer.cpp: splitFreeFormat"]}
{"id": "C21", "title": "THRU / BY lists denote arithmetic ranges", "statement": "A list 'a THRU b' reads as all integers between a and b, and 'a THRU b BY s' as a, a+s, a+2s, ... not beyond b, in combination with plain integers before and after.", "quantifier": "all integers a, b, s and all surrounding lists", "why_tests_cant": "Ranges are unbounded and BY is rarely exercised.", "anchors": ["Nastran/NastranTokenizer.cpp: nextInts"]}
{"id": "C22", "title": "Abbreviated reals mean what Nastran says", "statement": "A real written with an embedded sign and no E (1.5+3, 2.-4) or with D means the same number as its E form, and an ordinary E-form real is unchanged.", "quantifier": "every mantissa and exponent digit string", "why_tests_cant": "The insertion position is computed by string searches over arbitrary text.", "anchors": ["Nastran/NastranTokenizer.cpp: nextDouble"]}
{"id": "C23", "title": "Written cards are read back field by field", "statement": "A card written by the Nastran writer in short format, with every field fitting in 8 columns, is split by the Nastran reader into exactly the same fields, across any number of continuation lines.", "quantifier": "every keyword and every list of fields", "why_tests_cant": "Line breaks depend on the number of fields; all lengths must work.", "anchors": ["Nastran/NastranWriter.cpp: operator<<(Line), Line::add", "Nastran/NastranTokenizer.cpp: splitFixedFormat"]}
{"id": "C24", "title": "A written real fits its field and keeps its accuracy", "statement": "The text written for a real fits the 8 column field and reads back as a value within half a unit of the last digit kept.", "quantifier": "every non-zero decimal real with exponent of at most three digits", "why_tests_cant": "Rounding and exponent widths vary over the whole range.", "anchors": ["Nastran/NastranWriter.cpp: Line::add(double)", "Nastran/NastranTokenizer.cpp: nextDouble"]}
{"id": "C25", "title": "Solid connectivity survives a Nastran round trip", "statement": "Reading a solid element card and writing the cell back lists the same nodes in the same order.", "quantifier": "every solid cell type and every node list", "why_tests_cant": "One permutation table per type and direction; each index matters.", "anchors": ["Nastran/NastranParser_geometry.cpp: nastran2medNodeConnectByCellType, parseElem", "Nastran/NastranWriter.cpp: med2nastranNodeConnectByCellType, writeCells"]}
{"id": "C26", "title": "Shell connectivity survives a Nastran round trip", "statement": "Reading a shell element card and writing the cell back lists the same nodes in the same order, so that the element normal is kept.", "quantifier": "every shell cell type and every node list", "why_tests_cant": "Orientation reversal is invisible to node-set comparisons.", "anchors": ["Nastran/NastranParser_geometry.cpp: parseShellElem", "Nastran/NastranWriter.cpp: med2nastranNodeConnectByCellType, writeCells"]}
{"id": "C27", "title": "A multi-point constraint survives a Nastran round trip", "statement": "Writing a multi-point constraint card and reading it yields the same coefficient for every node and degree of freedom.", "quantifier": "every list of terms of any length", "why_tests_cant": "The blank fields to insert depend on the number of terms.", "anchors": ["Nastran/NastranWriter.cpp: writeConstraints (MPC)", "Nastran/NastranParser.cpp: parseMPC"]}
{"id": "C28", "title": "A nodal mass matrix card is written completely", "statement": "The mass card written for a nodal mass matrix lists the 21 terms of its lower triangle, so that reading it back yields the same matrix.", "quantifier": "every symmetric 6x6 mass matrix", "why_tests_cant": "Only dense matrices reveal dropped terms.", "anchors": ["Nastran/NastranWriter.cpp: writeElements (CONM1)", "Nastran/NastranParser.cpp: parseCONM1"]}
{"id": "C29", "title": "Subcase combinations assign each coefficient to its subcase", "statement": "For a combination listing n coefficients, the i-th coefficient is attached to the i-th preceding subcase, for each i.", "quantifier": "every list of coefficients and subcases", "why_tests_cant": "Depends on list length.", "anchors": ["Nastran/NastranParser.cpp: addCombinationAnalysis"]}
{"id": "C30", "title": "SET definitions denote the listed numbers", "statement": "A case-control SET of numbers and THRU ranges denotes exactly the union of the numbers and of the closed ranges.", "quantifier": "every list of items", "why_tests_cant": "Unbounded lists and ranges.", "anchors": ["Nastran/NastranParser.cpp: addSet"]}
{"id": "C31", "title": "Case-control commands are recognised", "statement": "A contact selection, frequency output or stress output command in a subcase has the effect documented for it.", "quantifier": "every subcase context", "why_tests_cant": "The dispatcher compares prefixes; every key must be considered.", "anchors": ["Nastran/NastranParser.cpp: addAnalysis"]}
{"id": "C32", "title": "Combined load sets equal the weighted sum", "statement": "After replacing combined load sets, each load set contains exactly the loadings of the sets it combines, each scaled by the product of factors, and loads of other sets are unchanged.", "quantifier": "every family of load sets and factors", "why_tests_cant": "Arbitrary families of sets.", "anchors": ["Abstract/Model.cpp: replaceCombinedLoadSets", "Nastran/NastranParser.cpp: parseLOAD"]}
{"id": "C33", "title": "Splitting a matrix element conserves every term", "statement": "Splitting a large direct matrix in pieces of bounded size keeps each term in exactly one piece and invents none, and no piece touches more nodes than allowed.", "quantifier": "every sparse matrix and every size limit", "why_tests_cant": "Partition laws over arbitrary sparse matrices.", "anchors": ["Abstract/Model.cpp: splitDirectMatrices"]}
{"id": "C34", "title": "Rigid links are emulated by the exact linearised relations", "statement": "The multi-point constraints generated for a rigid link hold for a displacement field exactly when each slave moves as the rigid body attached to the master (translation plus rotation cross arm) on the linked translations and on the linked rotations that the master carries or receives.", "quantifier": "every geometry, every displacement field, every selection of degrees of freedom", "why_tests_cant": "Statement about all real displacement fields.", "anchors": ["Abstract/Constraint.cpp: QuasiRigidConstraint::emulateWithMPCs"]}
{"id": "C35", "title": "A constraint in local axes becomes the same constraint", "statement": "The relation generated for a support given in a rotated frame holds for a displacement exactly when the displacement component along the local axis has the prescribed value.", "quantifier": "every local frame and displacement", "why_tests_cant": "Statement about all real frames.", "anchors": ["Abstract/Constraint.cpp: emulateLocalDisplacementConstraint"]}
{"id": "C36", "title": "Cartesian frames convert back and forth", "statement": "Converting a vector from local to global and back is the identity, lengths and angles are preserved, and the frame axes are orthonormal and right-handed, for any frame built from three non-aligned points, also when Cartesian frames are nested in one another.", "quantifier": "every frame, nesting depth and vector", "why_tests_cant": "Real-valued geometric law.", "anchors": ["Abstract/CoordinateSystem.cpp: CartesianCoordinateSystem::vectorToGlobal, vectorToLocal, build", "Abstract/Value.cpp: VectorialValue"]}
{"id": "C37", "title": "Cylindrical and spherical positions have the stated distances", "statement": "A point given by radius, angle and height (or two angles) is converted to the global point at that radius from the axis (or origin) and at that height.", "quantifier": "every frame and coordinates", "why_tests_cant": "Real-valued geometric law.", "anchors": ["Abstract/CoordinateSystem.cpp: CylindricalCoordinateSystem::positionToGlobal, SphericalCoordinateSystem::positionToGlobal"]}
{"id": "C38", "title": "Nodal forces of a pressure add up to the pressure resultant", "statement": "The nodal forces emulating a pressure on a triangle or quadrangle add up to pressure times vector area.", "quantifier": "every geometry and pressure", "why_tests_cant": "Real-valued law over all geometries.", "anchors": ["Abstract/Loading.cpp: StaticPressure::getForceInGlobalCS"]}
{"id": "C39", "title": "Scaling a load scales it linearly", "statement": "Multiplying a loading by a factor multiplies each of its components by that factor once.", "quantifier": "every loading and factor", "why_tests_cant": "Law over all factors and component patterns.", "anchors": ["Abstract/Loading.cpp: NodalForce::scale, ImposedDisplacement::scale, Gravity::scale"]}
{"id": "C40", "title": "Effective loads are never discarded", "statement": "A load whose effect on the structure is not zero is never classified as ineffective.", "quantifier": "every loading", "why_tests_cant": "The classification is a predicate over all loads.", "anchors": ["Abstract/Loading.cpp: ineffective (all loadings)", "Abstract/Model.cpp: removeIneffectives"]}
{"id": "C41", "title": "Constrained degrees of freedom accumulate", "statement": "The boundary degrees of freedom an analysis reports at a node are the union of those declared for it, whatever the order and repetition of declarations.", "quantifier": "every history of declarations", "why_tests_cant": "Histories are unbounded.", "anchors": ["Abstract/Analysis.cpp: Analysis::addBoundaryDOFS, findBoundaryDOFS"]}
{"id": "C42", "title": "Analysis parameters override model parameters", "statement": "A parameter set on an analysis has that value for the analysis; otherwise the value set on the model is used; a parameter set nowhere is reported as absent and its value is the empty text.", "quantifier": "every pair of parameter tables", "why_tests_cant": "All combinations of presence.", "anchors": ["Abstract/Analysis.cpp: Analysis::getParameter, contains"]}
{"id": "C43", "title": "Union sets of constraints contain all their members", "statement": "The constraints of a set that combines other sets are those of all the sets it combines, directly or indirectly.", "quantifier": "every family of constraint sets, any depth of combination", "why_tests_cant": "Nesting depth is unbounded.", "anchors": ["Abstract/Constraint.cpp: ConstraintSet::getConstraints"]}
{"id": "C44", "title": "Removing supports at a node frees exactly those degrees of freedom", "statement": "Removing given degrees of freedom of a node from the supports of one analysis leaves all other degrees of freedom of that node and all other nodes supported as before, and does not alter other analyses.", "quantifier": "every set of supports, node, degrees of freedom and number of analyses", "why_tests_cant": "Depends on sharing between analyses.", "anchors": ["Abstract/Analysis.cpp: Analysis::removeSPCNodeDofs"]}
{"id": "C45", "title": "Elastic constants of an isotropic material are consistent", "statement": "When two of Young modulus, shear modulus and Poisson ratio are given and a third value exists, the three values obtained satisfy E = 2(1+nu)G and the given ones are kept; with three given values all are kept, and with one or none the others are zero.", "quantifier": "every value of the two given constants", "why_tests_cant": "Real-valued law.", "anchors": ["Nastran/NastranParser.cpp: parseMAT1"]}
{"id": "C46", "title": "Beam section properties follow from dimensions", "statement": "For every section card of a beam, the area, the second moments and the torsion constant of the rectangular, circular, tubular and I section equal the integrals of mechanics over the section with the dimensions of the card; the torsion constant is at most the polar moment.", "quantifier": "every dimension", "why_tests_cant": "Real-valued law.", "anchors": ["Abstract/Element.cpp: RectangularSectionBeam, CircularSectionBeam, TubeSectionBeam", "Nastran/NastranParser.cpp: parsePBARL, parsePBEAML"]}
{"id": "C47", "title": "Redundant supports are removed without changing the supports", "statement": "After removing the supports repeated within an analysis, each analysis still constrains the same degrees of freedom to the same values, each held by exactly one support of the analysis; contradictory values for one degree of freedom are refused.", "quantifier": "every family of support sets", "why_tests_cant": "Set-level law over arbitrary families.", "anchors": ["Abstract/Model.cpp: removeRedundantSpcs"]}
{"id": "C48", "title": "Solver names round trip", "statement": "The printed name of a solver parses back to the same solver in any letter case and with surrounding blanks.", "quantifier": "every solver and every case/blank variation", "why_tests_cant": "All variations.", "anchors": ["Abstract/ConfigurationParameters.cpp: Solver::fromString, to_str"]}
{"id": "C49", "title": "CSV results yield one assertion per value", "statement": "Each data row with as many columns as the header yields exactly one assertion for each displacement column, with the row's node and the column's value.", "quantifier": "every header and every row", "why_tests_cant": "Arbitrary headers.", "anchors": ["ResultReaders/CSVResultReader.cpp"]}
{"id": "C50", "title": "Active sets are reported once", "statement": "The sets referred to by analyses are each reported once as active, the sets of all analyses as common, and every active set is exactly one of common or not common.", "quantifier": "every list of analyses and sets", "why_tests_cant": "Set-level law.", "anchors": ["Abstract/Model.cpp: getActiveConstraintSets, getCommonConstraintSets, getUncommonConstraintSets, getActiveLoadSets, getCommonLoadSets, getUncommonLoadSets"]}
{"id": "C51", "title": "Node parts separate nodes exactly by the element sets that use them", "statement": "After any sequence of node definitions and uses, two used nodes carry the same part number exactly when the same set of element sets uses them; the part of a node is determined by that set only.", "quantifier": "every sequence of node definitions and uses by element sets", "why_tests_cant": "The part of a node is reassigned incrementally; the result must not depend on the order of the uses, of which there are unboundedly many.", "anchors": ["Abstract/Mesh.cpp: Mesh::findOrReserveNode, Mesh::findNodePartId"]}
{"id": "C52", "title": "A node used by an element is never listed as unused", "statement": "The set of reserved-but-unused nodes, from which the final clean-up drops nodes of groups, never contains a node used by a cell.", "quantifier": "every sequence of node definitions and uses", "why_tests_cant": "Depends on the order of definition, reservation and use over the whole history.", "anchors": ["Abstract/Mesh.cpp: Mesh::findOrReserveNode", "Abstract/Model.cpp: Model::removeIneffectives"]}
{"id": "C53", "title": "A container of cells holds exactly what was put in it", "statement": "The cells reported by a container (of a load, a constraint, an element set) are exactly the cells added individually and not removed since, plus the cells of the groups added by name; asking whether it is empty or reading its cells never fails.", "quantifier": "every sequence of additions and removals on a container, every registry of groups", "why_tests_cant": "The contents depend on the whole history and on the later fate of the named groups.", "anchors": ["Abstract/MeshComponents.cpp: CellContainer::addCellId, addCellGroup, add, removeCellPositionExcludingGroups, getCellPositionsIncludingGroups, hasCellsIncludingGroups"]}
{"id": "C54", "title": "Mid-side nodes stay on their edges", "statement": "When a quadratic CTETRA, CPYRAM, CPENTA or CHEXA card is read, the grid point that Nastran documents as the mid-side node of the edge between two corner grid points is, in the internal cell, the mid-side node of an edge of one of the cell's faces between the same two corner nodes.", "quantifier": "For all four quadratic solid types, all node lists of the right length and all documented edges", "why_tests_cant": "A test compares a handful of connectivities with literals that were themselves copied from the table; the geometric relation between the renumbering table and the independent face tables has to hold for every edge of every type and every node list.", "anchors": ["Nastran/NastranParser_geometry.cpp: nastran2medNodeConnectByCellType, parseElem", "Abstract/MeshComponents.cpp: nodeIdsByFaceNum"]}
{"id": "C55", "title": "Comment lines never change the cards read", "statement": "Removing or adding comment lines (lines whose first character, or first non-blank character, is $) anywhere in the bulk data, including between the lines of one card, changes neither the fields of any card nor which cards are read.", "quantifier": "every deck, every card format, every placement of comments", "why_tests_cant": "The continuation logic peeks at the next character of the stream; the interaction with comments depends on arbitrary text at arbitrary places.", "anchors": ["Nastran/NastranTokenizer.cpp: readLineSkipComment, splitFixedFormat, splitFreeFormat"]}
{"id": "C56", "title": "Rigid links survive writing and reading a Nastran card", "statement": "A rigid link (master node, set of degrees of freedom, any number of slave nodes) written as an RBE2 card, split over as many lines as needed, is read back with the same identifier, master, degrees of freedom and slaves in order.", "quantifier": "All identifiers of at most eight digits, all non-empty DOF sets, all slave lists of any length, any position of the continuation counter below ten million.", "why_tests_cant": "The number of slaves and so the number of continuation lines is unbounded; the slip happens on field positions.", "anchors": ["Nastran/NastranWriter.cpp: writeConstraints", "Nastran/NastranParser.cpp: parseRBE2"]}
{"id": "C57", "title": "Interpolation constraints survive writing and reading a Nastran card", "statement": "An RBE3 constraint written to a card is read back with the same reference node, reference degrees of freedom and, for every slave, the same node, degrees of freedom and weight.", "quantifier": "All slave lists of any length, all DOF sets, all meshes (any correspondence between node identifiers and positions).", "why_tests_cant": "Whether the printed reference node is right depends on how identifiers and storage positions relate; small test meshes numbered from zero hide it.", "anchors": ["Nastran/NastranWriter.cpp: writeConstraints", "Nastran/NastranParser.cpp: parseRBE3", "Abstract/Constraint.cpp: RBE3::getDOFSForNode"]}
{"id": "C58", "title": "Single point constraints keep their degrees of freedom and imposed values", "statement": "An SPC card with any number of (node, components, value) groups, with blank fields anywhere between groups, constrains exactly those components of those nodes at those values; a constraint written as a card is read back with the same set, components, node and value.", "quantifier": "All numbers of groups, all blank paddings, all component codes, all values.", "why_tests_cant": "Number of groups and of blank fields is unbounded; values equal to zero hide the loss.", "anchors": ["Nastran/NastranParser.cpp: parseSPC", "Nastran/NastranParser.cpp: parseSPC1", "Nastran/NastranWriter.cpp: writeConstraints", "Abstract/Constraint.cpp: SinglePointConstraint"]}
{"id": "C59", "title": "A subcase inherits and supersedes the commands given above it", "statement": "For every case-control key, a subcase uses the last value given inside it, otherwise the value given above the subcases; the constraint and load sets its analysis uses are exactly those selected by the SPC, MPC, LOAD, DLOAD and LOADSET commands in force.", "quantifier": "every list of commands above and inside the subcase, with comment and blank lines anywhere", "why_tests_cant": "Unbounded lists of commands, keys and options; interactions between keys sharing a prefix.", "anchors": ["Nastran/NastranParser.cpp: parseSubcase", "Nastran/NastranParser.cpp: addAnalysis", "Nastran/NastranTokenizer.cpp: nextLine"]}
{"id": "C60", "title": "The solution sequence and its methods are those asked for", "statement": "The SOL command, however typed, selects the documented analysis, and the eigenvalue methods attached to the analysis are those named by the METHOD and CMETHOD commands; a missing method is reported.", "quantifier": "every context of case-control commands", "why_tests_cant": "Depends on all keys of the context and their order.", "anchors": ["Nastran/NastranParser.cpp: addAnalysis", "Nastran/NastranParser.cpp: parseExecutiveSection"]}
{"id": "C61", "title": "Direct matrices keep the coefficients they are given", "statement": "After any sequence of coefficients given to a symmetric direct matrix, in any order and either orientation, every writer sees each coefficient exactly once with the last value given; a coefficient read through the block of its node pair is that value; the components announced for a node are those of the coefficients that involve it.", "quantifier": "for all sequences of (node, component, node, component, value), all nodes and components", "why_tests_cant": "Tests give a handful of coefficients in the natural order; the claim is about every order, orientation, overwriting and node pair.", "anchors": ["Abstract/Element.cpp: MatrixElement::addComponent", "Abstract/Element.cpp: MatrixElement::findSubmatrix", "Abstract/Element.cpp: MatrixElement::getDOFSForNode"]}
{"id": "C62", "title": "Systus tables name every coefficient unambiguously", "statement": "The table written to Systus for a direct matrix contains, for each coefficient, one entry whose code is the decimal juxtaposition of the two local node numbers and the two component numbers; local numbers follow the node order; no code occurs twice; a component that does not exist in the output model is refused.", "quantifier": "for all direct matrices, all numbers of nodes allowed by the splitting option", "why_tests_cant": "Collisions between codes only appear for some node counts and pairs; tests use two or three nodes.", "anchors": ["Systus/SystusAsc.cpp: SystusTable::fill"]}
{"id": "C63", "title": "Systus matrix files hold the full symmetric matrix", "statement": "In the matrix file written to Systus for a direct matrix, the number at the place of two nodes and two components is the coefficient given for them, in either orientation, and zero when none was given; no write falls outside the array.", "quantifier": "for all direct matrices, node counts and numbers of components per node", "why_tests_cant": "The layout is an index formula in four variables; tests compare one small file.", "anchors": ["Systus/SystusAsc.cpp: SystusMatrix::setValue", "Systus/SystusWriter.cpp: fillMatrices", "Systus/SystusAsc.cpp: operator<<"]}
{"id": "C64", "title": "Discrete elements assemble to the matrix they replace", "statement": "When direct matrices are replaced by discrete point and segment elements, the sum of the contributions of these elements to each coefficient is the coefficient of the matrix.", "quantifier": "for all direct matrices, all coefficients", "why_tests_cant": "Tests use two nodes, where every coefficient belongs to a single segment; the claim is about arbitrary couplings.", "anchors": ["Abstract/Model.cpp: replaceDirectMatrices"]}
{"id": "C65", "title": "The orientation angles of a frame rebuild its axes", "statement": "Rotating the global axes by the three angles reported for a coordinate system, about the moving third, second and first axis in turn, gives the axes of the system.", "quantifier": "every coordinate system, also nested ones", "why_tests_cant": "The angles come from four-quadrant arctangents with a special case near the vertical; tests check a handful of frames and cannot cover every quadrant and every nesting.", "anchors": ["Abstract/CoordinateSystem.cpp: CoordinateSystem::getEulerAnglesIntrinsicZYX"]}
{"id": "C66", "title": "Cylindrical components refer to the radial direction at the point", "statement": "After the local base of a cylindrical system is set for a point, a vector given by radial, tangential and axial components is converted to the vector with these components along the direction from the axis to the point, the direction of increasing angle and the axis.", "quantifier": "every cylindrical system and every point", "why_tests_cant": "The local base is computed from the point by normalised cross products; only a proof covers every position of the point and every axis.", "anchors": ["Abstract/CoordinateSystem.cpp: CylindricalCoordinateSystem::updateLocalBase, vectorToGlobal"]}
{"id": "C67", "title": "Nodal forces of a pressure have the moment of the pressure", "statement": "The nodal forces emulating a pressure on a triangle or plane quadrangle have, about any point, the same moment as the pressure itself.", "quantifier": "every geometry, pressure and reference point", "why_tests_cant": "Real-valued law over all geometries; the usual test meshes are made of parallelograms, for which it happens to hold.", "anchors": ["Abstract/Loading.cpp:430-497"]}
{"id": "C68", "title": "Supports are lifted where a displacement is imposed, and nowhere else", "statement": "When an analysis imposes displacements at nodes, its supports on exactly those degrees of freedom of those nodes are removed; all its other supports, and those of other analyses, stay.", "quantifier": "every family of supports, imposed displacements and analyses", "why_tests_cant": "Depends on the sharing of supports between sets and analyses, of any size.", "anchors": ["Abstract/Model.cpp: removeConstrainedImposed", "Abstract/Analysis.cpp: Analysis::removeSPCNodeDofs"]}
{"id": "C69", "title": "Modal results are reused only for the same modes", "statement": "An analysis reuses the modes of an earlier one only if both have the same supports, the same eigenvalue search and method; the first such analysis is chosen; and results are kept for reuse exactly when a later analysis reuses them.", "quantifier": "every list of analyses", "why_tests_cant": "Quantifies over all lists of analyses and their sets.", "anchors": ["Abstract/Model.cpp: reusableAnalysisFor, canBeReused", "Abstract/Analysis.cpp: LinearDynaModalFreq::canReuse"]}
{"id": "C70", "title": "Additional mass is carried once", "statement": "When additional (non structural) mass is moved to cells of its own, every cell of an element set with additional mass is represented exactly twice: once with the material of its set, once with a material that has only the density of the additional mass; the other cells keep their material, no other cell appears, and the density times the thickness or area is the given mass.", "quantifier": "every list of cells and every list of disjoint element sets with any additional masses", "why_tests_cant": "Which of two overlapping element sets a cell belongs to depends on the order of all sets; the law is about every model.", "anchors": ["Abstract/Model.cpp: emulateAdditionalMass, assignElementsToCells", "Abstract/Element.h: getAdditionalRho"]}
{"id": "C71", "title": "Nodes are placed by the coordinate systems their cards name", "statement": "Reading a deck's CORD2x, GRDSET and GRID cards, whatever their order among themselves as far as the definitions precede or follow their uses, each node id ends up with the global position obtained from the coordinates of its last GRID card in the system named there (the system may be defined after the node), with the displacement system named there, and with the permanent single-point constraints named by the card or by the GRDSET default.", "quantifier": "all lists of CORD/GRDSET/GRID cards, ids, coordinates and systems", "why_tests_cant": "Systems may be defined before or after use, redefined, shared and nested by number; the test decks contain a handful of orders and the GRDSET default is exercised only with one system.", "anchors": ["Nastran/NastranParser_geometry.cpp:58-110", "Abstract/CoordinateSystem.cpp:422-515", "Abstract/Mesh.cpp:217-243", "Abstract/Mesh.cpp:625-632"]}
{"id": "C72", "title": "Nodes written as GRID cards read back at the same place", "statement": "The GRID cards written for a mesh read back as nodes with the same ids and the same global positions up to the precision of an eight-character field; the displacement coordinate system of a node is kept.", "quantifier": "all meshes and node coordinates", "why_tests_cant": "The written card drops fields and rounds to eight characters; the loss depends on the magnitude and sign of every coordinate and on which nodes have local systems.", "anchors": ["Nastran/NastranWriter.cpp:369-378", "Nastran/NastranParser_geometry.cpp:75-110"]}
{"id": "C73", "title": "Coordinate systems written as cards read back", "statement": "The card written for a coordinate system is accepted by the reader and defines the same system (number, origin, axes).", "quantifier": "all coordinate systems, numbers and origins", "why_tests_cant": "The shape of the written card is wrong for every value, but only a read-back of a written deck with a local system would show it.", "anchors": ["Nastran/NastranWriter.cpp:1038-1058", "Nastran/NastranParser.cpp:1259-1319"]}
{"id": "C74", "title": "Nodal forces, gravity and load combinations mean what their cards say", "statement": "A FORCE or MOMENT card read from a deck gives, on the node it names and in the system it names, the vector whose components are its factor times its three components, missing fields counting as the documented defaults; FORCE1/FORCE2 give their magnitude and the nodes of their direction; GRAV gives acceleration times vector in its system; RFORCE gives the rotation about its node, its number of revolutions turned into radians; LOAD gives each set with the product of both factors. Forces, moments and gravity written in a deck read back as the same loads up to the precision of a field.", "quantifier": "all cards, with every combination of present and missing fields, all numbers", "why_tests_cant": "Each optional field has its own default and the cards share no common code, so every combination of missing fields is a separate path; written values round differently for every magnitude.", "anchors": ["Nastran/NastranParser.cpp:1675-1722", "Nastran/NastranParser.cpp:1793-1813", "Nastran/NastranParser.cpp:1851-1861", "Nastran/NastranParser.cpp:2026-2044", "Nastran/NastranParser.cpp:3208-3241", "Nastran/NastranWriter.cpp:566-584", "Nastran/NastranWriter.cpp:730-754"]}
{"id": "C75", "title": "Pressures act on the cells, faces and nodes of their cards", "statement": "A PLOAD, PLOAD2 or PLOAD4 card read from a deck applies its pressure on exactly the cells and the face or nodes it designates (a range of cells, one face of a solid given by one or two nodes), along the normal or along the given direction in the given system, with the corner values given. A pressure written in a deck designates the same cells and face and has the same value and direction.", "quantifier": "all cards and numbers, all pressures and directions", "why_tests_cant": "The meaning of two fields of PLOAD4 depends on their type, corner values and direction systems are optional, and the sign changes between reader and writer; each combination is a different path.", "anchors": ["Nastran/NastranParser.cpp:2768-2779", "Nastran/NastranParser.cpp:2866-2977", "Nastran/NastranWriter.cpp:587-689", "Nastran/NastranWriter.cpp:756-772"]}
{"id": "C76", "title": "Loads on lines keep their distribution", "statement": "A PLOAD1 card read from a deck gives on its element and along its direction the load that varies linearly between the two values at the two abscissas and vanishes outside, in lengths or fractions as the card says; a card that designates a concentrated load is refused. A load on a line written in a deck reads back as the same distribution.", "quantifier": "all PLOAD1 cards, abscissas and values, all points of the line", "why_tests_cant": "The distribution is a function on the whole line stored as a table whose number of points depends on the card; a test checks a few values of one table and does not evaluate it between the points.", "anchors": ["Nastran/NastranParser.cpp:2781-2864", "Nastran/NastranWriter.cpp:691-728"]}
{"id": "C77", "title": "Beam and rod properties keep their values", "statement": "A PBAR, PBARL, PBEAM, PBEAML, PROD or CONROD card gives the beam its material, area, second moments, torsion constant, shear factors, section dimensions and mass per length, with the defaults of the format for blank fields; a section shape that is not handled is refused; a rod gets the area, torsion constant and the inertia of a disc of its area. A beam written in a deck reads back with the same values.", "quantifier": "all cards, all field texts, all values that the writer can print in a field", "why_tests_cant": "A card has up to thirty optional fields, each with its own default, and the converter permutes and inverts some of them; a test fixes one combination and cannot show that no field lands in another's place for the others.", "anchors": ["Nastran/NastranParser.cpp:2099-2405", "Nastran/NastranParser.cpp:3001-3021", "Nastran/NastranParser.cpp:1156-1174", "Nastran/NastranWriter.cpp:790-850"]}
{"id": "C78", "title": "Shell, solid and composite properties keep their values", "statement": "A PSHELL, PSOLID, PLSOLID or PCOMP card gives the property its material, thickness, integration and plies in the order of the card, a symmetric laminate being mirrored about its mid plane; an unusable card is refused. Shell and solid properties written in a deck read back the same.", "quantifier": "all cards, any number of plies, all values that the writer can print", "why_tests_cant": "The number of plies is unbounded and each ply has defaults that depend on the preceding ones; a test fixes one laminate.", "anchors": ["Nastran/NastranParser.cpp:2538-2619", "Nastran/NastranParser.cpp:2979-2999", "Nastran/NastranParser.cpp:3023-3104", "Abstract/Element.cpp:402-432", "Nastran/NastranWriter.cpp:850-892"]}
{"id": "C79", "title": "Bushes and concentrated masses keep their values", "statement": "A PBUSH card gives six stiffnesses and six dampings from the rows of the card in whatever order they come; a CONM2 card gives the mass, offset and inertias of its node. Both written in a deck read back the same.", "quantifier": "all cards, any sequence of rows, all values that the writer can print", "why_tests_cant": "Rows of the card may come in any order and number with blanks in between; a test fixes one layout.", "anchors": ["Nastran/NastranParser.cpp:2410-2536", "Nastran/NastranParser.cpp:1209-1246", "Nastran/NastranWriter.cpp:790-892"]}
{"id": "C80", "title": "Scalar springs and dampers act where and as their cards say", "statement": "Reading CELAS1, CDAMP1, CELAS2, CELAS4, PELAS and PDAMP cards in any order (numbers of properties and elements distinct) gives, for every element, a cell between its two ends, exactly one set of springs acting on it, along the element's own pair of directions, with the stiffness and damping of the property it names (or of its own card), the cells of the set being those of its elements, and each grounded element having a ground node of its own that is blocked. Splitting the sets by directions leaves the action on every element unchanged. A scalar mass card is a mass m between its two ends; a viscous property damps the extension and twist only.", "quantifier": "all card texts; all decks of these cards in any order and any number; all models for the splitting", "why_tests_cant": "The order of cards, the sharing of numbers between kinds of cards and the number of directions per property combine without bound; a property may come before, between or after its elements.", "anchors": ["Nastran/NastranParser_geometry.cpp:290-422", "Nastran/NastranParser_geometry.cpp:488-499", "Nastran/NastranParser.cpp:2621-2729", "Nastran/NastranParser.cpp:3810-3825", "Abstract/Element.cpp:1236-1300", "Abstract/Model.cpp:1928-1963", "Abstract/Mesh.cpp:729-735", "Abstract/Model.h:584-628"]}
{"id": "C81", "title": "Discrete elements written for Code_Aster have the matrices of the model", "statement": "For every discrete element of the model (point, segment, structural segment, scalar spring), the matrix Code_Aster rebuilds from the written DISCRET cards is the stiffness matrix of the element; a damping (mass) card is there exactly when the damping (mass) is not null, with the same correspondence; the number of values written is the number Code_Aster expects.", "quantifier": "all matrices of points, segments, bushes and viscous dampers obtained by any history of writes; all scalar springs; any value type with tolerance tests", "why_tests_cant": "The layout depends on type of matrix, presence of rotations in any of three matrices, and diagonal or symmetric content; a test fixes one combination and rarely has different values everywhere.", "anchors": ["Abstract/Element.cpp:459-926", "Abstract/Element.cpp:1236-1440", "Abstract/Element.h:661-702", "Aster/AsterWriter.cpp:1085-1200"]}
{"id": "C82", "title": "Searches of modes are read and written with their bounds, count and norm", "statement": "A search of modes (cards EIGRL, EIGR, EIGB, EIGC) is read with the bounds, the number of modes and the norm its fields say, one mode being searched when neither a number nor an upper bound is given; a method or a norm that is not supported is refused or replaced by what is announced; the modes the target solver computes from the written command are, for every list of natural frequencies, those the card designates; no sentinel is ever written as a frequency.", "quantifier": "all cards (any fields), all bounds and counts present or absent, all lists of natural frequencies, all Systus versions", "why_tests_cant": "Each of the bounds, of the count and of the norm may be there or not; a test runs one combination and compares texts, not the modes that the command designates.", "anchors": ["Nastran/NastranParser.cpp:1489-1673", "Aster/AsterWriter.cpp:2290-2400", "Systus/SystusDat.cpp:94-196", "Abstract/Value.cpp:84-99"]}
{"id": "C83", "title": "Excitation frequencies are those of the cards", "statement": "The frequencies of FREQ, FREQ1, FREQ3 and FREQ4 are read as the fields say with their defaults, unsupported forms being refused; the list of frequencies that Code_Aster and Systus make of what is written for FREQ and FREQ1 is F1, F1+DF, ..., F1+NDF*DF; the interpolated frequencies of FREQ3 lie between consecutive modes, both included.", "quantifier": "all cards and field values; any number of frequencies; any positive number of steps", "why_tests_cant": "The first and the last frequency and the number of intervals are given in three different ways by three formats; a test sees one range and cannot tell a list with one frequency missing from a right one for all sizes.", "anchors": ["Nastran/NastranParser.cpp:1724-1795", "Nastran/NastranTokenizer.cpp:492-498", "Abstract/Value.cpp:84-120", "Aster/AsterWriter.cpp:798-884", "Aster/AsterWriter.cpp:2925-2955", "Systus/SystusDat.cpp:32-47"]}
{"id": "C84", "title": "Tabulated functions keep their points, and dampings their value", "statement": "A table (TABLED1, TABLES1, TABDMP1) is read as the list of its points in order, pairs with SKIP left out, up to ENDT, with the interpolation and extrapolation its fields say; a table that is not ended is refused; scaling a table scales the function it stands for; the written function has the same points and keywords the solver knows; a constant modal damping is written with the critical ratio the table stands for, whatever its kind (CRIT, G, Q).", "quantifier": "all cards, any number of rows and of skipped pairs; all tables, factors and abscissas; all dampings", "why_tests_cant": "The number of rows is unbounded and SKIP may be either member of any pair; a conversion of damping is only visible with a damping of another kind.", "anchors": ["Nastran/NastranParser.cpp:3591-3779", "Abstract/Value.cpp:133-158", "Aster/AsterWriter.cpp:885-924", "Aster/AsterWriter.cpp:2893-2916", "Aster/AsterModel.cpp:45-57", "Systus/SystusDat.cpp:50-92"]}
{"id": "C85", "title": "A set of loadings, constraints or objectives contains what was put into it", "statement": "After any sequence of creating objects, putting them into sets and removing them, the loadings (or constraints) of a set are exactly the registered objects that were put into this set and not removed since, whether the set is named by its own reference or by its type and user number when putting and when asking; no set refers to an object that no longer exists; the sets of a constraint are exactly the registered sets it is a member of; and putting a loading into a numbered set that is not registered registers it without losing another.", "quantifier": "all histories of creations, insertions and removals, all sets with distinct numbers, both names of each set, all references", "why_tests_cant": "A test follows one history; the claim relates two maps and a registry after every interleaving of insertions under two names and removals.", "anchors": ["Abstract/Model.cpp:178-312", "Abstract/Model.cpp:382-543", "Abstract/Reference.h:100-127", "Abstract/Object.h:197-203", "Abstract/Objective.cpp:31-36"]}
{"id": "C86", "title": "Linear relations turned into elements express the same equations", "statement": "When the linear relations of a model are replaced by elements (as the Systus translator does), every relation appears as one equation of one element between the same nodes, with the same coefficient for each node and degree of freedom in the table that is written; every equation of every element comes from a relation of the model; and the number of equations is the number of relations. Relations with an imposed value, between many nodes, or numerous between the same nodes are either expressed or refused, never changed.", "quantifier": "for all sets of linear relations, all coefficients, all numbers of nodes, and all ways relations share nodes or coefficients", "why_tests_cant": "Relations are regrouped twice, first by node set and then by coefficients, so an equation can be lost, doubled or attached to the wrong nodes only for particular coincidences between relations; a test covers a few coincidences.", "anchors": ["Abstract/Model.cpp:1668-1757", "Abstract/Element.cpp:1195-1225", "Systus/SystusWriter.cpp:1868-1890", "Abstract/MeshComponents.cpp:145-233"]}
{"id": "C87", "title": "Rigid bodies and averages turned into elements link the same nodes", "statement": "When rigid bodies, partially rigid bodies and weighted averages are replaced by elements, the segments created link exactly the pairs (reference node, dependent node) of the model, each as many times as it is declared; every segment of an average is in an element set carrying the degrees of freedom of its reference node and the degrees of freedom and weight of its own dependent node; and the element sets of averages have distinct names.", "quantifier": "for all lists of rigid bodies, partially rigid bodies and averages, all numbers of dependent nodes, all degrees of freedom and weights", "why_tests_cant": "Dependent nodes of an average are regrouped by degrees of freedom and weight; a node put in the wrong group, or a group re-created, changes the stiffness only for particular combinations of weights.", "anchors": ["Abstract/Model.cpp:1759-1906", "Abstract/Mesh.cpp:729-735"]}
{"id": "C89", "title": "The command file written for Code_Aster only uses concepts it has defined", "statement": "In the command file written for Code_Aster, every concept that a command uses or destroys exists at that point (it was defined by an earlier command and not destroyed since), and no command defines a concept that still exists. Moreover the supports and the loads of a static or nonlinear analysis are defined and used by its commands.", "quantifier": "for all models: any number of values, sets of constraints and loads, composites and analyses of every kind (static, combination, nonlinear, direct, modal, modal response with or without reuse of modes, buckling), in any order", "why_tests_cant": "Whether a name exists depends on the order of analyses, on which results are reused later, on empty sets and on which concepts were destroyed after earlier analyses; the combinations are unbounded and running Code_Aster on each is not possible.", "anchors": ["Aster/AsterWriter.cpp:125-641", "Aster/AsterWriter.cpp:643-936", "Aster/AsterWriter.cpp:1441-1692", "Aster/AsterWriter.cpp:2234-3062", "Aster/AsterWriter.cpp:3114-3150", "Abstract/Model.cpp:835-867", "Abstract/Constraint.cpp:111-127"]}
{"id": "C90", "title": "Different concepts of the Code_Aster command file have different names of at most eight characters", "statement": "The names that the writer builds from a prefix and numbers (of analyses, sets, values, excitations, composites, layers) are different for different concepts, and have at most eight characters, the limit of Code_Aster.", "quantifier": "for all prefixes and all numbers", "why_tests_cant": "Names concatenate prefixes and several numbers of any length, with and without separators and padding: a clash such as VE1_23 against VE12_3 or C1L1 against C1I1 would show only for particular pairs of numbers.", "anchors": ["Aster/AsterWriter.cpp:125-641", "Aster/AsterWriter.cpp:797-936", "Aster/AsterWriter.cpp:1441-1692", "Aster/AsterWriter.cpp:2234-3062"]}
{"id": "C88", "title": "Dynamic excitations", "statement": "The cards DAREA, DELAY, DPHASE, DLOAD, LSEQ, RLOAD1 and RLOAD2 build the excitations they describe: each DAREA row is the amplitude on the components its code names (all six by default) at its node; each combination holds every set with the product of the factors; each RLOADi card is one excitation, with its set, its tables, its nature, its delay and its phase given as a number or by the number of a card; the load is that of the DAREA or static cards of the number it names, wherever they stand in the deck; the writers print the load, the table, the phase, the delay and the nature of every valid excitation.", "quantifier": "every card of any number of rows, every list of cards in any order, every excitation read", "why_tests_cant": "Decks are lists of cards of any length in any order; which load set an excitation gets depends on the cards before it, and a test fixes one order.", "anchors": ["Nastran/NastranParser.cpp:1337-1395", "Nastran/NastranParser.cpp:1469-1487", "Nastran/NastranParser.cpp:1836-1849", "Nastran/NastranParser.cpp:3243-3434", "Abstract/Model.cpp:412-422", "Abstract/Model.h:550-592", "Abstract/Loading.cpp:800-862", "Aster/AsterWriter.cpp:2596-2656", "Aster/AsterWriter.cpp:2852-2888", "Systus/SystusWriter.cpp:1318-1345", "Systus/SystusWriter.cpp:1917-1940"]}
{"id": "C91", "title": "Rigid bars link the two nodes of the card and nothing else changes them", "statement": "An RBAR, RBAR1 or CRIGD1 card makes the nodes it names move as one rigid body: reading the card gives its nodes and linked components, the relations that replace the link hold for a displacement field exactly when the dependent components follow the rigid motion of the independent end, and a link that is kept is written as a card that reads back as the same link under a number of its own.", "quantifier": "for all cards with any node numbers and any number of slave nodes, all node positions and degrees of freedom, and all displacement fields", "why_tests_cant": "The equivalence between a set of linear relations and a rigid motion is a statement about every displacement field and every position of the two nodes; a test solves one configuration. The failure for nodes of solids and the loss of hinges only show when the field that is wrongly excluded is exhibited.", "anchors": ["Nastran/NastranParser.cpp:1320-1336", "Nastran/NastranParser.cpp:3106-3163", "Abstract/Constraint.cpp:150-329", "Abstract/Model.cpp:2261-2265", "Nastran/NastranWriter.cpp:426-469"]}
{"id": "C92", "title": "Constraint sets written for Code_Aster allow the same displacements", "statement": "The command written for a constraint set (supports on nodes, groups and cells, linear relations, rigid bodies, weighted averages) is satisfied by a displacement field, as Code_Aster reads it, exactly when the field satisfies every constraint of the set.", "quantifier": "for all meshes, groups, constraint sets of any size and all displacement fields", "why_tests_cant": "The lists NOEUD, DDL and COEF_MULT are printed by three separate loops with their own zero tests, so that they stay aligned is a statement about every coefficient pattern on every number of nodes; overriding between occurrences depends on the whole list of supports.", "anchors": ["Aster/AsterWriter.cpp:1441-1484", "Aster/AsterWriter.cpp:1694-1730", "Aster/AsterWriter.cpp:1765-1793", "Aster/AsterWriter.cpp:1819-1950", "Aster/AsterWriter.cpp:2152-2212", "Abstract/Constraint.cpp:360-489", "Abstract/Constraint.cpp:537-597", "Abstract/MeshComponents.cpp:977-1068"]}
{"id": "C93", "title": "Load sets written for Code_Aster have the effects of their loadings", "statement": "The command written for a load set, as Code_Aster reads it, gives every node the sum of the nodal forces on it, every face and shell the pressures and forces on it, every beam its line loads, the whole model its gravity and its rotation, and the imposed displacements of the set.", "quantifier": "for all meshes, groups, load sets of any size, nodes, cells and components", "why_tests_cant": "Forces are summed in a map over any number of loadings and nodes, other loads are printed one by one and combine by the rules of Code_Aster, and a test of zero is made on every component; that no combination loses or doubles a load is a statement about all lists of loadings.", "anchors": ["Aster/AsterWriter.cpp:1486-1529", "Aster/AsterWriter.cpp:1732-1763", "Aster/AsterWriter.cpp:1951-2150", "Aster/AsterWriter.cpp:2177-2212", "Abstract/Loading.cpp:117-124", "Abstract/Value.cpp:188-211", "Abstract/Utility.h:67-73"]}
{"id": "C94", "title": "A Systus subcase applies to every node and cell what its load cases prescribe", "statement": "In the Systus file of a subcase, the load cases are the load sets of its analyses in order; the vectors that the lists give to a node, a cell or a load case are the nodal forces, the pressures and forces on cells, the accelerations, the displacements of supports and the imposed displacements of that case and no other, the local axes of each node are those of its displacement system, its code has the components that its supports hold, and every number of vector or list refers to one of the file.", "quantifier": "for all lists of analyses, load sets, supports, nodes, tolerances, both options of components, all rotation nodes", "why_tests_cant": "A vector reaches a node through four maps and three numberings that grow with each loading, support and system; that no number collides, is skipped or leaks into another case is a statement about lists of any length, not about one file.", "anchors": ["Systus/SystusWriter.cpp:1014-1050", "Systus/SystusWriter.cpp:1052-1379", "Systus/SystusWriter.cpp:1381-1535", "Systus/SystusWriter.cpp:1538-1640", "Systus/SystusWriter.cpp:1655-1763", "Systus/SystusWriter.cpp:2416-2510", "Systus/SystusWriter.cpp:2582-2640", "Systus/SystusWriter.cpp:2981-3025"]}
{"id": "C95", "title": "Orientation of bars, beams and bushes", "statement": "A CBAR, CBEAM or CBUSH card is read field by field: number, property, nodes, and the plane of the element given by a third node, by a vector (a nil one is taken as Y) or, for a bush, by a numbered system; every field that is not followed is announced. Whatever the deck, each element gets a cell whose orientation is the one its own card asks for, although equal orientations are stored once; the cells are grouped by orientation under distinct names; the command file for Code_Aster gives each oriented element exactly one vector, that of its card; the axes built are a direct orthonormal base along the element with the second axis on the side of the given direction; a beam written back as Nastran keeps its axes.", "quantifier": "All cards, all decks of elements and system definitions in any order, all node positions", "why_tests_cant": "The sharing of orientations depends on the whole history of the deck and on the order of its cards; a test sees a few orders, and memory that was never written may hold the expected value by chance.", "anchors": ["Nastran/NastranParser_geometry.cpp:134-290", "Abstract/Mesh.cpp:336-432", "Abstract/Mesh.cpp:594-657", "Abstract/CoordinateSystem.cpp:289-369", "Abstract/CoordinateSystem.cpp:429-515", "Aster/AsterWriter.cpp:1348-1373", "Nastran/NastranWriter.cpp:245-367"]}
{"id": "C96", "title": "Local axes of the elements of a Systus file", "statement": "In the Systus file an element with its own axes is followed by a count and that many angles. For a bar oriented between its nodes they are 0, 0 and an angle: turned by it about the bar, the axes Systus gives to the bar (first along it, second horizontal and third upwards, or second along y for a vertical bar) become the axes of the orientation. For a solid, a spring or a bush, and a point with a numbered system, the three angles turn the global axes into those of the system. For a triangle the single angle is that of the projection of the first axis on its plane, from the horizontal direction of the plane. An element gets no angle only when its system is unknown or is an orientation at a point, with a message.", "quantifier": "for all node positions, orientation vectors or nodes, systems defined in the global one, element dimensions and kinds, lists of nodes and tolerances", "why_tests_cant": "Angles are compared with recorded files; that they rebuild the axes for every direction of the element, vertical and horizontal ones included, ranges over a continuum, and the refusal of cylindrical systems, which never takes place, needs all combinations of the two marks of a system.", "anchors": ["Systus/SystusWriter.cpp:119-231", "Systus/SystusWriter.cpp:2643-2713", "Abstract/CoordinateSystem.cpp:61-90", "Abstract/CoordinateSystem.cpp:289-332"]}
{"id": "C97", "title": "Elements and groups of the Systus file", "statement": "Every cell of an element set that belongs to the file is written as one line: its number, the dimension and type of the Systus element of its set, its number of nodes, the material of its set, its loading list, its local axes, and its nodes in the order of Systus (walking along the edges, corner and mid-side node in turn). The count in the header is the number of lines, the number of nodes announced is the number listed. The groups of the cells written and the non-empty groups of nodes follow, numbered from one, under distinct names; part numbers are all different and a part whose name ends with a number gets that number unless it is taken.", "quantifier": "all meshes, element sets, cell types, orientations, subcases, group names and starting part numbers", "why_tests_cant": "The orders of nodes are permutations of up to twenty places, composed with those of the reader; a test with one element per type sees only symmetric mistakes or none. The count of the header and the usefulness of groups depend on all the sets of the model and their order; part numbers on all the names before.", "anchors": ["Systus/SystusWriter.cpp:59-95", "Systus/SystusWriter.cpp:236-262", "Systus/SystusWriter.cpp:2721-2894", "Systus/SystusWriter.cpp:2896-2943", "Abstract/Mesh.cpp:667-669", "Abstract/MeshComponents.cpp:238"]}
{"id": "C98", "title": "Materials and point masses of the Systus file", "statement": "In the Systus file each element set that needs one has a material of its own, all the skins sharing one; the element lines refer to it by its number. It holds the density, the stiffness, the Poisson ratio and the damping of the set, the area, shear areas and inertias of a beam, the thickness of a shell, the constants of a rigid body, the stiffnesses of a bush or of a spring, and for a spring between different components the table and the number of its matrix. The counts before the materials are those of the lines and fields written, and the fields of a material are in ascending order without repetition. Each point mass is written on its nodes, with its inertias, in the units of the model.", "quantifier": "all lists of element sets, materials, sections, rigid bodies, springs, masses, options of the translation, tables and tolerances", "why_tests_cant": "The numbers of materials depend on all the sets before; the reduction number of a spring on the other springs. A recorded file shows plausible numbers for a wrong shear area, a lost Poisson ratio or inertias in other units; only a comparison with what the model says, for every set, tells them apart.", "anchors": ["Systus/SystusWriter.cpp:36-57", "Systus/SystusWriter.cpp:101-116", "Systus/SystusWriter.cpp:264-341", "Systus/SystusWriter.cpp:1948-2245", "Systus/SystusWriter.cpp:2247-2306", "Systus/SystusWriter.cpp:2948-2981", "Systus/SystusWriter.cpp:3026-3061", "Systus/SystusWriter.h:36-58", "Abstract/Element.cpp:231-310", "Abstract/Element.cpp:929-966", "Abstract/Element.cpp:1031-1046", "Nastran/NastranParser.cpp:2118-2131"]}
{"id": "C99", "title": "Executive and case control section written for Nastran and read back", "statement": "Writing a model in Nastran format and reading the executive and case control section of that file gives back the groups of the model as the same sets of numbers, whatever their size and their comments, and one analysis per analysis of the model, in order, with its number, its kind, and exactly the load sets, constraint sets and displacement outputs it has; the lines after BEGIN BULK are left for the bulk section.", "quantifier": "for all models (any number of groups, of numbers in a group, of analyses and of sets), both dialects, all numbers of 31 bits, all names without blanks, all texts following the section", "why_tests_cant": "A set of numbers is cut over lines according to its length and ends with a free comment, and a subcase inherits from everything above it: round trips on example files exercise a few lengths and a few combinations of sets only.", "anchors": ["Nastran/NastranWriter.cpp:197-243", "Nastran/NastranWriter.cpp:919-1034", "Nastran/NastranParser.cpp:192-235", "Nastran/NastranParser.cpp:330-536", "Nastran/NastranParser.cpp:651-978"]}
{"id": "C100", "title": "Elements of a Nastran file are read from their fields, and written elements come back", "statement": "On the card of a solid or a shell (CHEXA, CIHEX1/2, CPENTA, CPYRA(M), CTETRA, CTRIA3/R, CQUAD4/R, CTRIA6, CQUAD8) the element number, the property (the element number when blank), the nodes and the offset of a shell are taken from their places, whatever the other fields; when solids, shells and beams with a direction are written to a Nastran file and this file is read, every element comes back, in order, with its number, the number of its set, its type and nodes (plane elements are turned over), and its offset or direction to the printed accuracy.", "quantifier": "for every list of element sets, every number of cells, every number, node and printable offset or direction, both dialects, strict or not; for every card", "why_tests_cant": "A test translates one file with a few elements; the card layout depends on type, dialect, set and neighbouring cards, and wrong fields are still legal numbers.", "anchors": ["Nastran/NastranParser_geometry.cpp:424-458", "Nastran/NastranParser_geometry.cpp:562-653", "Nastran/NastranParser.cpp:55-86", "Nastran/NastranWriter.cpp:154-170", "Nastran/NastranWriter.cpp:245-367"]}
{"id": "C101", "title": "Material cards of a Nastran deck", "statement": "After a deck of MAT1, MAT8, MATHP and MATS1 cards (with any other cards between them) every material has exactly the natures its cards say, with the numbers of the fields at their places, the missing isotropic constant being E = 2 (1 + nu) G; a nature given twice to one material stops the translation.", "quantifier": "all decks of such cards, all numbers, all blank fields", "why_tests_cant": "tests read one card of each kind; the order, the cards between, the repetitions and the pattern of blank fields make an unbounded set of decks", "anchors": ["Nastran/NastranParser.cpp:1863-2025", "Abstract/Material.cpp:50-65", "Abstract/Material.cpp:100-160", "Abstract/Model.cpp:736-743"]}
{"id": "C102", "title": "Materials in the Aster command file", "statement": "Every number of a material card of the deck is found under the right name of DEFI_MATERIAU of that material, densities as masses; the laws Aster makes of these numbers (tension curve, strain energy, shear modulus) are those of the deck.", "quantifier": "all decks, all values of WTMASS and of the Rayleigh factors", "why_tests_cant": "tests compare a few files; the equality of two constitutive laws holds for all strains or not at all", "anchors": ["Aster/AsterWriter.cpp:937-1039", "Aster/AsterWriter.cpp:2538-2565", "Abstract/Material.cpp:100-300"]}
{"id": "C103", "title": "Isotropic layers of composites made orthotropic", "statement": "Making the isotropic layers orthotropic keeps the layers of every composite in order and their behaviour: plies stay, each isotropic material gets one new material with the same law in plane stress and across, nothing else is changed, and the materials of the layers are assigned to the composite.", "quantifier": "all composites, all sharing of materials between layers and composites, all strains", "why_tests_cant": "the outcome depends on which materials were met before, over any number of composites; the equality of laws is over all strains", "anchors": ["Abstract/Model.cpp:2184-2216", "Abstract/Material.cpp:100-300"]}
{"id": "C104", "title": "Materials of Nastran files written and read back", "statement": "The materials with elastic constants written to a Nastran file are read back from its lines in the same order with their numbers and E, G, NU, RHO, expansion, temperature and damping, each to the accuracy of a printed real.", "quantifier": "all lists of materials with different numbers and numbers that can be printed, all line counters", "why_tests_cant": "the numbers and the number of materials are unbounded, and the lines continue on others", "anchors": ["Nastran/NastranWriter.cpp:380-411", "Nastran/NastranParser.cpp:1863-1926"]}
{"id": "C105", "title": "The MED file holds the nodes, cells and groups of the model", "statement": "Writing a model to a MED file succeeds when every node's coordinate system is known. The coordinates written are those of the nodes in the global axes, in order, numbered from 1. Every cell is in the section of its type, with its position plus one as number and its nodes by number in the order of the cell; the sections hold nothing else. Reading the families back, a node (or a cell) is in a group of the file exactly when it is in a group of the model of that name, cut to the 80 characters of MED. Two nodes share a family exactly when they are in the same groups; families have distinct numbers, positive for nodes and negative for cells, each is used, and their names are distinct.", "quantifier": "for every mesh built by any sequence of accepted calls, every list of node groups and cell groups with existing members, every set of coordinate systems", "why_tests_cant": "The tests write a few groups; the families depend on how any number of groups overlap, in any order, over nodes and over cells of several types, and a wrong split only shows in a group of the computed model.", "anchors": ["Aster/MedWriter.cpp:38-93", "Aster/MedWriter.cpp:95-164", "Aster/MedWriter.cpp:166-181", "Aster/MedWriter.cpp:183-359", "Abstract/Mesh.cpp:799-821"]}
{"id": "C106", "title": "The offset of a cell is the offset of its shell", "statement": "When the cells of shells or composites have offsets, finishing a model for a solver that wants the offset on the property gives, for each cell, a shell with the thickness and materials of its property whose offset is that of the property plus that of the cell; no cell is lost or counted in two shells, sets without offset are untouched, and the conversion is not stopped.", "quantifier": "For all registries of element sets reached by adding and erasing sets, all sets of cells and all offsets.", "why_tests_cant": "The offsets are grouped by a rounded sixth power in a table shared by all the shells: whether two offsets share a class depends on their values, and whether the copies clash in the registry depends on which class was met first; a test sees one combination.", "anchors": ["Abstract/Model.cpp:2126-2182", "Abstract/Element.cpp:363-368", "Abstract/Model.h:464-469,582-592", "Abstract/MeshComponents.cpp:732-734,771-781,846-849"]}
{"id": "C107", "title": "Loads on lines are the same as functions of X", "statement": "Finishing a model for Code_Aster replaces each load on a line given as a table of the fraction of the bar by a table of X which has the same value at each point of the bar, on the same cell and component and with the same interpolation; constant loads are left and the conversion is not stopped.", "quantifier": "For all lists of loads on lines, all tables, all bars and all points of the bars.", "why_tests_cant": "The value of a table between its points and the orientation of the bar range over reals, and the pass stops on some combinations of load, bar and table number; a test evaluates one table on one bar.", "anchors": ["Abstract/Model.cpp:2020-2052", "Abstract/Model.h:546-580", "Abstract/Value.h:340-358", "Abstract/Loading.h:371-391", "Nastran/NastranParser.cpp:2811-2822"]}
{"id": "C108", "title": "Springs used in several directions are split without loss", "statement": "Finishing a model for Systus replaces each set of scalar springs used with several pairs of degrees of freedom by one set for each pair, with the same cells, stiffness, damping and mass and a cell group of these cells; the other sets and the groups of the user are untouched, and any number of such sets can be converted.", "quantifier": "For all lists of spring sets, all cells and pairs, and all states of the group registry.", "why_tests_cant": "The groups of the pieces are named by rank only and the registry is shared: the outcome depends on how many sets are split, on the groups already present and on the name of the model, which one test fixes.", "anchors": ["Abstract/Model.cpp:1928-1963", "Abstract/Element.cpp:40,1236-1299", "Abstract/Mesh.cpp:729-757,783-797"]}
{"id": "C109", "title": "PARAM cards set the parameters the output is computed with", "statement": "After reading the PARAM cards of a deck, each parameter has the value of the last card that gives it, or its default; the masses are multiplied by WTMASS, the damping matrix is G/W3 times the stiffness, ALPHA1 and ALPHA2 are Rayleigh's factors, LFREQ bounds an open band, LGDISP selects large displacements, CHECKEL the check of the mesh and PRTMAXIM the printing of the extrema; other names change nothing.", "quantifier": "For all sequences of PARAM cards, all field texts and all values.", "why_tests_cant": "The effect depends on the order and repetition of cards and on the magnitude of reals passed through a fixed-point text; a deck tests one value of one card.", "anchors": ["Nastran/NastranParser_param.cpp:38-311", "Nastran/NastranParser.h:904-913", "Abstract/Utility.h:105-127", "Abstract/Model.cpp:811-835", "Abstract/Material.cpp:136-143", "Aster/AsterWriter.cpp:134-139,676-688,955-973,2322-2331,2585-2593"]}
{"id": "C110", "title": "Point elements turned into segments, and the segments of slide contacts", "statement": "When point elements (nodal stiffness, mass, damping) are converted into segments, every non-empty point gives one segment element with the same three matrices entry by entry, a cell group named after it with one segment from each of its nodes to itself, and the empty ones stay; for each slide contact two cell groups are made with the segments between consecutive nodes of its master and slave lines. The nodes, cells and groups that were there are unchanged. The converted element should act on its nodes, whatever the numbers of the points and the level of the checks.", "quantifier": "every mesh and group registry that a history of calls can make, every list of points (any matrix type, any nodes) and of slide contacts with distinct numbers", "why_tests_cant": "no test deck converts points; the claim ranges over all matrices, node lists and prior groups, and the lost attachment only shows when a solver runs on the output", "anchors": ["Abstract/Model.cpp:1965-1995", "Abstract/Model.cpp:2054-2089"]}
{"id": "C111", "title": "The SET, SURF and CONTACT cards of OptiStruct mean what they list", "statement": "A SET card of type GRID gives the set and the node group SET_<sid> exactly the node numbers of its list, ranges expanded; one of type ELEM gives the set and the cell group exactly the element numbers; one of type FREQ gives exactly the frequencies of the card, in order, blank fields skipped; any other type or a subtype other than LIST is refused. A SURF card gives one face for each element listed, with its two nodes and the side of its normal, whether or not a word precedes them. A CONTACT card gives a contact between the surfaces named, slave first, in the set named.", "quantifier": "for every card: any numbers, any mix of single numbers and ranges, any number of blank fields, frequencies and faces", "why_tests_cant": "The sample files hold a few cards with one layout; a test cannot cover every arrangement of blanks, ranges and words, and non-termination of the reading of a card cannot be observed by a test at all.", "anchors": ["Optistruct/OptistructParser.cpp:85-101", "Optistruct/OptistructParser.cpp:103-159", "Optistruct/OptistructParser.cpp:161-179", "Nastran/NastranTokenizer.cpp:431-434"]}
{"id": "C112", "title": "A gap element limits how far its two nodes approach one another", "statement": "A CGAP card ties its two nodes by the gap of its property, a PGAP card gives the opening, in whichever order they come, and every pair of nodes given is kept. In the Code_Aster command file each pair has one unilateral relation: along the unit vector from the first node to the second, the nodes approach by no more than the opening of their gap. Every constant that a relation uses is defined.", "quantifier": "for every sequence of cards, every set of gaps, all positions of the nodes, and every displacement of them", "why_tests_cant": "The only sample has a single gap along one axis; only a proof over all directions, several gaps and all displacements shows which relations are lost or say something else.", "anchors": ["Nastran/NastranParser_geometry.cpp:460-485", "Nastran/NastranParser.cpp:2731-2767", "Abstract/Constraint.cpp:605-660", "Aster/AsterWriter.cpp:1532-1630"]}
{"id": "C113", "title": "Results read from an F06 file are those of the file, each under its subcase", "statement": "From an F06 file, every displacement row of a grid point gives its six components in the global system, tiny values made zero; every eigenvalue row gives the number, frequency, eigenvalue, generalized mass and stiffness of its mode; every complex displacement row gives its real and imaginary parts. Each is told for the subcase announced on its page, with the load step or frequency announced there, in the order of the file. Nothing else is told, and no file makes the reader loop or crash.", "quantifier": "for every file made of pages, with any number of pages and rows, any layout of spaces and blank lines; soundness and termination for every file whatsoever", "why_tests_cant": "Each sample file has the page layout of one solver run; only a proof over all layouts shows when a result goes to the wrong subcase or with the wrong load step.", "anchors": ["ResultReaders/F06Parser.cpp:36-119", "ResultReaders/F06Parser.cpp:121-190", "ResultReaders/F06Parser.cpp:192-263", "ResultReaders/F06Parser.cpp:366-467", "ResultReaders/F06Parser.cpp:501-593"]}
{"id": "C114", "title": "Surfaces in contact", "statement": "A BSSEG card gives the surface with the node numbers it lists, a BSCONP card the contact whose slave and master are the surfaces of its second and third number, a BCBODY card a body bounded by its surface. For every contact the translated mesh has two new groups, SURFCONT_M_<number> and SURFCONT_S_<number>, with exactly one triangle or quadrangle for each patch of the master and of the slave surface, over the nodes of the patch in order; a surface of element faces gets a group with exactly one flat cell over the nodes of each face, and another with the elements; every node, cell and group that was there is unchanged. A BCTABLE card gives a contact zone between the bodies of each pair it names. (Not so: the zones name surfaces where bodies are looked for, so a model with a zone is never translated; a triangle whose fourth field is blank makes the list be read past its end; the zero that marks a triangle is taken for a node of the contact; the side asked for a face is ignored.)", "quantifier": "every card, every mesh and set of groups built by any history of calls, any number of contacts, patches and faces", "why_tests_cant": "A test translates one deck with a few patches; it cannot show that no patch is lost, doubled or altered for every list and every mesh, nor that no choice of bodies makes a contact zone work.", "anchors": ["Nastran/NastranParser.cpp:1014-1111", "Nastran/NastranParser.cpp:1137-1152", "Abstract/Constraint.cpp:778-912", "Abstract/Target.cpp:96-120", "Abstract/Mesh.cpp:557-571", "Abstract/Model.cpp:1997-2004", "Abstract/Model.cpp:1032-1043"]}
{"id": "C115", "title": "Nodes get the degrees of freedom their boundary conditions act on", "statement": "When a load or a constraint of an analysis acts on a degree of freedom that no element gives to the node, finishing the model adds one virtual point element on that node, with all six degrees of freedom when a rotation is lacking and the three translations otherwise. Afterwards every boundary condition acts on degrees of freedom its node has, nodes that lacked nothing are unchanged, and the degrees of freedom that came with the virtual element and that the analysis does not use are blocked in that analysis.", "quantifier": "all meshes and groups made by calls of the interface, all lists of analyses with any boundary degrees of freedom at each node", "why_tests_cant": "The element given to a node depends on the union over all analyses, and what is blocked depends on each analysis in turn; tests convert a few models with one analysis, where the two agree.", "anchors": ["Abstract/Model.cpp:642-735", "Abstract/Analysis.cpp:482-493", "Abstract/Mesh.cpp:331-334"]}
{"id": "C116", "title": "Direct matrices, imposed displacements, scalar loads, temperatures and sets are what the deck lists", "statement": "The matrix that a K2GG, M2GG or B2GG command names holds exactly the terms of the DMIG cards of that name, with the kind of the command, whatever the order and number of cards; a writer sees each coefficient once with the last value given. Cards of other names change nothing, and non-symmetric, complex, weighted or comma-separated requests are errors. SLOAD, TEMP, SPCD, SET1, SET3, SPCADD, BSURF, BCGRID, BLSEG, BFRIC, BCONP and NLPARM give exactly the nodes, values, sets and numbers of their fields.", "quantifier": "for all lists of commands, names, decks of DMIG cards of any length and order, node numberings, and for all field values of the other cards", "why_tests_cant": "The cards of the several matrices may be interleaved in any order and repeat terms in both orientations; a test has a fixed deck, with one matrix and one name per command, and cannot show that names listed with blanks or given twice lose their terms.", "anchors": ["Nastran/NastranParser.cpp:355-457", "Nastran/NastranParser.cpp:1396-1468", "Nastran/NastranParser.cpp:1030-1042", "Nastran/NastranParser.cpp:1052-1073", "Nastran/NastranParser.cpp:1115-1136", "Nastran/NastranParser.cpp:2069-2083", "Nastran/NastranParser.cpp:3434-3486", "Nastran/NastranParser.cpp:3532-3590", "Nastran/NastranParser.cpp:3780-3809", "Abstract/Element.cpp:1052-1081"]}
{"id": "C117", "title": "The last passes over a model keep what can be checked, name what was read, and only make rigid what is rigid", "statement": "When a model is finished: an assertion is kept exactly when every analysis it belongs to can check it (each degree of freedom it needs is one of its node or of a boundary condition of that analysis); a model read without an analysis gets one, chosen from its objectives; segments whose stiffness is infinite are replaced by one rigid link per cell and others are not touched; each direct matrix without cells gets a group of its own with one cell over its nodes; each load set and constraint set that was read gets a node group holding exactly the nodes of its members.", "quantifier": "for all assertions, analyses, node degrees of freedom, sets of segments written term by term, meshes and group registries reached by any history, direct matrices and sets", "why_tests_cant": "Tests look at a few models; that no assertion is lost when it could be checked, that group names never clash between sets and that every segment left alone is one with a finite term need all models. The case of a segment without any stiffness is not in the tests.", "anchors": ["Abstract/Model.cpp:1129-1165", "Abstract/Model.cpp:1396-1416", "Abstract/Model.cpp:1624-1659", "Abstract/Model.cpp:2006-2018", "Abstract/Model.cpp:2091-2107", "Abstract/Dof.cpp:412-421", "Abstract/Loading.cpp:75-82", "Abstract/Constraint.cpp:129-136"]}
{"id": "C118", "title": "Tests of results accept what is within the tolerance", "statement": "A translation may carry expected results (displacements, displacements at a frequency, frequencies with generalised masses and stiffnesses, Von Mises stresses), each with a relative tolerance. The checks written into the Code_Aster command file pass exactly when every result computed at the node, component, instant, frequency, cell or mode of an expectation is within the tolerance of it; frequencies outside the band searched are not checked, and generalised stiffnesses are not when the mass is normalised. The checks written for Systus say OK for displacements and frequencies in the same cases; a harmonic displacement they accept is within the tolerance at the map of its frequency. Expected values below 1e-7 (Code_Aster displacements), 1e-9 (Systus) and modes of frequency zero are compared absolutely with that same tolerance, which accepts wrong values; Systus tests the last map when no map has the frequency.", "quantifier": "all lists of expectations, all results the solver may compute, all tolerances, bands, numbers of maps and translation modes", "why_tests_cant": "The checks are programs run later by the solvers on results that no unit test has; a test comparing written text cannot tell which computed values it accepts.", "anchors": ["Aster/AsterWriter.cpp:568-599", "Aster/AsterWriter.cpp:3064-3178", "Systus/SystusWriter.cpp:3209-3352", "Abstract/Objective.h:116-186"]}
{"id": "C119", "title": "Systus files have the degrees of freedom the elements need and subcases with the same supports", "statement": "With the automatic option, the nodes of a Systus file have six degrees of freedom exactly when some element of the model uses rotations (beams that are not trusses, shells, matrix elements, relations and springs on rotations), and three otherwise; solids beside them select the mixed sub-option; an option given on the command line is used as it is and other words are refused. By default every analysis of the model is written in one subcase and only one, in the order of the model, and two analyses share a subcase exactly when both are static with the same constraint sets. With 'single' each analysis has its own subcase; with lists of subcase numbers 'n1,n2,...' each list becomes the subcase of the analyses with these numbers, unknown numbers being left out; malformed lists are refused. Tube beams are overlooked by the automatic option, so that a model of tubes is written without rotations.", "quantifier": "all lists of element sets, all lists of analyses with distinct numbers, all option texts", "why_tests_cant": "The grouping depends on every pair of analyses and on their order; the option depends on every combination of element kinds; tests have a few models with one or two subcases.", "anchors": ["Systus/SystusWriter.cpp:417-570", "Systus/SystusWriter.cpp:885-1012", "Commandline/VegaCommandLine.cpp:300-309", "Commandline/VegaCommandLine.cpp:352-386"]}
{"id": "C120", "title": "Rigid elements written for Systus get nodes of their own and leave the rest of the model alone", "statement": "Preparing a model for Systus keeps every node and every cell of the mesh readable as before. Each cell of a rigid bar keeps its number and becomes master, slave, then in the 3D option the rotation node of the set, then in the Lagrangian mode a new node of the cell's own; each cell of an averaging element gets a Lagrange node of its set, and in the 3D option a rotation node and a second Lagrange node; each relation gets in the Lagrangian mode a node of its own. The new nodes are nodes the mesh did not have, stand where the master, slave or first node stands, with the master's displacement system for rotation nodes and the global one for Lagrange nodes, and no new node is used by two sets or, but for the shared ones of its set, by two cells. The rotation node recorded for a master is the one its cells use. A missing master, and in strict mode a cell that does not go from the master to one slave, is refused. Two rigid bodies with the same master get two independent rotation nodes, and a relation on one node becomes a cell that cannot be read.", "quantifier": "all meshes, all lists of rigid bars, averaging elements and relations, both options, both modes", "why_tests_cant": "The numbers of the new nodes depend on all sets written before; tests have one or two small bodies and compare with stored files.", "anchors": ["Systus/SystusWriter.cpp:643-884", "Abstract/Mesh.cpp:435-503"]}
{"id": "C121", "title": "Tables of the Systus file", "statement": "The tables of a Systus file are numbered from 1 in order and announced with their count, which is the count of what needs one. A spring between two different components has a table per property it has (stiffness, damping) that describes exactly that spring; a direct matrix has the table of its entries; a relation of the subcase has the table of its coefficients in order; an excitation of a modal analysis has the table of its points. Each set refers to its own tables and to no other set's, and the field that holds the references can be read back as stiffness, mass and damping tables. Sets that need no table have none.", "quantifier": "for all lists of element sets, analyses of the subcase, load cases and options", "why_tests_cant": "the numbers depend on every set written before; sharing or confusing two tables depends on how many there are (the packing of the references only fails from the hundredth table on)", "anchors": ["Systus/SystusWriter.cpp:1766-1946", "Systus/SystusWriter.cpp:3068-3075", "Systus/SystusAsc.cpp:43-97", "Systus/SystusDat.cpp:265-268"]}
{"id": "C122", "title": "Lengths of a mesh and stiffness of rigid elements", "statement": "The statistics of a mesh are the greatest, the smallest and the smallest non null distance between two different nodes of a cell, and the quadratic mean of the non null ones, for the mesh as it is when they are asked for; every mesh has them. The stiffness given to rigid elements is the greatest Young modulus of the model times that mean length, or 1 when the length is null; with Lagrange multipliers, or a stiffness chosen by the user, the chosen values are used.", "quantifier": "for all meshes, moduli and options", "why_tests_cant": "extrema and means over all the pairs of nodes of all the cells; the failures need a type of cells that are all reduced to points, or a second call on a changed mesh", "anchors": ["Abstract/Mesh.cpp:865-908", "Systus/SystusWriter.cpp:572-598", "Systus/SystusWriter.cpp:661-672", "Systus/SystusWriter.cpp:844-856"]}
{"id": "C123", "title": "Command line options are read as documented and the exit code means what it says", "statement": "An accepted command line keeps every word, size and list the user gave and takes the documented default of every other option; a command line is refused exactly when best effort is combined with another mode, a word is not one of the documented ones, a matrix size is below two, or a subcase text is neither 'single', 'auto' nor integers separated by commas. Lists of analyses written n1,n2,... come back unchanged, and only the word 'single' selects one file per analysis. With --strict, exit code 0 means the model is valid and was written entirely; quotes around a path are removed.", "quantifier": "for all combinations of options, all texts, all stiffnesses and coefficients, all outcomes of validation and writing", "why_tests_cant": "Options combine: modes, verbosity, deprecated and current rigid options override each other in an order, and lists are free texts of any length; tests cover a few command lines.", "anchors": ["Commandline/VegaCommandLine.cpp:71-129", "Commandline/VegaCommandLine.cpp:131-420"]}
{"id": "C124", "title": "A sliding contact gives each slave node one cell on the master surface", "statement": "Converting a sliding contact between two surfaces makes, for every node of the slave faces in order, one cell made of the nodes of a face of the master surface followed by the slave node: a tetrahedron on a triangle, a pyramid on a quadrangle. The face is one whose bounding box is nearest to the node, so when master faces fill their boxes it is a nearest face. With at least one master face, all of three or four nodes, the conversion always succeeds whichever way ties are broken.", "quantifier": "for all lists of master and slave faces, all positions of nodes, all ways of breaking ties in the spatial index", "why_tests_cant": "Positions are real numbers, the spatial index leaves ties open, and faces come in any number and order; a test fixes one geometry.", "anchors": ["Abstract/Constraint.cpp:969-1039"]}
{"id": "C125", "title": "Validation keeps a coherent model and the check of writing covers what the analyses use", "statement": "In strict mode validation changes nothing and answers yes exactly when the mesh is valid and the model is coherent: valid materials, element sets and loadings, load sets that hold something and refer only to existing loadings, analyses that refer only to existing sets. In the other modes exactly the valid objects are kept, what is kept is coherent, validating again answers yes and removes nothing, and the answer is whether anything was removed. A conversion whose check of writing succeeds has marked as written the materials, the element sets, the analyses and every load set, loading, constraint set, constraint and objective that an analysis uses. Three defects: an invalid loading that belongs to a load set ends the program in the modes meant to go on without it; a missing frequency search is undefined behaviour instead of a report; a loading that no analysis uses can be left unwritten without a word.", "quantifier": "all models, translation modes, answers of the mesh", "why_tests_cant": "the coherence of what is left depends on the order in which the containers are filtered, over every combination of valid, invalid, missing and unused objects", "anchors": ["Abstract/Model.h:503-530", "Abstract/Model.cpp:436-500", "Abstract/Model.cpp:2362-2503", "Abstract/Loading.cpp:107-115", "Abstract/Analysis.cpp:94-105", "Abstract/Analysis.cpp:263-315", "Abstract/Analysis.cpp:400-427", "Abstract/Analysis.cpp:629-645"]}
{"id": "C126", "title": "An INCLUDE stands for the commands of the file it names", "statement": "Reading a Nastran file gives the commands of the files it includes, directly or through other files, each in the place of its INCLUDE and in order; the reading ends exactly when the files can be laid out as one such sequence, which is unique. Writing the commands of a file of the same directory in place of the INCLUDE changes nothing. Files none of which comes back to itself are read to the end; a file that comes back to itself is never read to the end, in any mode. A missing file ends the reading in strict mode and is reported and skipped otherwise. A relative name, bare or in single quotes, is looked for in the directory of the file that holds the INCLUDE. One defect: a name in double quotes is looked for with its quotes.", "quantifier": "all file systems, nestings of includes, names and modes", "why_tests_cant": "nesting is unbounded and a reading that never ends cannot be observed", "anchors": ["Nastran/NastranParser.cpp:536-570", "Nastran/NastranParser.cpp:1813-1835", "Abstract/SolverInterfaces.cpp:163-182"]}
{"id": "C127", "title": "Removing what has no effect keeps every analysis and everything effective", "statement": "Removing what has no effect leaves exactly the effective loadings, constraints and element sets; a load or constraint set is left, without its ineffective members, when something is left of it; every analysis is still there and applies the same effective loadings and constraints; every reference still finds its object, no set is empty, and strict validation accepts the result when the objects left are valid. One defect: an analysis that refers to a missing constraint set makes the removal of an empty one undefined behaviour.", "quantifier": "every model: any loadings, constraints, element sets, load and constraint sets, and analyses, with any choice of which are effective", "why_tests_cant": "a test prunes one study; that nothing effective is lost and that no dangling reference is left concerns every graph of references between objects", "anchors": ["Abstract/Model.cpp:178-271", "Abstract/Model.cpp:1006-1066", "Abstract/Analysis.cpp:166-215"]}
{"id": "C128", "title": "The Systus command files solve the analyses of their subcase", "statement": "One command file is written for each subcase, numbered in order; it solves its subcase by the commands of the type of its first analysis, and no others, and checks the assertions of all the analyses of the subcase. In strict mode with automatic subcases every analysis except combinations is solved by the commands of its type. With one subcase for each analysis an analysis passes for written exactly when its type is known. Two defects: with automatic subcases an analysis of an unknown type passes for written out of strict mode although nothing solves it, and with the subcases of the user only the first analysis of each passes for written.", "quantifier": "every list of analyses, every choice of subcases, translation mode, target and dynamic method", "why_tests_cant": "a test converts one study with one option; the grouping of analyses into files ranges over every list of analyses and every option", "anchors": ["Systus/SystusWriter.cpp:372-409", "Systus/SystusWriter.cpp:885-929", "Systus/SystusWriter.cpp:3076-3267"]}
{"id": "C129", "title": "The checks of a Systus command file tell whether the expected results are met", "statement": "A check of a displacement or of a frequency prints OK exactly when the computed value is within the tolerance of the expected one, relatively to it, or absolutely when it is almost zero; every assertion has its check, except Von Mises stresses and the frequencies of a dynamic modal analysis; strict mode refuses instants and unknown assertions only. A check of a complex displacement uses the first map of the response at the frequency; it prints OK only when the value is within the tolerance, and whenever it is within the tolerance divided by the square root of two. Two defects: the checks of every analysis of a subcase look at its first load case, and when no map is at the frequency the last map tried is used.", "quantifier": "every list of assertions, every expected value and tolerance, every set of computed results and every translation mode", "why_tests_cant": "a test compares a few values of one study; that the verdict is right concerns every value, tolerance and result, including negative and almost null ones", "anchors": ["Systus/SystusWriter.cpp:3224-3253", "Systus/SystusWriter.cpp:3273-3351"]}
{"id": "C130", "title": "What the tool reports of a run of the solver is what happened", "statement": "When the tool runs the solver, it reports a success of Code_Aster exactly when the solver ended well and left a result file in which no check failed, and a success of Systus exactly when the solver ended well, printed no error, left a result of the study and no check of the study failed; failures are told apart; results of earlier runs never count, for they are removed first; a command that ended with code 127 is a missing solver, 129 to 165 a killed one. For the other product of Systus a success means that there was a command file and that all ran well. The tool ends with code 0 exactly on a success. Defects: the code 4 of Code_Aster is never reported as an error of syntax; without command file the code was never set; an error printed by one command file is lost when another follows; the results of a study whose name begins in the same way are removed; an output format without runner is undefined behaviour.", "quantifier": "every solver, seen as any function from its command file and the directory to a status, an output and a directory; every directory and study", "why_tests_cant": "a test runs one solver on one study; the verdict must be right for whatever a solver prints, returns and leaves, and whatever earlier runs left", "anchors": ["Abstract/SolverInterfaces.cpp:216-258", "Aster/AsterRunner.cpp:41-117", "Nastran/NastranRunner.cpp:40-67", "Systus/SystusRunner.cpp:37-178", "Commandline/VegaCommandLine.cpp:422-433"]}
{"id": "C131", "title": "The exit code of the tool tells how the translation ended", "statement": "The tool ends with code 0 exactly when it was asked for its version or for help, or when it found everything it needs, converted the study and, when asked to, ran the solver, all with success. A failure of the conversion or of the solver is the code of the tool; below the level of DEBUG each kind of error has its code. A study is converted exactly when everything it needs is there, and the solver runs exactly when asked to and after a successful conversion. Defects: a wrong option ends with the code of a crash and not with that of a wrong command line, and so does an error of the input file at the level of DEBUG.", "quantifier": "every call: any options, files found or missing, settings, and any way each step can end, with a value, an exception or a crash", "why_tests_cant": "a test makes one call; a script that relies on the exit code relies on it for every combination of what can be missing or fail", "anchors": ["Commandline/VegaCommandLine.cpp:462-672", "Commandline/vegamain.cpp:24-57"]}
