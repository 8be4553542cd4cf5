{"id": "C01", "title": "Exchange-string round trip", "statement": "decode(encode(o)) returns o for every JSON-representable object o, except that integer dictionary keys come back as their decimal strings; nothing else (numbers, unicode strings, nesting, key order) changes.", "quantifier": "every JSON-like Python object: any nesting, any integers, any binary64 floats (inf and nan included), any unicode strings in which no high surrogate is directly followed by a low one, any dictionaries whose keys stay distinct when written as strings; any lossless zlib", "why_tests_cant": "the space of objects is infinite and the pipeline composes JSON, UTF-8, zlib and base64; tests sample a handful of blueprints", "anchors": ["py_factorio_blueprints/util.py:encode", "py_factorio_blueprints/util.py:decode", "py_factorio_blueprints/util.py:_encode_0", "py_factorio_blueprints/util.py:_decode_0"]}
{"id": "C02", "title": "Shape of exchange strings", "statement": "encode(o) is always the character '0' followed by base64 alphabet characters and at most two trailing '='; its length is 1 modulo 4; it is pure ASCII.", "quantifier": "every encodable object", "why_tests_cant": "a property of every output byte of every encoding", "anchors": ["py_factorio_blueprints/util.py:_encode_0"]}
{"id": "C03", "title": "Encoding is injective", "statement": "Two objects encode to the same exchange string exactly when they are the same JSON document, so Blueprint equality (which compares exchange strings) is JSON equality of the exports.", "quantifier": "every pair of encodable objects", "why_tests_cant": "ranges over all pairs", "anchors": ["py_factorio_blueprints/util.py:encode", "py_factorio_blueprints/blueprint.py:Blueprint.__eq__"]}
{"id": "C04", "title": "Which malformed strings are reported as InvalidExchangeString", "statement": "A non-empty string whose first character is not '0', a string whose base64 body is malformed or whose zlib body does not inflate raises InvalidExchangeString; but an empty string raises IndexError, a non-ASCII body ValueError, invalid UTF-8 UnicodeDecodeError and invalid JSON JSONDecodeError. No other exception is possible from decode.", "quantifier": "every string", "why_tests_cant": "tests try a few malformed strings; the classification must cover all of them", "anchors": ["py_factorio_blueprints/util.py:decode", "py_factorio_blueprints/util.py:_decode_0"]}
{"id": "C05", "title": "Decoding ignores junk characters", "statement": "Inserting characters outside the base64 alphabet (for example line breaks) anywhere in the body before the padding does not change the decoded object.", "quantifier": "every exchange string and every ASCII junk insertion", "why_tests_cant": "infinitely many insertions", "anchors": ["py_factorio_blueprints/util.py:_decode_0"]}
{"id": "C06", "title": "Color channels stay in [0,1]", "statement": "After constructing a Color and after any sequence of channel assignments every channel compares >= 0 and <= 1; assigned values in [0,1) are kept unchanged, values of at least 1 (and NaN) become 1, negative ones 0; other channels are untouched.", "quantifier": "every number (int or float, including infinities and NaN) and every sequence of assignments", "why_tests_cant": "all doubles and all histories", "anchors": ["py_factorio_blueprints/util.py:Color"]}
{"id": "C07", "title": "Direction arithmetic is arithmetic modulo 8", "statement": "A Direction is always in 0..7; + and - are addition and subtraction modulo 8; rotate(n) turns by 2n, rotate45(n) by n, counter-clockwise is the exact inverse of clockwise for every n (including n > 8 and negative n), and 4 quarter turns are the identity.", "quantifier": "every integer value and every integer amount", "why_tests_cant": "unbounded integer amounts", "anchors": ["py_factorio_blueprints/util.py:Direction"]}
{"id": "C08", "title": "Direction vectors agree with vector rotation", "statement": "Turning a direction by n quarter turns and taking its unit vector is the same as taking the unit vector and rotating that by n quarter turns; distinct directions have distinct vectors; opposite directions have opposite vectors.", "quantifier": "every direction and every integer amount", "why_tests_cant": "all amounts", "anchors": ["py_factorio_blueprints/util.py:Direction.vector", "py_factorio_blueprints/util.py:Direction.rotate", "py_factorio_blueprints/util.py:Vector.rotate"]}
{"id": "C09", "title": "Vector.rotate is a faithful quarter-turn action", "statement": "rotate(a) then rotate(b) equals rotate(a+b); rotate depends only on the amount modulo 4; rotate(4k) returns exactly the same coordinates (bit for bit, also for floats); rotate(2) negates; the squared length is preserved exactly.", "quantifier": "every vector of ints and/or floats, every integer amount", "why_tests_cant": "all doubles, all amounts", "anchors": ["py_factorio_blueprints/util.py:Vector.rotate"]}
{"id": "C10", "title": "Vector arithmetic laws", "statement": "On integer vectors + is commutative and associative, - inverts +, and (v // w) * w + v % w == v with the remainder on the divisor's side of zero; on floats + and * are still commutative; division by a zero component raises ZeroDivisionError; scalars and tuples act component-wise, and so do the reflected operators, with the vector as right operand (7 - v is (7 - v.x, 7 - v.y)); operands of no numeric, pair or vector kind raise TypeError; except that % with a float on the left of a vector silently yields None.", "quantifier": "every pair of vectors/operands", "why_tests_cant": "unbounded operands", "anchors": ["py_factorio_blueprints/util.py:Vector.__add__", "py_factorio_blueprints/util.py:Vector.__sub__", "py_factorio_blueprints/util.py:Vector.__mul__", "py_factorio_blueprints/util.py:Vector.__floordiv__", "py_factorio_blueprints/util.py:Vector.__mod__"]}
{"id": "C11", "title": "Vector comparison is a strict partial order", "statement": "< is irreflexive, asymmetric and transitive, a > b is b < a, and a < b holds exactly when both coordinates are smaller; it is not a total order.", "quantifier": "every triple of vectors, NaN included", "why_tests_cant": "all triples", "anchors": ["py_factorio_blueprints/util.py:Vector.__lt__", "py_factorio_blueprints/util.py:Vector.__gt__", "py_factorio_blueprints/util.py:Vector.__eq__"]}
{"id": "C12", "title": "floor, ceil and round", "statement": "v.floor() and v.ceil() return the integers n with n <= c < n+1 and n-1 < c <= n for each finite coordinate c and raise on NaN/inf; v.round() returns the nearest integer with ties up on every coordinate that is a multiple of 1/256 of moderate size, but not for every float.", "quantifier": "every finite coordinate", "why_tests_cant": "all doubles", "anchors": ["py_factorio_blueprints/util.py:Vector.floor", "py_factorio_blueprints/util.py:Vector.ceil", "py_factorio_blueprints/util.py:Vector.round"]}
{"id": "C13", "title": "Connection equality is symmetric wire identity", "statement": "Two connections compare equal exactly when they have the same colour and join the same two (entity, side) ends, in either order; it is an equivalence relation and flip() never changes it.", "quantifier": "every pair/triple of connections", "why_tests_cant": "all pairs of ends, self-wires included", "anchors": ["py_factorio_blueprints/util.py:Connection.__eq__", "py_factorio_blueprints/util.py:Connection.flip"]}
{"id": "C14", "title": "The wire list never holds a duplicate", "statement": "After any history of API calls other than Connection.flip_color no two entries of blueprint.connections denote the same wire; connecting an already connected pair in either direction adds nothing.", "quantifier": "every history of API calls without flip_color (with it a duplicate can be produced)", "why_tests_cant": "all histories", "anchors": ["py_factorio_blueprints/entity.py:Entity.connect", "py_factorio_blueprints/blueprint.py:Blueprint.parse_connections"]}
{"id": "C15", "title": "connect needs numeric sides", "statement": "connect() accepts exactly sides convertible to int; with its own default arguments ('in') it always raises ValueError and changes nothing.", "quantifier": "every pair of entities, every side value", "why_tests_cant": "all entities and states", "anchors": ["py_factorio_blueprints/entity.py:Entity.connect", "py_factorio_blueprints/util.py:Connection.__init__"]}
{"id": "C16", "title": "Exported wires are visible from both ends", "statement": "If two listed entities e and f are joined by a wire, e's exported JSON lists it under e's side and colour with f's number and f's JSON lists it under f's side and colour with e's number; an entity's exported 'connections' contain, under every side and colour, exactly one entry per wire end at that entity and nothing else.", "quantifier": "every reachable state, every listed entity and wire", "why_tests_cant": "all wire graphs", "anchors": ["py_factorio_blueprints/entity.py:Entity.connections_to_json", "py_factorio_blueprints/entity.py:Entity.get_connections"]}
{"id": "C17", "title": "Wire round trip through export and import", "statement": "Reading back the entry exported for a wire from side s of e to side t of f gives a wire from side s of e to side s of f when f is a combinator and to side 1 of f otherwise (the exporter writes the source side where the format stores the target side). So the entry denotes the original wire exactly when t equals that side; a wire from side 1 of one combinator to side 2 of another comes back as two different wires.", "quantifier": "every wire between two different entities, any sides, any document it is read back from", "why_tests_cant": "all side/kind combinations", "anchors": ["py_factorio_blueprints/entity.py:Entity.connections_to_json", "py_factorio_blueprints/blueprint.py:Blueprint.parse_connections"]}
{"id": "C18", "title": "Exporting is repeatable", "statement": "Calling to_json twice gives the same document, also after any number of exports, lookups, get_connections and Connection.flip calls in between, provided no entity is wired to itself across different sides; if a combinator is wired to itself across different sides, two successive exports differ (so the blueprint does not even equal itself).", "quantifier": "every reachable blueprint state", "why_tests_cant": "all states", "anchors": ["py_factorio_blueprints/blueprint.py:Blueprint.to_json", "py_factorio_blueprints/util.py:Connection.orientate", "py_factorio_blueprints/blueprint.py:Blueprint.__eq__"]}
{"id": "C19", "title": "An entity belongs to at most one blueprint", "statement": "In every reachable state an entity listed in a blueprint's entity layer points back to that layer, is listed there once and is listed in no other layer.", "quantifier": "every history of new/add/make/remove/del/load/rotate calls, including failing ones", "why_tests_cant": "all histories", "anchors": ["py_factorio_blueprints/blueprint.py:BlueprintLayer.add", "py_factorio_blueprints/blueprint.py:BlueprintLayer.remove", "py_factorio_blueprints/blueprint.py:BlueprintLayer.__delitem__", "py_factorio_blueprints/blueprint.py:BlueprintLayer.make"]}
{"id": "C20", "title": "Adding a foreign entity is refused and harmless", "statement": "add of an entity owned by another blueprint raises DuplicateEntity and changes nothing; adding an entity twice to the same layer is a no-op; adding a non-entity raises TypeError.", "quantifier": "every state", "why_tests_cant": "all states", "anchors": ["py_factorio_blueprints/blueprint.py:BlueprintLayer.add"]}
{"id": "C21", "title": "Entity numbers follow the (y, x) order after add/make/rotate/load", "statement": "After each successful add, make, rotate or load the layer is sorted by (y, x), ties keep their previous relative order, and the exported entity numbers are exactly 1..n in that order.", "quantifier": "every state and operation", "why_tests_cant": "all states; uniqueness of the stable sort", "anchors": ["py_factorio_blueprints/blueprint.py:BlueprintLayer.sort", "py_factorio_blueprints/blueprint.py:BlueprintLayer.add", "py_factorio_blueprints/blueprint.py:BlueprintLayer.rotate", "py_factorio_blueprints/blueprint.py:Blueprint.load"]}
{"id": "C22", "title": "Deleting does not renumber and leaves wires dangling", "statement": "remove/del drop exactly the requested entities and keep everyone else's order and number, so afterwards the exported numbers may have gaps, and wires to a deleted entity are still exported, pointing to the number it last had.", "quantifier": "every state and every deletion", "why_tests_cant": "all states", "anchors": ["py_factorio_blueprints/blueprint.py:BlueprintLayer.__delitem__", "py_factorio_blueprints/blueprint.py:BlueprintLayer.remove"]}
{"id": "C23", "title": "Positional lookup is exact", "statement": "layer[p] lists exactly the entities whose (direction-adjusted) selection box strictly contains p, in layer order, and del layer[p] removes exactly those; exact for coordinates on the game grid (multiples of 1/256 below 2^40), not for arbitrary floats.", "quantifier": "every layer, every grid point, every grid position", "why_tests_cant": "all points, all floats", "anchors": ["py_factorio_blueprints/blueprint.py:BlueprintLayer.__getitem__", "py_factorio_blueprints/entity.py:Entity.collides", "py_factorio_blueprints/entity.py:Entity.selection_box"]}
{"id": "C24", "title": "Failed make changes nothing", "statement": "If constructing an entity raises (unknown prototype, bad key, bad value), make changes nothing at all. If the constructor succeeds but make raises, an entity of the layer has no position, and the new entity stays listed at the end with nothing renumbered.", "quantifier": "every state and every rejected argument set", "why_tests_cant": "all rejected inputs", "anchors": ["py_factorio_blueprints/blueprint.py:BlueprintLayer.make", "py_factorio_blueprints/entity.py:Entity.__init__"]}
{"id": "C25", "title": "Clockwise rotation by n quarter turns", "statement": "rotate(n, around) (clockwise) moves every entity of the blueprint to the point obtained by n mod 4 quarter turns (x, y) -> (-y, x) about the centre, adds 2(n mod 4) modulo 8 to the direction of every rotatable entity and (n mod 4)/4 modulo 1 to the orientation of rolling stock; a sequence of rotations about one point turns by the total. Nothing else changes: every other attribute, entity number, wire, label and icon, every other blueprint and every entity not in the layer; the layer is re-sorted and renumbered.", "quantifier": "every reachable program state, blueprint, integer n, and centre: any finite positions about the default centre, or positions and centre that are multiples of 1/256 below 2^40; rolling stock with orientations that are multiples of 1/256 in [0,1)", "why_tests_cant": "all blueprints", "anchors": ["py_factorio_blueprints/blueprint.py:Blueprint.rotate", "py_factorio_blueprints/entity.py:Entity.rotate", "py_factorio_blueprints/entity_mixins.py:Rotatable.rotate"]}
{"id": "C26", "title": "Four quarter turns are the identity", "statement": "Rotating about the origin by n and then by m leaves the program in the same state as rotating by n+m (any number of rotations likewise: by their sum), and rotating a sorted blueprint without -0.0 coordinates by a multiple of 4 changes nothing at all (positions, directions, order, numbers, export).", "quantifier": "every reachable program state, every blueprint whose entities have finite positions (rolling stock: orientations multiples of 1/256), all integers", "why_tests_cant": "all blueprints", "anchors": ["py_factorio_blueprints/blueprint.py:Blueprint.rotate", "py_factorio_blueprints/entity.py:Entity.rotate"]}
{"id": "C27", "title": "Counter-clockwise rotation is not the inverse of clockwise", "statement": "With any direction argument other than the default (or 0), including the string 'clockwise', rotate(n) does to the entities exactly what clockwise rotate(1) does when n mod 4 = 1 and what rotate(0) does otherwise, so counter-clockwise rotation is not the inverse of clockwise rotation (witness); Tile.rotate counter-clockwise does invert Tile.rotate clockwise for positions and centres on the 1/256 grid.", "quantifier": "every reachable program state, blueprint, integer amount and centre; every tile on the grid", "why_tests_cant": "all amounts", "anchors": ["py_factorio_blueprints/entity.py:Entity.rotate", "py_factorio_blueprints/util.py:Tile.rotate"]}
{"id": "C28", "title": "Rotation about an arbitrary point is exact on the game grid", "statement": "For positions and centres that are multiples of 1/256 with magnitude below 2^40 rotation about any centre is geometrically exact, keeps the distance to the centre, and any sequence of rotations about that centre adding up to a multiple of 4 restores every position exactly; for arbitrary floats it does not (witness 0.1 about 0.7).", "quantifier": "every reachable program state, blueprint, grid position, centre and sequence of amounts", "why_tests_cant": "all grid points; float rounding", "anchors": ["py_factorio_blueprints/entity.py:Entity.rotate", "py_factorio_blueprints/util.py:Tile.rotate", "py_factorio_blueprints/util.py:Vector.__sub__"]}
{"id": "C29", "title": "Selection boxes turn with the entity", "statement": "If the prototype's selection box reaches equally far to both sides (and the entity is rotatable or the box is square) then after rotate(n) the entity covers a turned point exactly when it covered the point before; half a turn leaves any selection box unchanged, so a box that reaches further to one side, such as the shipped inserter's, no longer covers the point that turned with it (witness).", "quantifier": "every reachable program state, blueprint, entity with direction in 0..7, amount, centre and point", "why_tests_cant": "all boxes and directions", "anchors": ["py_factorio_blueprints/entity.py:Entity.selection_box", "py_factorio_blueprints/entity.py:Entity.rotate"]}
{"id": "C30", "title": "Train orientation", "statement": "Rotating by n changes an orientation j/256 to (j + 64n)/256 modulo 1 exactly, in [0,1); an entity whose orientation is None makes rotate raise TypeError after the entities listed before it were turned and it was itself moved, the ones after it being untouched and the layer left unsorted; an orientation of 0.1 drifts in four quarter turns (example).", "quantifier": "every reachable program state, blueprint, amount, centre; every orientation that is a multiple of 1/256; every place of the entity without orientation", "why_tests_cant": "all doubles", "anchors": ["py_factorio_blueprints/entity_mixins.py:Orientation.rotate", "py_factorio_blueprints/entity_mixins.py:Train.orientation"]}
{"id": "C31", "title": "Unknown names are rejected whatever the blueprint's strict flag", "statement": "make or Entity(...) with a string name that is not in the entity prototypes raises UnknownEntity and changes nothing, and load of a document containing such an entity fails (with UnknownEntity when everything before it is acceptable), whatever the strict flag of the blueprint; only the entity's own strict=False disables the check, and then a description with only the general keys is accepted as a bare Entity without mixins.", "quantifier": "every program state, name, prototype table, blueprint strict flag, document", "why_tests_cant": "all names and tables", "anchors": ["py_factorio_blueprints/entity.py:EntityName.__set__", "py_factorio_blueprints/blueprint.py:BlueprintLayer._load", "py_factorio_blueprints/blueprint.py:BlueprintLayer.make"]}
{"id": "C32", "title": "Unknown entity keys are rejected", "statement": "For each of the 62 prototype types a fixed set of keys is understood (listed in SpecEntity.formats). A description (name, position, no strict=False) is made into an entity only if all its keys are in that set; adding any other key to a description that is accepted raises TypeError, make leaves the blueprint unchanged, and a document containing such an entity never loads (e.g. 'bar' on chests, 'items' on assembling machines).", "quantifier": "every prototype type, every description and every key", "why_tests_cant": "all keys", "anchors": ["py_factorio_blueprints/entity_mixins.py:BaseMixin.__init__", "py_factorio_blueprints/entity_prototypes.py:entity_prototypes", "py_factorio_blueprints/entity.py:Entity.__init__"]}
{"id": "C33", "title": "Unknown control-behaviour keys are rejected, except on inserters", "statement": "For every prototype type but the inserter a control_behavior is accepted only if all its keys are in the fixed set of the type, and adding another key to one that is accepted raises TypeError; the same holds for the keys inside arithmetic and decider conditions. For inserters any other string key (except 'self' and '_entity') makes no difference: the same entity or the same error results as without it.", "quantifier": "every prototype type, control_behavior and key", "why_tests_cant": "all keys", "anchors": ["py_factorio_blueprints/entity_mixins.py:BaseMixin.ControlBehavior", "py_factorio_blueprints/entity_mixins.py:Inserter.ControlBehavior"]}
{"id": "C34", "title": "Entity data round trip", "statement": "For every prototype type and every well-formed description of it, Entity(blueprint_layer=layer, ...) succeeds and to_json() of the new entity returns exactly the described keys with the same values (dictionaries compared as mappings, lists in order), apart from entity_number (exported as given, null when absent) and connections (not exported before a load). layer.make(...) exports the same with a fresh integer number, and it succeeds whenever every listed entity and the new one have a position without NaN. Well-formed: only understood keys, values in the form the exporter writes (direction 1..7 and only on rotatable types, is_on only when false, signals with their prototype's type, distinct filter indices, ...) and the keys the exporter always writes present.", "quantifier": "every reachable library state, every layer, every prototype type of the mixin table without a custom mixin, every well-formed description", "why_tests_cant": "all descriptions", "anchors": ["py_factorio_blueprints/entity.py:Entity.to_json", "py_factorio_blueprints/entity_mixins.py:Items", "py_factorio_blueprints/entity_mixins.py:Train", "py_factorio_blueprints/entity_mixins.py:Cargo", "py_factorio_blueprints/entity_mixins.py:Requester", "py_factorio_blueprints/entity_mixins.py:Speaker", "py_factorio_blueprints/entity_mixins.py:Splitter"]}
{"id": "C35", "title": "Blueprint round trip", "statement": "Loading a well-formed blueprint document (every entity description well-formed as in C34, distinct integer entity numbers, wires leading to other entities of the document at sides 1 and 2, icons with distinct indices 1 to 4, schedules naming entities of the document, no tiles) into an empty blueprint without custom types succeeds, and to_json then succeeds and gives the same blueprint: the same item, version, label, label colour and icons (in the order of their indices); the same entities in (y, x) order, equal places in document order, numbered from 1, each description saying the same; at each side and colour one entry for each wire the document mentions at either end (circuit_id being the side of the entity itself, see C17); connections absent when there are none; the schedules for the same locomotives under their new numbers. Top-level keys the loader does not know are lost.", "quantifier": "every reachable program state, every empty blueprint in it, every well-formed document", "why_tests_cant": "all documents", "anchors": ["py_factorio_blueprints/blueprint.py:Blueprint.load", "py_factorio_blueprints/blueprint.py:Blueprint.to_json"]}
{"id": "C36", "title": "Decider combinators with a constant cannot be loaded", "statement": "A decider condition with a first signal beside a constant (the format's normal form), otherwise well-formed, raises TypeError and changes nothing; such a condition never loads whatever else it contains. Well-formed arithmetic conditions and decider conditions comparing two signals (or a constant with a signal) load and are exported as they were.", "quantifier": "every decider and arithmetic condition, every combinator description around it", "why_tests_cant": "all conditions", "anchors": ["py_factorio_blueprints/entity_mixins.py:Combinator.ControlBehavior.__init__", "py_factorio_blueprints/entity_mixins.py:Decider"]}
{"id": "C37", "title": "Loading consumes parts of the caller's data", "statement": "Whatever the outcome, load leaves the caller's document unchanged except that entries of combinator conditions and the 'schedules' key may be gone; a successful load always removes 'schedules' and leaves the conditions of every arithmetic and decider combinator as an empty dictionary; a document with neither is unchanged. So loading the same object twice can fail the second time.", "quantifier": "every program state, blueprint and document, successful and failing loads", "why_tests_cant": "all documents", "anchors": ["py_factorio_blueprints/blueprint.py:Blueprint.load", "py_factorio_blueprints/entity_mixins.py:Combinator.ControlBehavior.__init__"]}
{"id": "C38", "title": "Tiles cannot be loaded, made or added", "statement": "Every document with at least one tile makes load raise; tiles.make always raises (TypeError when the name and position are fine) and tiles.add of a Tile raises AttributeError, both without effect; hence the tile layer is empty in every reachable state.", "quantifier": "every document, every history", "why_tests_cant": "all histories", "anchors": ["py_factorio_blueprints/util.py:Tile.__init__", "py_factorio_blueprints/blueprint.py:BlueprintLayer._load", "py_factorio_blueprints/blueprint.py:BlueprintLayer.add"]}
{"id": "C39", "title": "A blueprint book loads as an empty blueprint", "statement": "A document without entities, icons, tiles, schedules and label colour, wrapped in 'blueprint' or not (a blueprint book, for example), loads without error into an empty blueprint: it ends up with no entities, wires, tiles, schedules and icons, the document, all entities, tables and other blueprints are unchanged, and it exports without entities.", "quantifier": "every reachable program state, empty blueprint and such document", "why_tests_cant": "all documents", "anchors": ["py_factorio_blueprints/blueprint.py:Blueprint.load"]}
{"id": "C40", "title": "Icon slots", "statement": "Every icon slot shows the last icon given for it, where indices 1..4 are slots 1..4 and 0, -1, -2, -3 are slots 4..1; slots stay until the next load of that blueprint; the export lists the filled slots in order with index = slot and the signal's name and type. An icon with another index raises IndexError, one with an unknown signal UnknownSignal.", "quantifier": "every program state, document and icon list; every later history without a load of that blueprint", "why_tests_cant": "all lists", "anchors": ["py_factorio_blueprints/blueprint.py:Blueprint.load", "py_factorio_blueprints/blueprint.py:Blueprint.to_json"]}
{"id": "C41", "title": "Schedules follow their locomotives", "statement": "After loading, every schedule holds in order exactly the entities of the layer that its locomotive numbers denote, numbers without an entity being skipped; no later operation other than a load of that blueprint changes which entities these are. An export writes their current numbers, and for an entity of a sorted layer that is the number the same document gives to that entity.", "quantifier": "every program state, document with list-valued schedules and locomotives, and later history", "why_tests_cant": "all histories", "anchors": ["py_factorio_blueprints/blueprint.py:Schedule"]}
{"id": "C42", "title": "Bounding box", "statement": "maximum_values of a non-empty blueprint is four ints: the largest x and y of the entities' bottom_right corners and the smallest x and y of their top_left corners, each cut toward zero, whatever the order of the entities. An integer corner coordinate is therefore inside the box and any other overshoots it by less than 1; for an empty blueprint the values are -inf, inf, -inf, inf. Reading it changes nothing.", "quantifier": "every program state and blueprint whose entities have finite corners; every order of the same entities", "why_tests_cant": "all blueprints", "anchors": ["py_factorio_blueprints/blueprint.py:Blueprint.maximum_values", "py_factorio_blueprints/blueprint.py:Blueprint.corners"]}
{"id": "C43", "title": "recenter always fails unless already centred", "statement": "recenter returns normally only without changing anything, and does so when the centre equals (0, 0); for any other centre every entity of the layer ends up exactly at its position minus the centre with nothing else changed (numbers, order of the layer, wires, other blueprints included) and AttributeError is raised. Without an argument the centre is ((maxx+minx)/2, (maxy+miny)/2) rounded up; on an empty blueprint ValueError is raised and nothing changes.", "quantifier": "every reachable program state and blueprint; centres and positions that are multiples of 1/256 below 2^40; default centre for box sums below 2^53", "why_tests_cant": "all states", "anchors": ["py_factorio_blueprints/blueprint.py:Blueprint.recenter", "py_factorio_blueprints/blueprint.py:Blueprint.center"]}
{"id": "C44", "title": "weighted_center is unusable", "statement": "weighted_center never returns and changes nothing: it raises TypeError, or OverflowError when the sum of the positions itself overflows; for fewer than 4096 entities at multiples of 1/256 below 2^40 it is TypeError.", "quantifier": "every reachable program state and blueprint", "why_tests_cant": "all states", "anchors": ["py_factorio_blueprints/blueprint.py:Blueprint.weighted_center"]}
{"id": "C45", "title": "Prototype tables", "statement": "set_*_prototype_data replaces its own table, or with append=True overrides/extends it key by key, and never affects the other four tables; a failing import_prototype_data updates a prefix of the tables.", "quantifier": "every table, every update sequence", "why_tests_cant": "all histories", "anchors": ["py_factorio_blueprints/blueprint.py:Blueprint.set_entity_prototype_data", "py_factorio_blueprints/blueprint.py:Blueprint.import_prototype_data"]}
{"id": "C46", "title": "Mixin composition is linearisable for every prototype", "statement": "set_mixins succeeds for the mixins of every prototype type in entity_prototypes.py, whatever class the entity had. Whenever set_mixins or add_mixins succeeds, the classes of the new method resolution order are exactly those of the old class (for set_mixins: Entity's) plus the mixins and their base classes, each once, every class before its base classes, the old classes and the mixins each in their given order, Entity first and BaseMixin, Base, object last; the ControlBehavior bodies visited are exactly those written in these classes, again subclasses first. The composition fails only with TypeError and only if no order agrees with all lists. Every entity of a program has such a class at any time.", "quantifier": "every prototype type; every list of library mixins (Entity itself excluded); every reachable entity", "why_tests_cant": "all combinations", "anchors": ["py_factorio_blueprints/util.py:ControlBehaviorMeta", "py_factorio_blueprints/entity.py:Entity.add_mixins", "py_factorio_blueprints/entity_prototypes.py:entity_prototypes"]}
{"id": "C47", "title": "Renaming an entity", "statement": "An entity made as, or successfully renamed to, something of prototype type T can be given every known name of type T: the assignment succeeds, only the name changes, to_json of the entity is what it was with the new name in it, and every other entity exports what it did. Renaming it to a type with a setting the type it was made as does not have (recipe and color excepted) makes its to_json raise AttributeError; renaming to a type without such settings keeps all settings in the export. Renaming between types whose mixins come in opposite orders (15 listed pairs, e.g. inserter to pump) raises TypeError with the name already changed and nothing else; a new entity can be renamed to every other type. A name missing from the entity table raises UnknownEntity and changes nothing.", "quantifier": "every strict entity of a layer without mixins of its own for the types concerned, every history that does not call set_mixins on it (for the claims about settings the new type has and the old one has not: nor assigns to its attributes), every new name, whatever prototypes were imported", "why_tests_cant": "all pairs of prototypes", "anchors": ["py_factorio_blueprints/entity.py:EntityName.__set__", "py_factorio_blueprints/entity.py:Entity.add_mixins"]}
{"id": "C48", "title": "Dangling wire references fail the load", "statement": "If a wire in the document refers to an entity number that no entity has, load raises AttributeError; if all references resolve, the loaded wire list is exactly the set of wires mentioned, each once.", "quantifier": "every document with wires", "why_tests_cant": "all documents", "anchors": ["py_factorio_blueprints/blueprint.py:Blueprint.parse_connections", "py_factorio_blueprints/blueprint.py:Blueprint.get_entity_by_id"]}
{"id": "C49", "title": "Lookup by number finds the number from the document", "statement": "get_entity_by_id(n) returns the first entity in layer order whose number in its document was n, regardless of later renumbering, and None if there is none (in particular entities made without a number are never found by a number).", "quantifier": "every state and number", "why_tests_cant": "all states", "anchors": ["py_factorio_blueprints/blueprint.py:Blueprint.get_entity_by_id", "py_factorio_blueprints/blueprint.py:BlueprintLayer.get_by_id"]}
{"id": "C50", "title": "Name validation uses two different tables", "statement": "Let a description be one from which an entity is made. Setting a splitter's filter, a cargo wagon's inventory filters, a logistic container's request filters, an infinity container's filters or a speaker's alert icon in it still makes an entity exactly when every item named is in the built-in default table, whatever tables were imported; otherwise UnknownEntity is raised. A recipe is accepted exactly when in the imported recipes (else UnknownRecipe); inserter filters, items of beacons and locomotives, and the signals of a control behaviour (outputs, circuit conditions, constant combinator filters) exactly when in the imported signals (else UnknownSignal), the empty signal name excepted, which is never checked; an entity name not in the imported entities raises UnknownEntity and every imported name of the same type is accepted.", "quantifier": "every description that makes an entity, every list of names and every imported table", "why_tests_cant": "all names", "anchors": ["py_factorio_blueprints/util.py:NameStr", "py_factorio_blueprints/entity_mixins.py:SignalName", "py_factorio_blueprints/entity_mixins.py:RecipeName", "py_factorio_blueprints/defaultentities.py:defaultentities"]}
{"id": "C51", "title": "Vector construction forms agree", "statement": "Vector(x, y), Vector((x, y)), Vector({'x': x, 'y': y}), Vector(x=x, y=y) and Vector(Vector(x, y)) build equal vectors; None or no arguments give None; any other form raises.", "quantifier": "every pair of coordinates and every argument form", "why_tests_cant": "all forms", "anchors": ["py_factorio_blueprints/util.py:Vector.__new__", "py_factorio_blueprints/util.py:Vector.__init__", "py_factorio_blueprints/entity.py:PositionField"]}
{"id": "C52", "title": "Corners of an entity", "statement": "top_right and bottom_left of an entity are made of the coordinates of its top_left and bottom_right; for a position and a prototype box on the 1/256 grid top_left and bottom_right are exactly the position plus the box corners, whose coordinates are exchanged when direction // 2 is odd.", "quantifier": "every entity, prototype table, non-negative direction; grid positions and boxes below 2^40", "why_tests_cant": "all positions, boxes and directions", "anchors": ["py_factorio_blueprints/entity.py:Entity.top_left", "py_factorio_blueprints/entity.py:Entity.selection_box"]}
{"id": "C53", "title": "The strict argument of Blueprint has no effect", "statement": "Blueprint(strict=...) changes nothing observable: two programs that differ only in these arguments get the same outcome (value or exception class) from every call, create the same entities, and all exports, queries at a point, wire listings, extents and lookups by number agree. In particular strict=False does not switch off the check of unknown names; only an entity's own strict argument does.", "quantifier": "every pair of histories of API calls that differ only in the strict arguments of Blueprint(...)", "why_tests_cant": "all histories, all later observations", "anchors": ["py_factorio_blueprints/blueprint.py:Blueprint.__init__", "py_factorio_blueprints/blueprint.py:BlueprintLayer.__init__", "py_factorio_blueprints/entity.py:EntityName.__set__"]}
{"id": "C54", "title": "Blueprints do not disturb each other", "statement": "A call that is not made on blueprint b, nor on an entity b's document speaks about (listed, at the end of one of its wires, or in one of its schedules), nor on a blueprint listing such an entity, and that does not replace prototype data, leaves b's contents, those entities, b's export, its queries at a point and its extent exactly as they were, whether or not the call raises; the same for any number of such calls. If b speaks about its own entities only, this covers every call on another blueprint or on an entity not listed in b. A wire to another blueprint's entity breaks the separation.", "quantifier": "every reachable program state, every blueprint, every call and history of calls", "why_tests_cant": "all pairs of programs sharing one process", "anchors": ["py_factorio_blueprints/blueprint.py:BlueprintLayer", "py_factorio_blueprints/blueprint.py:Blueprint.to_json", "py_factorio_blueprints/entity.py:Entity.connect"]}
{"id": "C55", "title": "A blueprint made from an exported string", "statement": "Loading a well-formed JSON document (C35) into an empty blueprint and exporting it gives a JSON document; Blueprint(string=blueprint.to_string()) succeeds, strict or not, and can be exported again. The copy has the same entities in the same order with the same numbers, each description saying the same, and the same item, version, label, colour, icons and schedules. Its wires are the wires of the original with, for each end, the near side read as the far side too (side 1 for entities with one side only): it is the same blueprint whenever every wire joins equal sides (counting side 1 for entities with one side only), and in general not otherwise: a lamp wired to the output of a decider comes back wired to its input as well. The same holds from any exchange string whose document is well-formed: Blueprint(string=s) exists, exports a document that is the same blueprint, and so does its copy.", "quantifier": "every reachable program state, every empty blueprint in it, every well-formed JSON document, every string that decodes to one, every lossless compressor", "why_tests_cant": "all documents and two generations of each", "anchors": ["py_factorio_blueprints/blueprint.py:Blueprint.__init__", "py_factorio_blueprints/blueprint.py:Blueprint.to_string", "py_factorio_blueprints/blueprint.py:Blueprint.load", "py_factorio_blueprints/entity.py:Entity.connections_to_json"]}
{"id": "C56", "title": "Equality of blueprints", "statement": "For blueprints in which no wire joins two different sides of one entity, a == b is True exactly when the two exported documents are the same JSON text-wise (same values, same key order); == is symmetric, transitive and, when to_string works, reflexive; it raises exactly when to_string raises for one of them; and it changes nothing that is exported. With a wire from one side of an entity to its other side a blueprint is not even equal to itself, and a copy made from the exported string that is the same blueprint in the sense of C55 need not be equal, because wires are listed in the order in which they were read.", "quantifier": "every reachable program state, all blueprints in it, every lossless compressor", "why_tests_cant": "all pairs and triples of blueprints in all states", "anchors": ["py_factorio_blueprints/blueprint.py:Blueprint.__eq__", "py_factorio_blueprints/blueprint.py:Blueprint.to_string"]}
{"id": "C57", "title": "Decoded strings are documents and encode again", "statement": "Whatever decode(s) returns is a JSON-representable object whose dictionaries have string keys only (no repeated key, every float a binary64 number, every string without a high surrogate directly followed by a low one). encode accepts it, and decoding the new string gives exactly the same object; so every readable string, however it was written (blanks, repeated keys, raw or escaped characters, other base64 or zlib choices), has a normal form with the same content. A string made by encode is already in normal form: decoding and encoding it returns the same string.", "quantifier": "every string that decodes and every JSON-like object; any lossless zlib (the first claim: any zlib)", "why_tests_cant": "ranges over all texts the JSON parser accepts, including numbers that round, escapes and surrogates", "anchors": ["py_factorio_blueprints/util.py:decode", "py_factorio_blueprints/util.py:_decode_0", "py_factorio_blueprints/util.py:encode", "py_factorio_blueprints/util.py:_encode_0"]}
{"id": "C58", "title": "Assigning to an attribute equals making the entity so", "statement": "entity.attribute = v for the settings that have a keyword of the same name (orientation, inventory, color, bar, override_stack_size, pickup/drop_position, filter_mode, infinity_settings, recipe, request_from_buffers, request_filters, auto_launch, parameters, alert_parameters, input/output_priority, filter, station, type, variation), directly after the entity was made: raises what making the entity with that keyword would have raised, or leaves the blueprint exactly as if the keyword had been given (provided the mixin that owns it is not behind Items, which hands keywords on as positional arguments). The same holds for the plain keys and signals of a control behaviour and for the parts of a circuit condition. In any state, an assignment changes no other entity's export and at most one key of the entity's own export, which stays exportable; plain settings are exported as assigned (None: left out); a refused value changes nothing, and an entity without the owning mixin ignores the assignment. Exception found: the list setters (inventory, request_filters, infinity_settings) empty the old list before looking at the new entries, so a refused list loses the old one.", "quantifier": "all prototype tables, keyword dictionaries, values, attributes, and both ways to make an entity; for the effects on exports all states reachable by any history of API calls", "why_tests_cant": "There are 24 attributes with their own setters, 17 plain keys and 17 signals of control behaviours, and arbitrary values, classes and surrounding states; tests try single assignments, while the equality with the constructor is about every pair of a setter and the constructor path it has to agree with.", "anchors": ["py_factorio_blueprints/entity_mixins.py:372-1090", "py_factorio_blueprints/entity_mixins.py:54-104", "py_factorio_blueprints/entity_mixins.py:116-1032", "py_factorio_blueprints/entity.py:98-160", "py_factorio_blueprints/blueprint.py:87-90"]}
{"id": "C59", "title": "Which strings are exchange strings, and what each of them means", "statement": "A string decodes to an object exactly when it is '0' followed by ASCII text that is base64 (after removing foreign characters; the forgiving padding rules are spelled out) of bytes that inflate to UTF-8 text which is a JSON document by the grammar of RFC 8259 (plus NaN, Infinity, -Infinity) denoting that object: integers are exact, decimal fractions are the nearest binary64 float with ties to even and overflow to infinity, escaped surrogate pairs are one character, and of repeated names the last value and the first position count. Every other string raises the exception of the first step that fails: IndexError for the empty string, InvalidExchangeString for a foreign version, bad base64 or bad zlib data, ValueError for non-ASCII text, UnicodeDecodeError for bytes that are not UTF-8, JSONDecodeError for text that is not a document. No string has two meanings.", "quantifier": "every string, every behaviour of zlib.decompress, every object", "why_tests_cant": "The set of accepted texts is infinite and both inclusions matter: tests sample some accepted and some rejected strings, but cannot show that nothing else is accepted and that no accepted text is read as a different value (rounding, escapes, duplicate names, padding).", "anchors": ["py_factorio_blueprints/util.py: decode, _decode_0, _decode"]}
{"id": "C60", "title": "Loading into a blueprint that has contents already", "statement": "A call of load that returns adds: every entity that was listed stays listed with all its attributes (only its number may change), the entities of the document are appended in document order and the whole list is then sorted and renumbered; item, label, version and icons are the document's, the label colour is the document's or else the old one, tiles, strictness and custom classes stay, other blueprints are untouched. Wires are read again from the documents of all listed entities, so a wire drawn with connect between entities whose documents have none is gone. Numbers in the document are looked up among all listed entities: when an entity that was there before has the number and does not lie after the document's own, the wires and schedules of the new document go to entities that were there before. In particular, loading one document twice lists every entity twice, and no wire joins two entities of the second copy.", "quantifier": "every reachable state, blueprint, document and previous contents", "why_tests_cant": "The effect depends on the whole previous contents, on the positions and on the document numbers of both documents; a test fixes one pair of documents and the order in which they are sorted.", "anchors": ["py_factorio_blueprints/blueprint.py: Blueprint.load, BlueprintLayer._load, BlueprintLayer.get_by_id, Blueprint.parse_connections"]}
{"id": "C61", "title": "What a failed load leaves behind", "statement": "When load raises after it has found a blueprint in the document, item and label are the document's already, schedules, tiles, strictness, custom classes and all other blueprints are as before, and the rest depends on where it stopped: at a bad label colour nothing else has changed; at the icons colour, version and icons have been replaced; at an entity that cannot be made all entities before it in the document stay listed, unsorted, with the wires untouched and every old entity unchanged; at the sorting (an entity without a position) all new entities stay listed, unsorted; at the wires, tiles or schedules the list is sorted and renumbered and the old wires have been replaced by some of those in the documents. So a failed load is not undone, and repeating it with a corrected document adds the entities once more.", "quantifier": "every reachable state, blueprint and document, every exception", "why_tests_cant": "There are as many stopping points as parts of the document, each with its own state; a test sees one failing document.", "anchors": ["py_factorio_blueprints/blueprint.py: Blueprint.load, Blueprint.__init__, BlueprintLayer._load, BlueprintLayer.sort"]}
{"id": "C62", "title": "Vector arithmetic on floats and mixed numbers is correctly rounded", "statement": "For + - * / % between a Vector and a Vector, number or pair (also with the Vector on the right), each component is the exact integer result when both are ints, and otherwise the IEEE-754 double nearest to the exact result (ties to even, infinite from half a step above the greatest double, with the usual signs of zero and rules for infinities and NaN), after an int operand has been rounded to the nearest double; int / int is the double nearest to the fraction itself. OverflowError is raised exactly when an int operand, or the quotient of two ints, is too big for a double, ZeroDivisionError exactly when the divisor is 0. x % y is the double nearest to x - y*floor(x/y). x // y is floor(x/y) whenever that is at most 2**48 in size; for larger quotients it can be a different whole number even when the right one is a double.", "quantifier": "for all vectors and operands whose components are ints of any size or any doubles, including subnormals, infinities and NaN", "why_tests_cant": "double arithmetic has 2^128 pairs of operands and ints are unbounded; the wrong floor quotients start at sizes no example-based test uses", "anchors": ["py_factorio_blueprints/util.py:410-505"]}
{"id": "C63", "title": "A float is written as the shortest decimal that denotes it", "statement": "The text that Blueprint.to_json_string / util.encode write for a finite double is a decimal that reads back as exactly that double; it has at most 17 significant digits, no decimal of fewer digits denotes the double, and of those with as few digits it is the nearest one to the double (the one with the even last digit on a tie). It is laid out with a decimal point and no exponent from 10**-4 up to (not including) 10**16 and as d.ddde+XX otherwise, with no needless zeros, and no other text meets this description. It is not always the shortest text: 1e4 is shorter than 10000.0.", "quantifier": "for all finite doubles, subnormals and powers of two (where the spacing is uneven) included", "why_tests_cant": "there are 2^64 doubles and the failures of a wrong digit search (one candidate only, rounding half up) are a few dozen isolated powers of two", "anchors": ["py_factorio_blueprints/util.py:19-23", "py_factorio_blueprints/blueprint.py:295-300"]}
{"id": "C64", "title": "The written text and exchange string are determined character by character", "statement": "For every JSON-like object, json text (Blueprint.to_json_string) is exactly the one text described by: null/true/false/NaN/Infinity/-Infinity; ints in decimal without leading zeros or '-0'; floats as in C63 and zeros as 0.0/-0.0; strings in quotes with the seven short escapes (not the slash), printable ASCII as itself and everything else as lower-case \\uXXXX, in surrogate pairs beyond U+FFFF; lists and dictionaries in order with ', ' and ': ', integer keys as quoted decimals. The text is printable ASCII. util.encode / Blueprint.to_string give '0' followed by the padded base64 (no line breaks, zero fill bits) of the compressed text, and nothing else.", "quantifier": "for all objects made of None, bools, ints, doubles, any Python strings (lone surrogates included), lists and dictionaries, nested to any depth, and for every zlib.compress", "why_tests_cant": "objects nest without bound and every code point, int and double has its own text; a reader written elsewhere (the game) relies on the exact form", "anchors": ["py_factorio_blueprints/util.py:19-23", "py_factorio_blueprints/util.py:34-35", "py_factorio_blueprints/blueprint.py:295-300"]}
{"id": "C65", "title": "Direction arithmetic: which operators wrap, which give plain numbers, and floats that make a ninth direction", "statement": "Direction + x and Direction - x with an int or Direction give a Direction in 0..7 congruent to the sum or difference modulo 8, and raise TypeError with a float. With the number on the left (n + d, n - d, n // d, n / d), and for *, % and dividing by a number, a Direction acts as the plain number and the result does not wrap; so d + n and n + d differ, and the methods that return NotImplemented do not disable division by numbers (only Direction // Direction and Direction / Direction raise TypeError). is_up/right/down/left and up()/right()/down()/left() are the directions 0, 2, 4, 6; the eight reprs differ, and each says where the vector of the direction points (Up/Down by y, Left/Right by x). Direction(x) of a float is the float remainder modulo 8, rounded to a double and truncated: it lies in 0..7 except for -2^-51 <= x < 0, where it is 8, a Direction without vector and whose repr raises IndexError; infinities and NaN raise ValueError.", "quantifier": "for all directions, ints and finite binary64 operands; all floats for the constructor", "why_tests_cant": "ints are unbounded and there are 2^64 doubles; the ninth direction arises only for negative floats of magnitude at most 2^-51", "anchors": ["py_factorio_blueprints/util.py:114-175", "py_factorio_blueprints/util.py:190-208"]}
{"id": "C66", "title": "What a Condition and a SignalID accept, hold and export, and which exports can be read back", "statement": "Condition(first_signal, comparator, constant, second_signal) accepts as first signal a known name not containing the text 'name', or a dict whose 'name' is known or None; as second operand second_signal if it is truthy, otherwise constant, which must be None, an int or bool (kept as it is) or a known name; and one of the six comparators. Anything else raises the error of the first step that fails (TypeError, UnknownEntity, ValueError). Assignments to first, second and comparator follow the same rules one by one. Every condition that can be made and assigned exports to first_signal (with the type of the table), comparator and second_signal or constant, as they apply. Passing the export back as keywords gives the same condition exactly if it has a first signal and no second signal; otherwise TypeError, so a comparison of two signals cannot be read back. A SignalID with a name exports name and type and is read back the same; one without a name cannot be exported (KeyError).", "quantifier": "for all argument values, all name tables and all histories of assignments to a condition", "why_tests_cant": "arguments range over all values and the history of assignments is unbounded", "anchors": ["py_factorio_blueprints/util.py:211-263", "py_factorio_blueprints/util.py:266-286", "py_factorio_blueprints/util.py:289-304"]}
{"id": "C67", "title": "Each setting of an entity takes exactly the documented values, raises the right exception for the others, and exports what was given", "statement": "Assigning v to a setting of an entity whose class has it (orientation, inventory, color, bar, override_stack_size, pickup_position, drop_position, filter_mode, infinity_settings, recipe, request_from_buffers, request_filters, auto_launch, parameters, alert_parameters, input_priority, output_priority, filter, station, type, variation) either succeeds and the export then holds the value described for v (or no key), or raises the described exception. Examples: variation takes 0 <= v <= 255, raises ValueError outside, TypeError for None, and takes NaN; bar is int(v), so OverflowError for infinity; color keywords other than r, g, b, a give TypeError and channels are clamped to [0, 1]; filter lists keep for each index the last entry, in the order in which the indices first appear; an unknown item name raises UnknownEntity, an unknown recipe UnknownRecipe in strict mode; infinity_settings = None is a TypeError. Every value inside the model is decided, by exactly one outcome. The constructor takes and refuses the same values for the keyword of the same name.", "quantifier": "for all reachable worlds, all entities, all settings and all assigned values (floats being doubles)", "why_tests_cant": "values range over all numbers, texts and nested lists and dictionaries; an off-by-one in one range check (256 for a variation) is seen by one value only", "anchors": ["py_factorio_blueprints/entity_mixins.py:380-437", "py_factorio_blueprints/entity_mixins.py:444-483", "py_factorio_blueprints/entity_mixins.py:591-723", "py_factorio_blueprints/entity_mixins.py:736-819", "py_factorio_blueprints/entity_mixins.py:884-972", "py_factorio_blueprints/entity_mixins.py:988-1094"]}
{"id": "C68", "title": "Each attribute of a control behaviour takes exactly the described values, and assigning it changes its own places in the export only", "statement": "Assigning v to an attribute of a control behaviour (accumulator, constant combinator, belt, rail and chain signal, lamp, mining drill, inserter, requester chest, roboport, train stop, and the circuit condition they share) either succeeds or raises the described exception: a signal is None, an int, the empty text, a name in the table of signals, or a dictionary with such a name; another name raises UnknownSignal and a list TypeError; a comparator is one of the six operators or None, otherwise ValueError; the other attributes take anything. After a success the export of the entity holds at the places of the attribute what is described (the signal with its type; the number; nothing for None; is_on only when it is falsy; a side of the circuit condition as a signal or as a constant, never both), and the document is the same at every other path. The described exceptions at export are all: KeyError for an empty signal name, AttributeError for a roboport or train stop whose signal is a non-zero int. The same holds for arithmetic and decider combinators: operator is None or one of the eleven operations or six comparators, otherwise ValueError; first, second and output are signals and are exported as signal or as constant, never both; copy_count_from_input takes anything and is exported as it is. A decider has a single constant in its export: there the claim about first, second and output is made when no constant was exported before, and C68_a_decider_loses_a_constant_refuted is the failing case (with second = 7, assigning first = 5 is accepted and 5 appears nowhere in the conditions).", "quantifier": "for all reachable worlds, all entities with a control behaviour, all attributes of its classes and all assigned values", "why_tests_cant": "the attribute must leave all other parts of the document unchanged, whatever they are, and the values range over all texts, numbers and nested dictionaries", "anchors": ["py_factorio_blueprints/entity_mixins.py:55-111", "py_factorio_blueprints/entity_mixins.py:113-198", "py_factorio_blueprints/entity_mixins.py:291-357", "py_factorio_blueprints/entity_mixins.py:485-578", "py_factorio_blueprints/entity_mixins.py:764-856", "py_factorio_blueprints/entity_mixins.py:1019-1041", "py_factorio_blueprints/entity_mixins.py:201-288"]}
{"id": "C69", "title": "An entity is made exactly when its description has no fault, and the exception stands for one of its faults", "statement": "A description of an entity of a known type has a fault when: its position is not a place; its direction is None, a list, a dictionary or not finite; a key of its type holds a value that the setting does not take (C67), items or filters hold an unknown signal or a key of no meaning, or type or infinity_settings are missing where the type has them; a key is not understood for the type; or its control behaviour has an unknown key (inserters let keys pass), an unknown signal, a comparator or operation outside the list, a combinator without its conditions, a constant and a signal for the same side, or filters or parameters with unknown keys. Each fault stands for an exception (TypeError, ValueError, KeyError, AttributeError, UnknownSignal, UnknownRecipe, ...). Making an entity fails exactly when there is a fault, with the exception of one of the faults; make then leaves everything unchanged, and a document that loads has no faulty entity.", "quantifier": "for all prototypes, all descriptions (any nesting of dictionaries, lists, texts, numbers and doubles) of entities of the types of the package, all worlds and all documents", "why_tests_cant": "a test shows some descriptions that are rejected; that nothing else is rejected and that no faulty description passes is a claim about all descriptions", "anchors": ["py_factorio_blueprints/entity.py:103-160", "py_factorio_blueprints/entity_mixins.py:1-1094", "py_factorio_blueprints/blueprint.py:87-100", "py_factorio_blueprints/blueprint.py:224-300"]}
{"id": "C70", "title": "The export of a made entity says what its description says, key by key", "statement": "Export an entity that was just made from a description. Its name is the one in the description, its position is the place described, its direction is the described one reduced to 0..7 and left out when it is 0 or when the type does not turn. Each key of its type holds what the setting exports for the described value (None when not described); items are the described dictionary unless it is empty; filters are the described filters in their order, each with the keys index and name (count and signal for constant combinators). No control behaviour described, none exported; otherwise each attribute of the control behaviour shows what its described value is taken as (with the defaults of mining drills and the like), the parameters of speakers always show all three keys, and the conditions of combinators hold the operator, and for each side its signal or its constant; the decider keeps one constant only, that of the output, else of the second, else of the first side. There are no other keys.", "quantifier": "for all prototypes, worlds, descriptions (any values, any nesting) and all types of the package, for make and for the constructor of Entity", "why_tests_cant": "a test compares some exported documents; the claim is about every key of every description of every type, including the keys that must not appear", "anchors": ["py_factorio_blueprints/entity.py:14-260", "py_factorio_blueprints/entity_mixins.py:1-1041", "py_factorio_blueprints/blueprint.py:330-420"]}
{"id": "C71", "title": "The texts of vectors, colours, entities and connections tell them apart", "statement": "repr of a Vector is \"<Vector (x, y)>\" and of a Color \"<Color (r:.., g:.., b:.., a:..)>\", with integers in decimal, floats as the shortest decimal that denotes them, and nan, inf, -inf; two vectors or colours with the same repr have the same coordinates or channels, down to the sign of zero and int against float. repr of an Entity shows its name, position and direction, and two entities with the same repr agree in all three whatever their names contain; str of an Entity shows its name and nothing else. repr of a Connection shows colour, the names of both ends and both sides; connections of entities without quotes in their names with the same repr agree in all of these (with quotes in names they need not). repr of a SignalID shows name and type, and is a KeyError for the name None.", "quantifier": "for all coordinates and channels (integers and floats, finite or not), all names, all worlds and connections", "why_tests_cant": "a test prints some objects; that no two different ones print the same is a claim about all pairs", "anchors": ["py_factorio_blueprints/util.py:57-58", "py_factorio_blueprints/util.py:299-300", "py_factorio_blueprints/util.py:316-319", "py_factorio_blueprints/util.py:407-408", "py_factorio_blueprints/entity.py:109-114"]}
{"id": "C72", "title": "An entity that was just made can be exported, exactly unless its description has a signal without a document", "statement": "For an entity that was just made by make_entity or Entity(...), to_json fails exactly when one of these holds, and raises the exception of one that holds: it is in no blueprint (AttributeError); its position was given as None (AttributeError); some attribute of its control behaviour was taken from the description as a value that has no document (with the exception of C68); some filter of a constant combinator has no signal or an integer as signal (AttributeError), or a signal without a document; some side of an arithmetic or decider combinator was taken as a signal without a document. No other setting of an entity can make it fail. When every signal of the table has a type, the exception is an AttributeError, or a KeyError and then some text inside of the description is empty. That every accepted description can be exported is refuted.", "quantifier": "for all reachable states, all typed descriptions of all modelled entity types, made in the layer of a blueprint, with a blueprint or without one", "why_tests_cant": "a test exports some entities; that nothing else makes any accepted description fail is a claim about all descriptions", "anchors": ["py_factorio_blueprints/entity.py:255-264", "py_factorio_blueprints/entity.py:172-198", "py_factorio_blueprints/entity_mixins.py:20-350", "py_factorio_blueprints/util.py:626-637"]}
{"id": "C73", "title": "The document of a blueprint is made of the documents its parts have on their own, and fails with the first part that has none", "statement": "Blueprint.to_json() raises an exception exactly when some entity or icon has no document: it raises what entity.to_json(), called on its own before, raises for the first such entity in the order of the list, or else what the first icon without a document raises. Schedules never fail. When it succeeds, every key says what the parts say on their own: 'entities' lists the results of entity.to_json() for each entity in order (absent without entities), although each export turns the wires of its entity around in place; 'icons' lists the icons that are set with the numbers of their slots; 'schedules' lists the numbers of the locomotives; 'item' and 'version' are always there, 'label' and 'label_color' unless None, 'tiles' never; there is no other key. entity.connections_to_json() fails exactly when a wire at the entity ends at nothing (AttributeError), or else when the far ends of two of its wires have numbers that cannot be compared, as None and 1 (TypeError). That what was loaded can be exported is refuted: an icon with an empty name is accepted and then to_json raises KeyError.", "quantifier": "for all reachable states and all blueprints in them; for the wires: entities whose own number and far numbers are None, integers or texts", "why_tests_cant": "exports change the direction of wires in place, so that independence of the exports from each other is a claim about all wirings and orders", "anchors": ["py_factorio_blueprints/blueprint.py:274-293", "py_factorio_blueprints/blueprint.py:109-116", "py_factorio_blueprints/blueprint.py:27-33", "py_factorio_blueprints/entity.py:152-198", "py_factorio_blueprints/entity.py:255-264"]}
{"id": "C74", "title": "A blueprint built entity by entity exports what each entity exported when it was new, sorted and numbered", "statement": "Starting from a blueprint without entities and wires, call blueprint.entities.make(...) any number of times, each call succeeding. Then Blueprint.to_json() lists under 'entities' exactly what entity.to_json() gave for each entity right after it was made, with only 'entity_number' replaced: the entries are in the order of (y, x), entities at one position in the order in which they were made, and the numbers are 1, 2, 3, .... Nothing else is in the list, and label, colour, icons, version and schedules are as before. If some entity could not be exported when it was new, the export of the blueprint raises the exception of the first such entity in the sorted order. A made entity always has a position. That the number in a description is the one in the document is refuted.", "quantifier": "for all reachable states, all blueprints without entities and wires in them, and all sequences of successful calls of make, of any length and with any descriptions; success of the export under the condition that every icon that is set has a document", "why_tests_cant": "each call sorts and renumbers all entities that were made before, so that stability and independence are claims about all sequences", "anchors": ["py_factorio_blueprints/blueprint.py:67-95", "py_factorio_blueprints/blueprint.py:109-116", "py_factorio_blueprints/blueprint.py:129-134", "py_factorio_blueprints/blueprint.py:274-293", "py_factorio_blueprints/entity.py:255-264"]}
{"id": "C75", "title": "Taking entities out of a blueprint leaves the rest of the document alone, and putting one back restores everything", "statement": "After entities.remove(e), del entities[e] or del entities[point], entity.to_json() of every other entity of the blueprint gives what it gave before, with its number and all of its wires, also those to entities that are gone; an entity that was taken out raises AttributeError. If Blueprint.to_json() succeeded before, it succeeds after and its result is the old one without the entries of those taken out: no other entry and no other key changes, and 'entities' disappears with the last of them. If the entities were sorted and numbered, then removing an entity that is the only one at its position and adding it again leads to exactly the state before. With another entity at the position this is refuted: the two change places and numbers.", "quantifier": "for all reachable states, blueprints, entities and points; putting back: for lists that are sorted by (y, x) with numbers 1..n and positions without NaN", "why_tests_cant": "the claim compares two documents for every wiring and every set of entities taken out", "anchors": ["py_factorio_blueprints/blueprint.py:57-95", "py_factorio_blueprints/blueprint.py:109-134", "py_factorio_blueprints/blueprint.py:274-293", "py_factorio_blueprints/entity.py:152-198"]}
{"id": "C76", "title": "The order in which entities are made does not matter unless two of them share a position", "statement": "Start from a blueprint without entities, wires and schedules and make entities from the same descriptions in two different orders, each call succeeding. If no two of the entities are at the same position, Blueprint.to_json() gives the same result, or raises the same exception, for both orders. If the descriptions can be made in one order, they can be made in every order. With two entities at one position this is refuted: the order of making decides which of them comes first and gets the lower number.", "quantifier": "for all reachable states, all such blueprints in them, all lists of descriptions that can be made, and all permutations of these", "why_tests_cant": "there are n! orders of n descriptions", "anchors": ["py_factorio_blueprints/blueprint.py:67-95", "py_factorio_blueprints/blueprint.py:109-116", "py_factorio_blueprints/blueprint.py:129-134", "py_factorio_blueprints/blueprint.py:274-293", "py_factorio_blueprints/entity.py:255-264"]}
{"id": "C77", "title": "Loading a document without wires is the same as making its entities one by one", "statement": "Take a blueprint without entities and wires and a document whose entities have no 'connections'. If load() of the document returns, every entity description in it can also be passed to entities.make(), one after the other, without an exception. Both ways leave the same list of entities in the same order, each equal in every attribute including its number and in what it exports on its own, and no wires; and when both blueprints can be exported, the 'entities' of the two documents are equal. With 'connections' in the descriptions this is refuted: make() keeps them unread, so the wires are there after load() and missing after make().", "quantifier": "for all reachable states, all such blueprints in them, and all documents that load", "why_tests_cant": "relates two entry points on every document; a test compares them on one", "anchors": ["py_factorio_blueprints/blueprint.py: BlueprintLayer.make, BlueprintLayer._load, BlueprintLayer.sort, Blueprint.load, Blueprint.parse_connections", "py_factorio_blueprints/entity.py: Entity.__init__"]}
{"id": "C78", "title": "The order of the entities in a document does not matter unless two of them share a position", "statement": "Load two documents into the same blueprint without entities and wires, where the entities of the second are those of the first in another order and none has 'connections'. If both calls of load() return and no two of the loaded entities are at the same position, the entities of the two blueprints, taken in order, have the same documents (or the same exceptions), whatever else the documents say; and when both blueprints can be exported, the 'entities' of the two exports are equal. With two entities at one position this is refuted: the one that comes first in the document gets the lower number.", "quantifier": "for all reachable states, all such blueprints in them, all documents that load, and all permutations of their entities", "why_tests_cant": "there are n! orders of n entities", "anchors": ["py_factorio_blueprints/blueprint.py: BlueprintLayer._load, BlueprintLayer.sort, BlueprintLayer.to_json, Blueprint.load, Blueprint.to_json", "py_factorio_blueprints/entity.py: Entity.__init__"]}
{"id": "C79", "title": "An entity moved to another blueprint says there what it said before, but for its number", "statement": "Take an entity out of one blueprint with entities.remove() and put it into another with entities.add(), both calls returning. If no wire of either blueprint ends at it, its to_json() afterwards is the one it had before with entity_number replaced by its place in the new list (or the same exception). The same holds for every entity without wires that was in the second blueprint already; every entity without wires left in the first one exports exactly what it did. For entities with wires this is refuted: the moved entity loses its wires, and the other end goes on listing them, with the number the entity has in its new blueprint.", "quantifier": "for all reachable states, all pairs of different blueprints in them and all entities of the first", "why_tests_cant": "quantifies over every history of both blueprints, every kind of entity and every position it is moved to", "anchors": ["py_factorio_blueprints/blueprint.py: BlueprintLayer.add, BlueprintLayer.remove, BlueprintLayer.sort", "py_factorio_blueprints/entity.py: Entity.to_json, Entity.connections_to_json"]}
