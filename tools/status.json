{
 "C06": [
  "proved",
  ""
 ],
 "C07": [
  "proved",
  ""
 ],
 "C08": [
  "proved",
  ""
 ],
 "C09": [
  "proved",
  ""
 ],
 "C10": [
  "proved",
  "the reflected % with a float on the left returns None: C10_rmod_float_refuted"
 ],
 "C11": [
  "proved",
  ""
 ],
 "C12": [
  "proved",
  "the failing part (arbitrary floats) is C12_round_refuted"
 ],
 "C13": [
  "proved",
  ""
 ],
 "C51": [
  "proved",
  ""
 ],
 "C01": [
  "proved",
  "strings with a high surrogate directly followed by a low one are excluded (JSON merges them)"
 ],
 "C02": [
  "proved",
  ""
 ],
 "C03": [
  "proved",
  ""
 ],
 "C04": [
  "proved",
  "base64 acceptance is stated against an independent grammar; the JSON grammar itself is the modelled parser, shown total"
 ],
 "C05": [
  "proved",
  ""
 ],
 "C14": [
  "proved",
  "flip_color excluded, refuted by C14_recolour_refuted"
 ],
 "C15": [
  "proved",
  ""
 ],
 "C19": [
  "proved",
  ""
 ],
 "C20": [
  "proved",
  ""
 ],
 "C21": [
  "proved",
  ""
 ],
 "C22": [
  "proved",
  ""
 ],
 "C23": [
  "proved",
  "grid coordinates; floats refuted by C23_float_refuted"
 ],
 "C24": [
  "proved",
  ""
 ],
 "C38": [
  "proved",
  ""
 ],
 "C45": [
  "proved",
  ""
 ],
 "C49": [
  "proved",
  ""
 ],
 "C16": [
  "proved",
  ""
 ],
 "C17": [
  "proved",
  "C17_sides_refuted is the failing example"
 ],
 "C18": [
  "proved",
  "the second theorem excludes histories using flip_color"
 ],
 "C48": [
  "proved",
  ""
 ],
 "C46": [
  "proved",
  "C3 merge proved sound and complete for all lists; composition proved for every mixin list, every prototype type and every reachable entity. Passing Entity itself as a mixin is outside the model."
 ],
 "C25": [
  "proved",
  "can_turn: finite valid positions about the origin, or grid positions and centre; orientations on the 1/256 grid."
 ],
 "C26": [
  "proved",
  "State equality; the identity needs no -0.0 coordinate and a sorted layer (example of -0.0)."
 ],
 "C27": [
  "proved",
  "Entities: equality of the whole step. The inverse claim is refuted by a witness; tiles: exact on the grid."
 ],
 "C28": [
  "proved",
  "Exactness is in the record turned of C25; floats off the grid refuted by a witness."
 ],
 "C29": [
  "proved",
  "Points on which the collision test is exact are the subject of C23; here box membership is exact arithmetic."
 ],
 "C30": [
  "proved",
  "Orientation multiples of 1/256; drift of 0.1 is an example."
 ],
 "C42": [
  "proved",
  "corner_points are the exact values of the computed corners (C52 relates them to position and box)."
 ],
 "C43": [
  "proved",
  "Exact movement on the 1/256 grid; the success case is unrestricted."
 ],
 "C44": [
  "proved",
  "Never returns: unrestricted. Kind of error: TypeError or OverflowError; TypeError below 4096 grid entities."
 ],
 "C52": [
  "proved",
  "Rectangle: all floats. Exact corners: grid positions and boxes."
 ],
 "C31": [
  "proved",
  "Names that are strings; make, Entity(...) and load."
 ],
 "C37": [
  "proved",
  "doc_spent describes exactly what may be missing; conditions_emptied for entities checked against the tables and types without custom mixins."
 ],
 "C39": [
  "proved",
  "Documents holding a bare dictionary, loaded into a blueprint without entities."
 ],
 "C40": [
  "proved",
  "Icons given as a signal name or dictionary and an int index."
 ],
 "C41": [
  "proved",
  "Schedules and locomotives given as lists."
 ],
 "C32": [
  "proved",
  ""
 ],
 "C33": [
  "proved",
  ""
 ],
 "C36": [
  "proved",
  ""
 ],
 "C34": [
  "proved",
  "well-formedness (SpecTrip.v) excludes inputs the exporter normalises: direction 0, defaults written for belts, drills and speakers, integer volumes"
 ],
 "C50": [
  "proved",
  ""
 ],
 "C47": [
  "proved",
  "Same type: export equal up to the name, for every history without set_mixins on the entity. Other types: AttributeError / unchanged settings (the latter for entities without a control behaviour) / TypeError, from the type the entity was made as."
 ],
 "C35": [
  "proved",
  "No tiles, since documents with tiles never load (C38); wires from an entity to itself are excluded; the blueprint has no label colour yet or the document gives one."
 ],
 "C53": [
  "proved",
  ""
 ],
 "C54": [
  "proved",
  ""
 ],
 "C55": [
  "proved",
  "the skewed-wire case is refuted by a witness; the hypotheses (zlib lossless, the types in the signal table are strings) are stated"
 ],
 "C56": [
  "proved",
  "reflexivity with self-loops and equality of copies are refuted by witnesses"
 ],
 "C57": [
  "proved",
  "zlib is an oracle: lossless is a stated hypothesis"
 ],
 "C58": [
  "proved",
  "the natural claim that a refused value changes nothing is refuted for request_filters by a witness; attributes holding objects (items, filters) are not assigned in the model"
 ],
 "C59": [
  "proved",
  "zlib is an oracle (any decompress function); Python's recursion and digit limits are outside the model"
 ],
 "C60": [
  "proved",
  "For every reachable state. Witnesses: two wired lamps loaded twice; a drawn wire lost by loading a document with nothing but a label."
 ],
 "C61": [
  "proved",
  "One theorem with a case for each place where the call can stop; the claim that a failed load changes nothing is refuted. Entities given as a string, and NaN positions, are outside the model."
 ],
 "C62": [
  "proved",
  "The specification is the distance-minimising definition of rounding (SpecRound.v), independent of the shift-and-round algorithm of the model, and is shown to determine the result. Exact floor division beyond 2^48 is refuted by a witness."
 ],
 "C63": [
  "proved",
  "Both directions: the text has the described form, and nothing else does. The specification says what shortest, nearest and even mean by distances between exact numbers, independent of the digit search of the model. That the shortest decimal is always the shortest text is refuted."
 ],
 "C64": [
  "proved",
  "Equivalence between the model and a relational description, and uniqueness of the described text. Strings that are no Python strings (malformed generalised UTF-8) have no text on either side. Python objects json.dumps refuses (e.g. Vector, Enum) are outside the value type."
 ],
 "C65": [
  "proved",
  "Operators follow CPython's binary operator protocol (subclass of int with overridden __add__, NotImplemented falls back to the other operand). Three expected laws are refuted with witnesses: division is disabled, addition commutes, a float always gives one of eight directions. Operands that are neither numbers nor Directions are outside."
 ],
 "C66": [
  "proved",
  "Equivalence with an inductive specification for the constructor and the assignments; export and reading back for every condition reachable by assignments. Reading back every export is refuted (two-signal conditions)."
 ],
 "C67": [
  "proved",
  "Relational specification per setting; the model satisfies it for every value, and it is decided wherever the model is (texts given to float(), bools and texts as numbers to compute with, non-ASCII digits, float or None indices are outside). The three attributes that hold a part of an exported object (inventory_bar, infinity_remove, infinity_filters) have their own theorem about which values are taken."
 ],
 "C68": [
  "proved",
  "Filters and the parameters of speakers are not among the attributes of this property. The statement about the export needs the attribute to belong to one class of the behaviour, which holds for all classes in the package, and that the entity could be exported before. For combinators the behaviour is of the class of the package itself, and sides of a decider are covered when no constant was exported before; the other case is C68_a_decider_loses_a_constant_refuted. Falsy values other than None, 0, the empty text and dictionaries are outside the model as signals."
 ],
 "C69": [
  "proved",
  "For entities of the package's own types (no custom class for the type). Inputs outside the model are excluded by name: texts as numbers (position or direction given as text), and the falsy signal values of C68. When there are several faults the exception is that of one of them; which one is not said."
 ],
 "C70": [
  "proved",
  "For entities of the package's own types (no custom class for the type), whose making and export succeed (C69 says when making does). The keys entity_number and connections are not described here; C16-C19 and C36 are about them."
 ],
 "C71": [
  "proved",
  "Connections: names without quotes (refuted otherwise), colours red and green. Signals: names without commas. repr and str of Direction are part of C65."
 ],
 "C72": [
  "proved",
  "Types whose class was not replaced in the blueprint; descriptions whose floats are doubles."
 ],
 "C73": [
  "proved",
  "C73_wires assumes that the numbers of the ends are None, integers or texts; other kinds of numbers are outside the model."
 ],
 "C74": [
  "proved",
  "Blueprints that have wires or entities at the start are not covered by C74; C73 describes their documents from the state."
 ],
 "C75": [
  "proved",
  ""
 ],
 "C76": [
  "proved",
  ""
 ],
 "C77": [
  "proved",
  ""
 ],
 "C78": [
  "proved",
  ""
 ],
 "C79": [
  "proved",
  ""
 ]
}