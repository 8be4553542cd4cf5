# A formal model of python-factorio-blueprints in Rocq/Coq 8.16

## Approach

Every Python function behind the API is re-written as a total, executable Gallina function,
branch by branch, with exceptions as values (`res A = Ok a | Err exn`) and, for mutating methods,
explicit state in and out: the state a *raising* call leaves behind is modelled too.  Every
definition cites the lines of /repo it follows.  Programs are lists of API operations (`op`,
`step`, `run` in `World.v`); "every history" in a property is the inductive predicate
`reachable` in `SpecWorld.v`, which includes failing calls.

Statements use small separate specifications (`Spec*.v`) written without the model's helper
functions wherever an independent notion exists (exact rational values, unordered wires, permutations,
stable order, document grammars, lists of keys).  Proof files (`*Facts.v`, `*Proofs.v`, `*Trip.v`)
prove lemmas; `Props_*.v` hold only the property theorems, each closed with `exact` and followed by
`Print Assumptions`, with concrete `Example`s beside them.

| file | content |
|------|---------|
| `Py.v` | exceptions, Python values (`val`: None/bool/int/float/str/list/dict), dict operations |
| `Num.v` | Python numbers: unbounded ints and IEEE binary64 floats (stdlib `SpecFloat`), mixed arithmetic, exact comparison, `/`, `//`, `%`, `int()`, floor/ceil |
| `Util.v` | `int(str)`, `Color`, `Direction`, `Vector`, `Connection`, `Tile`, `NameStr`, ... (util.py) |
| `Values.v` | the operators of `Direction`, `Condition`, `NameStr.type`, `SignalID` (util.py 114-304), which entities do not use |
| `Text.v`, `Json.v`, `Codec.v` | UTF-8, base64, `json.dumps`/`loads`, exchange strings (util.py 8-47) |
| `C3.v`, `Classes.v` | C3 linearisation, the mixin classes, `ControlBehaviorMeta`, `add_mixins`/`set_mixins`, entity_prototypes.py |
| `Mixins.v` | every mixin's `__init__`/`to_json`/`rotate` and every nested ControlBehavior (entity_mixins.py), run along an arbitrary method resolution order |
| `Entity.v` | `Entity.__init__`, `name`, `rotate`, `selection_box`, corners, `collides` (entity.py) |
| `Setters.v` | assignments to the attributes of the mixins and of the control behaviours (the property setters and descriptors of entity_mixins.py) |
| `World.v` | heap of entities and blueprints, `BlueprintLayer`, `Blueprint`, wires, load, export, bounding box, recenter, prototype tables; `op`, `step`, `run` (blueprint.py) |
| `BpString.v` | `Blueprint.__init__` with a string, `to_string`, `to_json_string`, `__eq__` (blueprint.py 184-214, 295-300) |
| `Repr.v` | `__repr__` and `__str__` of Vector, Color, SignalID, Connection (util.py) and Entity (entity.py) |
| `DefaultEntities.v`, `EntityData.v` | generated by tools/gen_data.py from defaultentities.py and entity_data.json |
| `Demo.v` | small concrete programs used by the examples |
| `SpecUtil` `SpecVector` `SpecCodec` `SpecWorld` `SpecRotate` `SpecGeom` `SpecDoc` `SpecClass` `SpecEntity` `SpecTrip` `SpecName` `SpecRename` `SpecBlueprint` `SpecStrict` `SpecFrame` `SpecReload` `SpecEqual` `SpecAttr` `SpecRound` `SpecJson` `SpecLoad` `SpecArith` `SpecShort` `SpecWrite` `SpecValues` `SpecSetting` `SpecBehaviour` `SpecMake` `SpecExport` `SpecRepr` `SpecShow` `SpecParts` `SpecBuild` `SpecTake` `SpecOrder` `SpecSame` `SpecShuffle` `SpecMove` `SpecCompass` | specifications |
| `DictFacts` `NumFacts` `RoundFacts` `TextFacts` `JsonFacts` `JsonTotal` `UtilFacts` `SortFacts` `WorldFacts` `SetFacts` `ChainFacts` | facts about the model |
| `Inv` `EntInv` `ClassProofs` `PersistProofs` `KeepProofs` `GrowProofs` | invariants of all histories |
| `UtilProofs` `VectorProofs` `CodecProofs` `DecodeProofs` `C3Proofs` `LayerProofs` `WireProofs` `ExportProofs` `ParseProofs` `RotateProofs` `TurnProofs` `GeomProofs` `DocProofs` `CbProofs` `EntProofs` `TripProofs` `EntTrip` `NameProofs` `RenameProofs` `BlueTrip` `StrictProofs` `FrameProofs` `FrameStep` `ShapeProofs` `JeqProofs` `ReloadProofs` `KeyedProofs` `KeyedLoad` `ReloadTrip` `StringTrip` `EqualProofs` `AttrProofs` `RoundProofs` `JsonGrammar` `CodecGrammar` `LoadProofs` `ArithProofs` `FloorProofs` `ShortProofs` `ShortText` `ShortUnique` `WriteProofs` `ValuesProofs` `SettingProofs` `BehaviourProofs` `MakeProofs` `ShownProofs` `ReprProofs` `ShowProofs` `PartsProofs` `BuildProofs` `TakeProofs` `OrderProofs` `SameProofs` `ShuffleProofs` `MoveProofs` `CompassProofs` | the proofs |
| `Props_*.v` | the property theorems and examples |

## What is not modelled

Each of these is repeated at the definition concerned.

* zlib is an oracle: the codec theorems quantify over any `compress`/`decompress` pair with
  `decompress (compress b) = Some b`.
* Python recursion limits, the int/str digit limit, memory exhaustion, logging and warnings.
* Python strings are represented by (generalised) UTF-8 bytes, lone surrogates included.
* Inputs of types outside the model (a string as a coordinate, non-ASCII digits given to `int()`,
  boolean colour channels, `Entity` itself passed as a mixin, ...) give `Err EUnmodelled`.  No
  theorem counts this outcome as success or as a Python exception.
* `list.sort` is modelled by stable insertion sort; NaN coordinates (for which CPython's result depends
  on the algorithm) are `EUnmodelled`.
* Object identity of dictionaries: entities keep no reference to the caller's document except
  where the code mutates it (`load` threads the document through, C37).
* Assignments to the attributes of an entity or of its control behaviour are the operations
  `OSetAttr` and `OSetCb`.  Those that hold objects are not modelled: `items` and `filters` of an
  entity, `filters` and `circuit_parameters` of a control behaviour, `inventory_filters`; nor is
  `orientation` on an entity whose class lacks `Train`.

## Trusted base

* Coq's kernel (8.16.1, including `vm_compute`) and the standard library.
* The reading of the Python source recorded in the comments, and of CPython's `json`, `base64`,
  `int()`, float arithmetic and C3.  `tools/crosscheck.py` compares the number, JSON, UTF-8,
  base64 and `int()` models with CPython on random inputs (a test of the reading, not a proof;
  it found that `int()` does not skip the characters 28-31, since corrected).
* The generated tables in `DefaultEntities.v` and `EntityData.v` (used by examples and by C46, C50).

`Print Assumptions` reports "Closed under the global context" for every theorem in `Props_*.v`:
no axioms, neither own nor from the standard library.  (`coqchk -o` on the whole development also
lists seven fields of the module type `Coq.ssr.ssrunder.UNDER_REL`'s sealed instance, which are
loaded with the standard library's ssreflect files and used by no theorem here.)

## Per property

Plans as made before the proofs, updated to what was proved.

* **C01-C05 exchange strings** (`Props_Codec`): JSON printing/parsing, UTF-8 and base64 are modelled
  exactly.  `json.loads` after `json.dumps` by structural induction over values (`JsonFacts`; floats print as the
  shortest decimal that reads back, so the round trip only needs the "reads back" test);
  base64 by arithmetic on 3-byte groups; totality of the parser in `JsonTotal`; error
  classification by case analysis, base64 acceptance against the grammar in `SpecCodec`.
* **C06-C13, C51 value classes** (`Props_Util`, `Props_Vector`): exact values `nval : num -> ext` (a
  rational, an infinity or NaN) are the specification for colours, comparison and rounding; float exactness on the
  1/256 grid by an integer rounding lemma for `SpecFloat` (`NumFacts`).  False for arbitrary floats:
  `C12_round_refuted`, `C10_rmod_float_refuted`.
* **C14, C15, C19-C24, C38, C45, C49 layers** (`Props_Layer`): the invariant `inv` (`Inv.v`) is preserved by every
  `step`; order and numbering through uniqueness of stable sorting (`SortFacts`).
  `C14_recolour_refuted`, `C23_float_refuted`.
* **C16-C18, C21, C22, C48 wires** (`Props_Wire`): reading `get_connections` flips wires in place, so exports are compared
  up to the relation `sim` (same heap up to turned wires); exported entries are counted with `Permutation`.
  `C17_sides_refuted`.
* **C25-C30 rotation** (`Props_Rotate`): per-entity lemma lifted over the layer; state equality for C26;
  exactness on the grid for C28, C29.  Counter-clockwise and asymmetric boxes: `_refuted`.
* **C31, C37, C39-C41 documents** (`Props_Doc`): load with the caller's document threaded through.
* **C32-C34, C36 entity descriptions** (`Props_Entity`, `Props_Trip`): `SpecEntity.formats` lists for each of the 62
  prototype types the keys of the description and of the control behaviour; per-mixin lemmas are
  composed along an arbitrary method resolution order (`ChainFacts`).  Well-formed values: `SpecTrip`.
* **C35 whole blueprints** (`Props_Blue`): `SpecBlueprint.whole` / `same_blueprint`; composes C34 over the entity
  list, C48 (wires), C16 (exported wires), C21 (numbers), C40 (icons), C41 (schedules).
* **C53 strict flag** (`Props_Strict`): `SpecStrict.same_call` relates histories; every monadic operation commutes with
  erasing the flag (`StrictProofs.com`).
* **C54 frame** (`Props_Frame`): `SpecFrame` says what a document depends on and what a call is made on; an invariant
  `FrameProofs.PP` with a growing list of foreign entities is kept by every operation, and the export is shown to be a function
  of the blueprint, the entities it depends on and the tables (`FrameStep.rl`).
* **C55 copies** (`Props_Reload`): the export of a loaded document is shown to be a JSON document without repeated keys
  (`KeyedProofs`, `KeyedLoad`), so it survives the codec (C01) as `as_document o`, which is again a well-formed document;
  C35 applies a second time (`ReloadProofs`, `ReloadTrip`).
* **C56 equality** (`Props_Equal`): exports are insensitive to turned wires (C18, `ExportProofs.bp_json_sim`) and strings
  determine documents (C03).
* **C57 decoded documents** (`Props_Codec`): every value the JSON parser returns is `json_like` (`DecodeProofs.parse_fine`);
  for floats this needs that rounding a decimal fraction gives a valid binary64 number (`RoundFacts`).
* **C58 assignments** (`Props_Attr`): every setter writes a fixed set of attributes whatever they held before (`set_at_uniform`), and
  a constructor link run with one more keyword writes the same (`link_sets`, `retake_key`); moved through the chain of links this gives
  the entity made with the keyword.  Registration in the blueprint does not look at the attributes (section `Later`).  For the exports:
  each link writes its own keys from its own attributes (`link_frame`, `chain_frame`, `chain_value`); other entities by the twin
  argument of C47.  Refuted part: refused lists (`C58_refused_requests_refuted`).
* **C59 grammar** (`Props_Grammar`): `SpecJson` gives JSON, base64 with values and UTF-8 as inductive grammars, `SpecRound` the
  nearest float.  The scanner is sound by induction on its fuel (`parse_sound`) and complete by mutual induction on derivations
  (`parse_complete`); numbers need that rounding picks the nearest float and that this float is unique
  (`RoundProofs.round_aux_rounds`, `rounded_unique`).
* **C60, C61 repeated and failing loads** (`Props_Load`): each phase of `load` is described for both outcomes (`head_cases`,
  `entities_cases`, `parse_cases`, `tail2_cases`) and composed in `inner_cases`.  Which entity a number denotes: the list is
  sorted stably, so of two entities at one place the older comes first (`first_is_old`).
* **C62 rounded arithmetic** (`Props_Arith`): `ArithProofs` shows for each of + - * / that the float operation of the model is
  the nearest float to the exact result in units of 2^-1074 (`fadd_one`, `fmul_one`, `fdiv_one`), that fmod is exact (`fmod_one`)
  and % therefore rounded once (`fmodulo_one`). `FloorProofs`: up to 2^48 the rounded difference and quotient stay within 1/4 of
  the whole quotient and the last steps of `float_floor_div` repair it (`last_steps_ok`, `ffloordiv_one`); a search in Python gave
  the witness of the refutation. The specification is functional (`p_C62_determined`).
* **C63 shortest decimals** (`Props_Short`): the decimals that denote a float form an interval (`rounds_between`), so of the
  decimals with k digits only the two neighbours of the float need trying (`level_near`, `level_other`, `level_shortest`), and
  with 17 digits the nearer one always denotes it (`float_gap`, `close_rounds`, `seventeen`). Proving this showed that an earlier
  model, which tried only the nearer neighbour, disagreed with CPython on 46 powers of two; `Json.candidates` now tries both
  and agrees with `repr` on every power of two, the subnormal ones and 60000 random doubles. `ShortText` proves the layout,
  `ShortUnique` that decimal and layout determine the text.
* **C64 what is written** (`Props_Write`): `written` relates objects and texts clause by clause. The model's text satisfies it
  (`text_written`, by induction on the object), the relation is functional (`written_inj`), so they coincide; likewise base64
  (`b64_written_ok`, `b64_written_inj`).
* **C65 Direction operators** (`Props_Values`): the plain-number cases reuse the rounding lemmas of C62. For floats, % 8 is
  correctly rounded (`fmodulo_one`) and 8 is the nearest float to a remainder exactly when that is within half a unit in the last
  place of 8 (`near_below_eight`).
* **C66 conditions** (`Props_Values`): each inductive of `SpecValues` is shown equivalent to the model's function
  (`named_is`, `first_is`, `second_is`, `given_is`, `cmp_is`); assignments keep `sound`, from which the document follows.
* **C67 settings** (`Props_Setting`): `SpecSetting.setting` relates a value to the exception or to what the export holds; its steps
  are chained with `let?` (the first error counts). `describes P x` says that P holds of x alone and, unless x is outside the
  model, does hold of it; each conversion of the library is described by its clause and `d_then` chains them. The loops that fill
  tables are `mapM` followed by `table` (`fill_table`), whose result is the only list that is `collected`. Found missing by
  mutation n01.
* **C68 control behaviours** (`Props_Behaviour`): `SpecBehaviour.behaviour` is the table of attributes and their kinds, `taken` what
  each kind takes, `shown_as` the places in the exported control behaviour and their contents, `at_path` reads a document at a path.
  The proof brings the export of every class into the form of a row of independent writers (`writers`), each with one key and one
  attribute (the circuit condition: three), and shows that changing what one writer reads changes its own key only
  (`writes_change`). That BaseMixin ends the class list of every control behaviour is an invariant of all histories (`stable_shaped`).
  Combinators write all their parts into one dictionary: `part_taken` and `part_shown` describe the parts, and the export of the
  conditions is one such row inside the field of the class. The parts of a decider share the key `constant`, so the sides are
  covered when it was absent before; `C68_a_decider_loses_a_constant_refuted` is the other case.
* **C69 faults of a description** (`Props_Make`): `SpecMake.fault` lists the parts of a description of an entity that can be wrong, each
  with its exception, without an order. `MakeProofs.guards F r` says: `r` is fine and nothing in `F` holds, or `r` raises something in `F`, or
  `r` is outside the model; the constructors of the mixins are walked through with lemmas for each way of putting computations together. From
  this: an exception of `construct` is a fault, a made entity has none, `make` leaves the world unchanged, a loaded document has none.
* **C70 export of a made entity** (`Props_Made`): `SpecExport` says how a described value shows: settings and attributes by the relations of
  C67 and C68, items, filters, parameters and the conditions of combinators by relations of their own. The proofs follow the keywords through
  the constructors of the mixins into the attributes (`format_shape`, `cb_part`), and the attributes into the document.
* **C71 texts** (`Props_Repr`): numbers are written by the relations of C63 and C64, which are injective because they read back; the parts are
  told apart by the first comma or the last quote. `C71_connection_any_name_refuted`: names are not escaped.
* **C72 exports that fail** (`Props_Show`): the attributes the mixins have just stored can always be written (`mats_writes`), a new entity has no
  wires (`made_wires`), so only the control behaviour is left; a writer that fails is traced to its attribute (`writer_err`, `filters_err`,
  `combinator_fails`). The converse is C70 and that the relations of C68 are functions.
* **C73 parts of a document** (`Props_Parts`): exporting another entity turns wires but not the loops of this one (`keep`, from C18), and what this
  one exports does not see other turns (`mine_keep`, `ent_json_keep`), so the list of exports is a `mapM` over the state before (`mapMM_alone`,
  `doc_eq`). Wires: the sort keys of `get_connections` all start with the entity's own number (`turn_from`).
* **C74 building** (`Props_Build`): one call of `make` renumbers the old entities and changes nothing else of them (`make_step`); an export without wires
  depends on the number only in its first key (`json_chain_number`, `bare_number`). The invariant `built` carries this along the sequence;
  `reordered` of C21 composes because positions do not change. C73 then assembles the document.
* **C75 taking out** (`Props_Take`): an export sees other entities only through their numbers and kinds (`conns_json_same`), and these stay (`dropped`, C22 and
  C23). Putting back: two lists in order that are permutations of each other and agree at each position are equal (`order_unique`), and
  numbering a numbered list changes nothing.
* **C76 order of making** (`Props_Order`): what an entity exports when it is new depends, but for the number, on its description only (`make_what`,
  `builds_says`); the lists of C74 for the two orders are permutations of each other, sorted, and without two entries at one
  position, so they are equal (`sorted_same`). A description can be made whatever was made before (`make_can`).
* **C77 load and make** (`Props_Same`): both ways construct each description with the same tables (`load_ents` from C60, `builds_ents` from C74), so the
  objects differ at most in their numbers; both lists are the same objects, stably sorted, hence equal (`order_unique`), and the numbers
  follow the list. No wire can come from a description without 'connections' (C48). A load that returns has sorted all positions, so
  each description can be made (`load_clear`, `builds_can`).
* **C78 order in the document** (`Props_Shuffle`): by C77 each load can be replaced by making the entities one by one, and C76, entry by entry
  (`built_each`, `made_alike`), compares these.
* **C79 moving** (`Props_Move`): the state after the two calls is computed (`moved_world`); without wires the export of an entity depends on the entity
  and the tables only (`alone_unwired`), and the blueprint it belongs to does not show in it (`bare_layer`).
* **C42-C44, C52 geometry** (`Props_Geom`): fold invariants over exact values.
* **C46 classes** (`Props_Class`): the C3 merge is sound and complete for its specification; finite sweep over the
  prototype table by `vm_compute` for "succeeds", general lemmas for the rest.
* **C47 renaming** (`Props_Rename`): a preorder on entities that every operation respects (`GrowProofs`) gives the
  attributes an entity is sure to have.
* **C50 names** (`Props_Name`): the value at a name slot decides acceptance, by the per-mixin lemmas.

## Mutation testing

`seeded/LOG.jsonl` records each wrong program tried: one definition of the model edited in a scratch copy,
everything rebuilt (proofs that fail replaced by `Admitted`, so that all failures are seen), the theorems
that no longer hold compared with the claims the edit falsifies, and theorems tightened when a claim had become
false but its theorems still proved.
