{
 "un-join-empty": {
  "note": "C70 is refuted in the code and stays refuted under this edit; the theorems about unions fail."
 },
 "f-list-keeps": {
  "tightened": [
   "C30_json_map_is_evaluation",
   "C30_native_map_is_evaluation",
   "C30_dict_map_is_evaluation"
  ],
  "note": "The evaluator of C30 used the model's own keep; it now says itself which items are kept."
 },
 "b-attach-src": {
  "tightened": [
   "C81_place",
   "C81_flat"
  ],
  "note": "The theorems about built fields spoke of the place of the field; C81, added for this, says which place it is."
 },
 "b-tuple-src": {
  "note": "C80 says nothing about where the tuple reads; C81 now does",
  "tightened": [
   "C81_place"
  ]
 },
 "cfg-location": {
  "note": "preserve_whitespace without a location is C84's (C84_no_text fails); C85 says nothing of it",
  "tightened": []
 },
 "a0000": {
  "tightened": [
   "C83_method_names",
   "C83_last"
  ],
  "note": "Found by changing one token of the model at random; no theorem failed at first, and the ones named were added or strengthened for it. This is the run after that."
 },
 "a0037": {
  "tightened": [
   "C83_own_names",
   "C83_last"
  ],
  "note": "Found by changing one token of the model at random; no theorem failed at first, and the ones named were added or strengthened for it. This is the run after that."
 },
 "a0003": {
  "tightened": [
   "C90_lines"
  ],
  "note": "Found by changing one token of the model at random; no theorem failed at first, and the ones named were added or strengthened for it. This is the run after that."
 },
 "a0022": {
  "tightened": [
   "C92_nan_stored",
   "C92_nan_raises"
  ],
  "note": "Found by changing one token of the model at random; no theorem failed at first, and the ones named were added or strengthened for it. This is the run after that."
 },
 "a0122": {
  "tightened": [
   "C92_nan_stored",
   "C92_nan_raises"
  ],
  "note": "Found by changing one token of the model at random; no theorem failed at first, and the ones named were added or strengthened for it. This is the run after that."
 },
 "a0026": {
  "tightened": [
   "C55_failed_probe"
  ],
  "note": "Found by changing one token of the model at random; no theorem failed at first, and the ones named were added or strengthened for it. This is the run after that."
 },
 "a0028": {
  "tightened": [
   "C09_no_text"
  ],
  "note": "Found by changing one token of the model at random; no theorem failed at first, and the ones named were added or strengthened for it. This is the run after that."
 },
 "a0036": {
  "tightened": [
   "C55_no_data"
  ],
  "note": "An error case of the source of a form; no theorem failed at first. It is C55_no_data that says it, not C42."
 },
 "a0054": {
  "tightened": [
   "C78_odd"
  ],
  "note": "Found by changing one token of the model at random; no theorem failed at first, and the ones named were added or strengthened for it. This is the run after that."
 },
 "a0056": {
  "tightened": [
   "C87_odd_key"
  ],
  "note": "Found by changing one token of the model at random; no theorem failed at first, and the ones named were added or strengthened for it. This is the run after that."
 },
 "a0063": {
  "tightened": [
   "C35_stopped"
  ],
  "note": "Found by changing one token of the model at random; no theorem failed at first, and the ones named were added or strengthened for it. This is the run after that."
 },
 "a0069": {
  "tightened": [
   "C58_invalid"
  ],
  "note": "Found by changing one token of the model at random; no theorem failed at first, and the ones named were added or strengthened for it. This is the run after that."
 },
 "a0074": {
  "tightened": [
   "C61_list_raises"
  ],
  "note": "Found by changing one token of the model at random; no theorem failed at first, and the ones named were added or strengthened for it. This is the run after that."
 },
 "a0104": {
  "tightened": [
   "C91_elsewhere"
  ],
  "note": "Found by changing one token of the model at random; no theorem failed at first, and the ones named were added or strengthened for it. This is the run after that."
 },
 "a0131": {
  "tightened": [
   "C50_field_required",
   "C50_field_raising"
  ],
  "note": "Found by changing one token of the model at random; no theorem failed at first, and the ones named were added or strengthened for it. This is the run after that."
 },
 "a0159": {
  "tightened": [
   "C50_field_raising"
  ],
  "note": "Found by changing one token of the model at random; no theorem failed at first, and the ones named were added or strengthened for it. This is the run after that."
 },
 "a0166": {
  "tightened": [
   "C84_no_text"
  ],
  "note": "Found by changing one token of the model at random; no theorem failed at first, and the ones named were added or strengthened for it. This is the run after that."
 },
 "a0168": {
  "tightened": [
   "C72_default"
  ],
  "note": "Found by changing one token of the model at random; no theorem failed at first, and the ones named were added or strengthened for it. This is the run after that."
 },
 "a0169": {
  "tightened": [
   "C23_unhashable"
  ],
  "note": "Found by changing one token of the model at random; no theorem failed at first, and the ones named were added or strengthened for it. This is the run after that."
 },
 "a0183": {
  "tightened": [
   "C15_strict_value_unchanged"
  ],
  "note": "Found by changing one token of the model at random; no theorem failed at first, and the ones named were added or strengthened for it. This is the run after that."
 },
 "a0188": {
  "tightened": [
   "C61_root"
  ],
  "note": "Found by changing one token of the model at random; no theorem failed at first, and the ones named were added or strengthened for it. This is the run after that."
 },
 "a0196": {
  "tightened": [
   "C93_accepts"
  ],
  "note": "Found by changing one token of the model at random; no theorem failed at first, and the ones named were added or strengthened for it. This is the run after that."
 },
 "a0250": {
  "tightened": [
   "C23_unhashable"
  ],
  "note": "Found by changing one token of the model at random; no theorem failed at first, and the ones named were added or strengthened for it. This is the run after that."
 },
 "a0253": {
  "tightened": [
   "C25_not_a_text"
  ],
  "note": "Found by changing one token of the model at random; no theorem failed at first, and the ones named were added or strengthened for it. This is the run after that."
 },
 "a0257": {
  "tightened": [
   "C25_not_a_text"
  ],
  "note": "Found by changing one token of the model at random; no theorem failed at first, and the ones named were added or strengthened for it. This is the run after that."
 },
 "a0266": {
  "tightened": [
   "C25_not_a_text"
  ],
  "note": "Found by changing one token of the model at random; no theorem failed at first, and the ones named were added or strengthened for it. This is the run after that."
 },
 "a0282": {
  "tightened": [
   "C16_answers"
  ],
  "note": "Found by changing one token of the model at random; no theorem failed at first, and the ones named were added or strengthened for it. This is the run after that."
 },
 "a0301": {
  "tightened": [
   "C94_number"
  ],
  "note": "Found by changing one token of the model at random; no theorem failed at first, and the ones named were added or strengthened for it. This is the run after that."
 },
 "a0016": {
  "tightened": [],
  "note": "The model refused choices that are no list when the field is built, the code when a value is validated. The model now says that such fields are not modelled."
 },
 "a0123": {
  "tightened": [],
  "note": "The text of a path outside any mapping: no property speaks of it, and no error is reported there."
 },
 "a0143": {
  "tightened": [],
  "note": "Only the text of the AttributeError for an attribute of ERROR; properties speak of the kind of the exception."
 },
 "a0213": {
  "tightened": [],
  "note": "The case is not reached: paths are looked up by numbers that exist."
 },
 "a0233": {
  "tightened": [],
  "note": "Munge hooks get exactly one argument; the other case is not reached."
 },
 "a0293": {
  "tightened": [],
  "note": "A field with a compute hook that gives a constant never reads its source: the flag makes no difference."
 },
 "a0310": {
  "tightened": [],
  "note": "The case is that of variables of the context that are no values, which nothing tests for truth."
 },
 "h804": {
  "tightened": [
   "C97_value",
   "C97_unreadable"
  ]
 },
 "h802": {
  "tightened": [
   "C97_given"
  ]
 },
 "h803": {
  "tightened": [
   "C97_given"
  ]
 },
 "h906": {
  "tightened": [
   "C100_no_text"
  ]
 },
 "h1013": {
  "note": "The theorems of C67 said nothing of what the containers have after a change; C67_contents_partial does, and the model no longer adds a tag given twice twice.",
  "tightened": [
   "C67_contents_partial"
  ]
 },
 "h1014": {
  "note": "Only what happens where the context's errors are something else than a list of errors changed; C101 had assumed the name unset, and now assumes only that it has no list.",
  "tightened": [
   "C101_invalid",
   "C101_nothing"
  ]
 },
 "b0050": {
  "note": "Survived when it was first tried; fails since the theorem was added.",
  "tightened": [
   "C99_no_primitive"
  ]
 },
 "b0088": {
  "note": "Survived when it was first tried; fails since the theorem was added.",
  "tightened": [
   "C75_raises"
  ]
 },
 "b0148": {
  "note": "Survived when it was first tried; fails since the theorem was added.",
  "tightened": [
   "C101_nothing"
  ]
 },
 "b0166": {
  "note": "Survived when it was first tried; fails since the theorem was added.",
  "tightened": [
   "C67_own_partial"
  ]
 },
 "b0170": {
  "note": "Survived when it was first tried; fails since the theorem was added.",
  "tightened": [
   "C101_reported"
  ]
 },
 "b0172": {
  "note": "Survived when it was first tried; fails since the theorem was added.",
  "tightened": [
   "C91_elsewhere"
  ]
 },
 "h1105": {
  "note": "Survived when it was first tried; fails since the theorem was added.",
  "tightened": [
   "C104_shut"
  ]
 },
 "b0272": {
  "note": "Survived when it was first tried; fails since the theorem was added.",
  "tightened": [
   "C75_no_attribute"
  ]
 },
 "h1342": {
  "note": "At first nothing failed: C97 was about names the context has not got itself. C97_taken now says what the others read.",
  "tightened": [
   "C97_taken",
   "C97_src"
  ]
 },
 "h1333": {
  "note": "At first nothing failed: C93 was about unmapped given as one field, a pair in a tuple or a word. unmapped_said now has lists, None and other words.",
  "tightened": [
   "C93_maps_its_form",
   "C93_polymorphic",
   "C93_accepts"
  ]
 },
 "h1334": {
  "note": "C66 is not broken after all: it is about hooks called with a function when none is set. C76_capture fails, as it should.",
  "tightened": []
 },
 "h1327": {
  "note": "C53 is not broken after all: copy does not go through munge. C52 fails, as it should.",
  "tightened": []
 }
}