{
 "C53": {
  "note": "Reading of flax (cannot be run here): the class defines its own __init__ without parent/name, so that binding it seems to raise; the theorems speak of its methods as written."
 },
 "C66": {
  "note": "Reading of flax (cannot be run here): the class defines its own __init__ without parent/name, so that binding it seems to raise; the theorems speak of its methods as written."
 },
 "C67": {
  "note": "Reading of flax (cannot be run here): the class defines its own __init__ without parent/name, so that binding it seems to raise; the theorems speak of its methods as written."
 }
}