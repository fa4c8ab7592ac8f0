
## 6. Tests of the theorems against wrong programs

`tools/mutate.py` applies one edit to a scratch copy of the model, rebuilds, and records which
theorems fail; `seeded/LOG.jsonl` has one line per attempt.  Edits are of the kinds in the task:
wrong boundaries (`>=` for `>`), dropped updates, swapped arguments, missed cases, wrong
constants.  Survivors led to tightened statements (field `theorems_tightened`) or are
marked as equivalent programs (the edited program has the same observable behaviour).

## 7. Layout

* `rocq/theories/Base.v, Num.v, XR.v, FloatInst.v, RList.v, SortLib.v, StateM.v, Dict.v`: foundations
* `rocq/theories/*_model.v`: the model; `Spec_*.v`: the specifications; `Props_*.v`: the theorems;
  `*_proofs.v`, `*_real.v`, `Likelihood.v`: lemmas; `Tests_*.v`: runs of the model
* `tools/gen_properties.py`, `tools/more_properties.py` -> `properties.jsonl`;
  `tools/gen_manifest.py` (+ `tools/notes.json`) -> `MANIFEST.json`; `tools/gen_axioms.py` -> `AXIOMS.md`;
  `tools/gen_design.py` -> this file
