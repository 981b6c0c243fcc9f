# DESIGN - a Rocq (Coq 8.16.1) model of spicelib

The source in /repo is read as text; nothing of it is executed or changed. `rocq/theories/` holds, per area,

* `<Area>Model.v` - a transcription into Gallina, one definition per Python function or block, each with the
  file and lines it models and its simplifications; no proofs;
* `<Area>Spec.v` - the vocabulary of the property statements, written without the model's helpers: what a document
  is, what its text is, what an edit means, which texts count as well formed;
* `<Area>Proofs*.v` (and named lemma files) - the proofs;
* `<Area>Props.v` - only the property theorems, closed by `exact`, each with `Print Assumptions` and an `Example`
  showing that a concrete case meets its hypotheses.

`MANIFEST.json`, `rocq/_CoqProject` and the tables of this file are generated by `tools/manifest.py` from the theorem
names in `*Props.v`, `properties.jsonl` and `tools/*.json`. `tools/mutate.py` runs the seeded wrong programs
(`seeded/LOG.jsonl`).

## Trusted base

1. **Coq's kernel** (8.16.1), with `vm_compute` (witnesses, finite sweeps over the 256 characters).
2. **Assumptions.** `Print Assumptions` stands under every property theorem; all answer *Closed under the global
   context*, except C230-C233 (places of pins) and C248-C254 (complex values of logs), over the real numbers, which list the standard library's
   `ClassicalDedekindReals.sig_forall_dec`, `ClassicalDedekindReals.sig_not_dec`,
   `FunctionalExtensionality.functional_extensionality_dep` and `Classical_Prop.classic` (the axioms of `Reals`).
   No other axiom of the standard library is used, and none is declared. (`vcheck` additionally reports the seven
   `Coq.ssr.ssrunder.Under_rel.*` entries and the entries of `Coq.Reals.Rdefinitions` (`RbaseSymbolsImpl.*`,
   `RinvImpl.*`, `RbaseSymbolsSig`): they are the parameters of the standard library's own opaque modules and module
   types, loaded with ssreflect and Reals; no theorem depends on further axioms through them.) No `Admitted`, no `Variable`/`Hypothesis` outside sections, no
   functors or module types, no kernel check switched off, no plugins.
3. **The reading of the code.** The theorems are about the Gallina definitions; that these say what the Python says
   rests on the citations and on reading. Common conventions:
   * *Exceptions* are values: `None` (or an error constructor) where the Python raises. An operation that raises has
     no resulting state in the model; where the code raises, the checks stand before the first change, unless the
     model's comment says otherwise (then the partially changed state is modelled).
   * *Strings* are lists of `ascii`, i.e. characters below U+0100; `str.upper`, `\w`, `isalpha` etc. are those of
     ASCII unless a comment says otherwise. Greek mu, ohm, the euro sign and dagger of a few patterns are missing.
   * *Numbers*: Python ints are `Z`/`nat`; floats are exact rationals (`Q`) where arithmetic is modelled, and opaque
     byte words where only the layout matters (RAW files). No binary rounding, overflow, nan (except in `Steps`,
     where equality of samples is an arbitrary relation), signed zero.
   * *Regular expressions* are modelled by a backtracking matcher with Python's priority order (`Regex.v`: classes,
     sequences, ordered choice, greedy/lazy repetition, groups, look-ahead, anchors) and the patterns are transcribed.
   * *Threads*: every atomic action of the client and of the simulation threads is a label; a schedule is any list of
     labels. Bytecode-level races inside one method are not modelled.
   * *Dictionaries* are association lists in insertion order. *Objects that are shared* (QSPICE tags) are numbers with
     a store; all others are values.
   * *Files*: contents are lists of characters or bytes; the file system is an environment (a function) or a
     parameter. Text encodings (cp1252, utf-16) are modelled only in `Raw` and `Enc`.
4. **Not code at all**: the specifications in `*Spec.v` and the statements in `*Props.v` are meant to be read.

## What the status means

`proved`: the property as written in `properties.jsonl` is a theorem, for everything its quantifier names.
`partial`: some theorem of the claim is called `_partial` (only part of the property holds or is shown, the note says
what is missing) or `_refuted` (the property, or the part of it the note names, is **false of the code**; the theorem
is a counterexample by computation or a general refutation, and is a finding about the code). Refuted parts of a
larger property were, where possible, split off into a property of their own, so that what does hold is proved in full.

