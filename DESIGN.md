# Formal model of coffer (Java class file library) in Rocq

## Trusted base

* Coq 8.16.1's kernel (including its virtual machine, `vm_compute`), its parser
  and the standard library.
* No axioms are declared or used: `Print Assumptions` answers "Closed under the
  global context" for every theorem (section "Assumptions per theorem"). The
  opaque constants of `Coq.ssr.ssrunder` that a scan of the compiled library
  finds come from the standard library's `ssr` files, which other standard
  library files load; no theorem depends on them.
* The correspondence between the Rust text in /repo and the Gallina
  definitions. Each definition cites file and lines; simplifications are stated
  in that comment. The Rust code is never run.
* The specification files (`*Spec.v`) transcribe the JVMS / WTF-8 documents
  from memory (tag tables, opcode table, encodings).
* The standard library functions the crate calls are modelled by what their
  documentation says: `total_cmp`, `from_utf8`, `char::decode_utf16`, slices,
  `HashMap`, `IndexMap`, `BTreeMap`, `OnceCell`, the derived traits.

## How code becomes model

* Integers of every width are `Z`; a Rust type's range is a predicate
  (`u8 x`, `u16 x`, ...) in hypotheses. `as` casts are explicit `mod`.
* Byte strings, `Vec<u8>`, readers over a byte slice: `list Z`.
* `Result`, `Option` and panics: `res A := Ok a | Err e | Panic p`.
  Arithmetic that can overflow is `Panic` or wrap-around depending on the build
  profile parameter `md : mode` (`Debug` = overflow checks on, `Release` = off).
* `usize` arithmetic on lengths and offsets inside memory is unbounded (code
  layout, buffer positions); the u16/u32/i32 values derived from it are not.
* `&mut` state is passed and returned. A reader without constant pool is
  `list Z -> res (A * list Z)`; with constant pool it also gets the pool and,
  where it registers bootstrap methods or labels, threads a state. A writer
  returns the bytes appended and threads the writer pool. On `Err`/`Panic` the
  partially written output is not tracked.
* Recursion that Rust does not bound structurally takes fuel; running out is
  `Panic PFuel`, and theorems show that the fuel given suffices (or, for the
  bootstrap method rounds, C72, that nothing suffices).
* `Arc<OnceCell<BootstrapMethod>>` is a cell number; the heap maps numbers to
  bootstrap methods. Cyclic structures are therefore representable.
* `HashMap`s are association lists. Where a program iterates over one (local
  variables when code is read, elements when an annotation is written), the
  model takes the order of the list. OrderModel adds the other orders: there
  reading and writing are relations, and C86 carries C61 over to any order and
  says when the order shows.
* Undefined behaviour (`unwrap_unchecked`, `unreachable_unchecked`) is
  `Panic PUB`.
* `Error` values keep the variant, not the message (`AttributeLength` keeps its
  numbers).
* The derive macros (`coffer_macros`) are modelled by what they generate, one
  combinator per attribute: tags, attribute frames, field order. DeriveModel has
  the macros themselves, over arbitrary declarations, ConfigModel how they read
  their options. What syn and synstructure make of a declaration is taken as the
  input.

Not modelled:

* I/O errors other than end of input (readers are byte slices, writers growing
  vectors); stack depth, memory (allocations up to 4 GiB announced by a length
  field included) and running time.
* `src/code/gen_stack_map.rs` (not compiled: its `mod` line is commented out).
* `Debug` and `Display` of everything but strings, descriptors and signatures;
  formatting with width or precision; `Clone`/`From`/`Borrow` glue, capacity
  management of `Wtf8String`, backtraces.
* Hashers: which bytes a `Hash` implementation feeds is modelled (C14, C79);
  the hash function itself is not.

## Files

| Area | Model | Spec | Proofs | Properties |
|---|---|---|---|---|
| results, integers | Base | | BaseLemmas | |
| WTF-8 crate, modified UTF-8 | Wtf8Model, MutfModel | Wtf8Spec | Wtf8Proofs, Wtf8Proofs2, Wtf8Proofs3, MutfProofs | Wtf8Props (C01-C12, C68) |
| validation errors, code points | PointModel | Wtf8Spec | | PointProps (C84, C85) |
| order, iterators, formatting of strings, sequences of calls | StrModel, TraceModel | Wtf8Spec | | StrProps (C74-C77), TraceProps (C81) |
| numbers, flags, versions, vectors | PrimModel | PrimSpec | PrimProofs | PrimProps (C13-C17, C19) |
| descriptors | TypeModel | TypeSpec | TypeProofs, TypeProofs2 | TypeProps (C28-C32), ArrayProps (C71) |
| constant pool | CpModel | CpSpec | CpProofs | CpProps (C18, C20-C27) |
| signatures | SigModel | SigSpec | SigProofs, SigProofs2 | SigProps (C33-C36, C69, C70) |
| annotations | AnnModel | AnnSpec, FileSpec | AnnProofs | AnnProps (C18, C39-C41) |
| attributes, members, modules | AttrModel | AttrSpec | AttrProofs | AttrProps (C37, C38, C42, C43) |
| stack maps, code type annotations | FrameModel | FrameSpec | FrameProofs | FrameProps (C18, C41, C44, C45) |
| instructions | InsnModel | InsnSpec | InsnProofs | InsnProps (C46-C51, C60), HelperProps (C80) |
| code attributes | CodeModel | CodeSpec | CodeProofs, CodeWrite, CodeRead, ReadProofs | CodeProps (C52-C54, C57-C59), FarProps (C53, C57, C58), CodeUndef (C56), CodeAccept (C55), HintProps (C98) |
| class files | ClassModel | ClassSpec | ClassGrow, ClassProofs | ClassProps, ClassStable, CodeStable, ClassCodeStable, SettleProofs (C61-C64, C66, C67, C72) |
| class files of other programs | | ForeignSpec, ForeignClassSpec | ForeignCode, ForeignClass | ForeignProps (C58, C59, C78) |
| equality and hashing of constants | EqModel | EqSpec | | EqProps (C79) |
| arbitrary input, build profiles | | | PanicProofs, PanicCode, DebugSim | PanicProps (C65, C73) |
| arbitrary classes, build profiles | | WriteSpec | WriteSim, WriteKinds | WriteProps (C82, C83, also C64, C72) |
| counts within their limits | | | | CountProps (C18, C23) |
| files read and written again | | WriteSpec | LaxProofs, ReadText, ReadTyped | RereadProps, NeededProps (C87, C83) |
| borrowed pool entries | RefModel | CpSpec | | RefProps (C88) |
| files from elsewhere | | TidySpec | ReadWf, ReadWfAttr, ReadWfCode | TidyProps (C91), LostProps (C92) |
| derive macros | DeriveModel | | | DeriveProps (C89, C90) |
| strings of what was read | | DrawnSpec | DrawnProofs, FitProofs | DrawnProps (C94, C91) |
| texts of what is written | | PutSpec | PutProofs | PutProps (C95), SaidProps (C96), FitProps (C95, C97, C32) |
| options of the derive macros | ConfigModel | ConfigSpec | | ConfigProps (C93) |
| orders of hash maps | OrderModel | ClassSpec | | OrderProps (C86) |
| nested dynamic constants | | NestProps (`below`, `places`, `entries`) | | NestProps (C63) |

`FileSpec` says what it means that bytes in a file describe a value: with
respect to any constant pool that extends the one the writer had reached.

## Method per property

C01-C12, C68: both passes of the decoder, the encoder, the validator with
explicit index; compared with the encodings over code points and UTF-16 units;
induction on code points. C74-C77 on the same basis.
C13-C19: arithmetic; the truncating casts are refuted schematically.
C20-C27: the writer pool as a state machine, an invariant over all sequences of
insertions, and the reader on every extension of the result.
C28-C36, C69-C71: recursive descent parsers over code points; induction on
types, and on the text for what is accepted.
C37-C45: attribute combinators, each with a layout relation; nested annotations
by induction on the value (writing) and the fuel (reading).
C46-C51, C60: the opcode tables, generated from the Rust text into Gallina,
against the JVMS table written down separately.
C52-C59: the two-pass assembler and the disassembler: first the layout
(offsets), then the bytes, then reading them in any encoding of the JVMS.
C61-C67, C72: the class file on top of all that. C66 rests on `ReadProofs`:
every reader consumes a prefix and looks at nothing behind it.
C78 (and C58/C59 on the reading side): the file is described by the JVMS layout
alone (`ForeignSpec`, `ForeignClassSpec`), any pool, any encoding of each
instruction, any number of line tables; bootstrap methods may refer to
themselves, so the class read is compared with the one described by a
bisimulation on cells.
C79: `==` and `hash` with a recursion depth, against a bisimulation on cells.
C65, C73: a predicate over all readers (which panics, how much input is left,
that the state stays sound) resp. a simulation between the two profiles, both
composed reader by reader up to `rd_classfile`.
C82, C83, C72: the same two arguments over all writers up to `wr_classfile`;
`WriteSpec` says what makes a value one of its Rust type, which cells and labels
must be there, and how deep bootstrap arguments are nested. Strings need not be
well-formed WTF-8 there: `lax` allows surrogates in any order and with any third
byte, since the checks of the crate let such strings through (C06).
C87: a predicate over all readers that what they return is of that kind.

Statements that are false of the code are kept as stated and refuted
(`..._refuted`, general where possible); `..._partial` theorems give the
strongest true part found. MANIFEST.json has the list.

## Testing the theorems

`seeded/LOG.jsonl` lists deliberate errors put into the model in a scratch copy
and the theorems that failed because of each. Mutations of the kind "bug
repaired" must break refutations instead.

## Assumptions per theorem

`Print Assumptions` follows every theorem in the `*Props.v` files (and
CodeUndef, CodeAccept, ClassStable, ClassCodeStable, SettleProofs, TidyProps, LostProps, ArrayProps). The output is the same for all
of them:

    Closed under the global context

that is, none of C01-C98 rests on any axiom, not even one of the standard
library.
