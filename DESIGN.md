# Formal model of hkwi/ofpstr

## 1. What is modelled

Everything in `/repo/ofpstr`: `util.py`, `oxm.py`, `nx.py`, `ofp4.py`, and the
message handling of `cli.py`. Python 3 semantics (`cli.py` itself only compiles
on Python 2 because of two `print` statements; its logic is modelled anyway).

| file | models |
|---|---|
| `Base.v` | Python vocabulary: text, bytes, exceptions, slices, `struct` |
| `PyNum.v` | integer literals, `str.format` on the literal formats in use |
| `PyLib.v` | `binascii` (hex, quoted-printable), `socket.inet_*` |
| `Util.v` | `util.py` |
| `OxmCodec.v`, `OxmTables.v`, `Oxm.v` | `oxm.py` (tables generated from the source by `tools/gen_tables.py`) |
| `Nx.v` | `nx.py` |
| `Ofp4.v` | `ofp4.py` |
| `Cli.v` | `cli.py` |
| `Replay.v` | every vector of `/repo/test/*.py`, evaluated on the model (a test, not a proof) |
| `Spec.v`, `SpecOxm.v`, `SpecRate.v`, `SpecText.v`, `SpecActText.v`, `SpecFlowText.v`, `SpecMpText.v`, `SpecShow.v`, `SpecOfp.v`, `SpecShowOfp.v`, `SpecMp.v`, `SpecShowMsg.v`, `SpecCli.v` | the independent specification (section 3) |
| `BaseFacts.v`, `UtilFacts.v`, `NumFacts.v`, `PyLibFacts.v` | lemmas about the Python vocabulary, the tokenizer, numbers and library functions |
| `OxmRead.v`, `OxmPrint.v`, `OxmFacts.v`, `OxmFrame.v`, `OxmMore.v`, `Steady.v` | match fields: reading, printing, round trip, framing |
| `FloatFacts.v`, `RateFacts.v`, `RateExact.v` | that Coq's executable binary64 rounds as `SpecRate` says; decimal fractions in radiotap_rate |
| `GramLib.v`, `OxmGram.v`, `OxmExact.v`, `ShowLib.v` | the grammar of match texts, both directions; what is printed for any bytes |
| `ShowAct.v`, `ShowAct2.v`, `ShowAct3.v` | what is printed for any bytes as actions |
| `ShowMsg.v`, `ShowMsg2.v`, `ShowMsg3.v`, `ShowMsg4.v` | what is printed for any bytes as instructions, flow rules, groups, multipart messages |
| `TermFacts.v`, `OfpTerm.v`, `OfpLoop.v`, `PrintEnds.v` | termination and the endless loops |
| `Refuse.v`, `RefuseShow.v` | the exceptions readers and printers can raise |
| `SpecQp.v`, `Qp.v` | quoted-printable as binascii writes it |
| `SpecUnknown.v`, `Unknown.v` | the exception an unknown name leads to |
| `SpecIds.v`, `Ids.v` | lists of field names |
| `SpecCompose.v`, `Compose.v`, `Continue.v`, `GroupMore.v` | texts written one behind the other |
| `SpecJoin.v`, `Join.v` | byte strings printed one behind the other |
| `SpecMpJoin.v`, `MpJoin.v` | dumps line by line and entry by entry |
| `SpecName.v`, `Names.v` | field names that are not known, as arguments of actions |
| `SpecFit.v`, `Fit.v` | numbers that do not fit in their bytes |
| `SpecReload.v`, `Reload.v` | lines of a printed reply read as new messages |
| `SpecInject.v`, `Inject.v`, `InjectAct.v`, `InjectMsg.v` | equal bytes stand for equal rules |
| `ActBase.v`, `ActRead.v`, `ActReadNx.v`, `ActReadReg.v`, `ActReadLearn.v` | reading every written form of every action |
| `ActPrint.v`, `ActText.v`, `ActFrame.v`, `ActDenote.v`, `ActStyle.v`, `ActExtra.v` | actions: printing, round trip, framing, meaning, the two writing styles, what is lost |
| `FlowRead.v`, `FlowMod.v`, `FlowText.v`, `FlowFrame.v`, `FlowDenote.v`, `FlowPrefix.v`, `FlowMore.v` | flow rules |
| `GroupRead.v`, `GroupText.v`, `GroupFrame.v`, `GroupDenote.v`, `GroupExtra.v` | group rules and keyword arguments |
| `MpBase.v`, `MpFlow.v`, `MpGroup.v`, `MpStat.v`, `MpFrame.v`, `MpDenote.v` | multipart messages |
| `CliFacts.v` | the command line tool |
| `Prop*.v` | the property theorems, each with `Print Assumptions` and an `Example` |

Conventions. `text` = list of code points, `bytes` = list of bytes, Python int =
`Z`, lengths = `nat`. A call is a value of `res A`: `Ok a`, `Raise e` or
`Diverge`. Loops whose progress is not structural run on fuel equal to the length
of what they consume; exhausted fuel gives `Diverge`, never a normal-looking
value. C07 and C28 show where `Diverge` cannot occur, and that where it can it is
a true endless loop of the source.

### Simplifications (also stated at the definitions)

* Python's recursion limit (nested brackets) and CPython's 4300-digit limit on
  `int()` are not modelled.
* Dictionary keys with custom `__hash__` (`nxm_of`, `nxm_nx`, `stratos`,
  `nxast`) are modelled as (class, number) pairs. That no two keys in use have
  equal hashes was checked with CPython's `hash` on tuples.
* `str.upper/lower` only as far as comparison with ASCII words needs.
* `int(str)` takes the decimal digits of Unicode 14.0 (CPython 3.11); later versions
  of Python know a few more scripts. Its blanks are not those of `\s`.
* A mask length that would need a shift by astronomically many bits raises
  struct.error in the model, OverflowError or MemoryError in Python.
* `radiotap_rate` uses Coq's executable IEEE binary64 (`SpecFloat`, no axioms),
  proved in `FloatFacts.v` to be rounding to nearest, ties to even;
  rates given as astronomically large ints raise struct.error in the model and
  OverflowError in Python.
* `inet_aton`, `inet_ntop`, ... follow glibc.
* `cli.py`: the model is the run from the joined arguments to the bytes sent, the
  text printed and the exit. The switch is an arbitrary stream of bytes cut into
  arbitrary pieces, one per `recv`; `send` is assumed to send everything.
  `argparse` is left out; connecting is an arbitrary function from addresses to
  sockets or exceptions. The address expression is modelled with its backtracking.
* Keyword calls (`str2mod(s, **mod2extra(m))`, `str2group(s, **group2extra(m))`)
  are modelled by `str2mod_kw`/`str2group_kw`, which raise TypeError for a keyword
  the function does not have.
* `loop=False` of `inst2str` and the `rest` variables that no caller reads are
  left out.

## 2. Trusted base

* Coq 8.16.1's kernel, with `vm_compute`. No plugins.
* Axioms: none. `Print Assumptions` answers "Closed under the global context" for
  every theorem of `MANIFEST.json`; the answers are in `ASSUMPTIONS.txt` (section 5).
  The axioms `Coq.ssr.ssrunder.Under_rel.*` that a scan of the loaded libraries
  shows come with a standard library file and are used by no theorem.
* The reading of the source: each definition cites the lines it models. Checks
  made on the reading: (a) `Replay.v`; (b) `tools/gen_tables.py` reads the
  registration lines from the source text; (c) `tools/difftest_pylib.py`
  compares `PyLib.v` with the installed CPython on random inputs (it runs the
  Python standard library only, no code of /repo).
* `PyLib.v`/`PyNum.v` as a description of the Python runtime.
* `Spec.v` as a description of the documented syntax and the OpenFlow wire format.

## 3. Specification style

The `Spec*.v` files do not use the model's helpers. They fix

* numerals by the standard library (`N.to_uint`, `N.to_hex_uint`);
* big- and little-endian integers by division;
* the bracket grammar as an inductive relation;
* the field registry: name, class, number, kind (width, notation), written from
  the OpenFlow 1.3/1.5, Nicira and Stratosphere numbering;
* the written forms as inductive relations (`writes_*`): every spelling of numbers,
  both argument styles, every bracket, blanks and commas;
* abstract syntax for TLVs, actions, instructions, flows, buckets, groups and
  statistics, with two functions each: `text_of` (documented text) and `wire`
  (OpenFlow bytes);
* framing predicates: what a well-framed TLV list / action list / message is.

Most properties then read `str2X (text_of a) = Ok (wire a)` and
`X2str (wire a) = Ok (text_of a)`. Fixing both directions against the same
specification catches errors that cancel in a round trip. Properties about
arbitrary input (C01-C07, C17, C19, C25, C28, C29, C39, C44, C54, C55, C57-C73, C76-C83) quantify over all
texts or bytes.

## 4. Plan per property

| id | modelled by | proof |
|---|---|---|
| C01 | `get_token` | induction on the text |
| C02, C03 | `get_token`, grammar relation `seqs` | soundness: induction on the scan with the stack of open brackets; completeness: induction on the grammar |
| C04 | `parse_func`, same grammar | same lemmas for `scan_paren` |
| C05 | `parseInt`, `fmt_d`, `fmt_x` | model digits = canonical digits = stdlib numerals; value by induction |
| C06 | `parseInt` | case analysis, take-while lemmas; spec: literal relation |
| C07 | all text parsers | each iteration consumes at least one character; fuel lemma |
| C08-C15 | codecs + tables | one lemma per codec kind for arbitrary payload; table sweep over the registry by computation lifted with `forallb_forall` |
| C16 | `str2oxm`, `oxm2str` | induction on the TLV list |
| C17 | `str2oxm` | invariant of each codec: result = header + payload of the stated size |
| C18 | tables | finite sweep (the domain is the finite registry) |
| C19 | `uint_str2bin` | arithmetic of `land`/`shiftr` |
| C20 | `mac_str2bin` | regex lemmas |
| C21 | `ipv4_str2bin`, `ipv6_str2bin` | refutation (finite sweep of all n) and what is encoded instead |
| C22-C24 | action codecs | one lemma per action for arbitrary parameters |
| C25 | `str2act` | case analysis over the action table |
| C26 | `str2act` | per action, arbitrary argument text |
| C27 | `act2str`, `str2dict` | induction on the list |
| C28 | decoders | fuel lemma; exact characterisation of the endless loop |
| C29 | `str2mod` | invariant of `str2dict`'s state |
| C30-C32 | `str2mod`, `mod2str` | induction on the parts of the flow |
| C33-C37 | `str2dict` | step lemmas |
| C38-C40 | group functions | induction on buckets; C40 refutation |
| C41-C44 | multipart functions | induction on lines/entries |
| C45 | extras | from C29/C39 |
| C46 | `msgs` | the messages are read exactly if and only if every cut is at a header or message end; refutation for the others |
| C47 | reply loop | refutation: `hdr[2]==2` tests the length; what holds instead |
| C48 | reply loop | induction on the message list |
| C49 | `ofctl` | composition of the encoders with the reply loop |
| C56 | `ofctl` | soundness and completeness of the backtracking matcher |
| C50 | `note` | quoted-printable encoder and decoder on printable text; line wrapping for the refutation |
| C51, C52 | `bundle_load`, `learn` | as C24; induction on the list of specifications |
| C53 | `str2act`, `inst2str` | lengths modulo 8 |
| C54 | `str2mod`, `str2group` | inversion of every action parser; invariant of `str2dict`'s state |
| C57 | `str2oxm`, all codecs | both directions: inversion and completeness of every codec and of the runtime parsers behind it; induction on the list |
| C58 | `oxm2str`, all printers, `b2a_qp` | inversion of every printer; the encoder's output as a sequence of characters, escapes and soft breaks; sweep of the printer's dictionary |
| C59 | `act2str` and every action printer | each printer against its row of `std_shows`/`nx_shows`, both directions; induction over the list; the loop of length-0 actions |
| C60 | `inst2str`, `mod2str` on any bytes | every loop is `gloop`, proved once equivalent to `entries`/`entries_loop`; one entry against `inst_shown`, `rule_shown` |
| C61 | `group2str`, `mpflow2text`, `mpgroupdesc2text`, `mpgroup2text` on any bytes | the same, for buckets, rows and messages |
| C55 | reading and printing | C54 with the round trips C16, C32, C38 |
| C62 | `str2act`, all action readers | both directions for every entry of the table: inversion of tokens, brackets, numbers and of the reader; learn by induction on its list |
| C63, C64 | `str2mod`, `str2group` | both directions of every step of the reading loops against the grammar, then induction on the text; exactness of the parts from C57 and C62 |
| C65-C67 | `text2mpflow`, `text2mpgroupdesc`, `text2mpgroup` | the same, line by line; exactness of rows from C63 and C64 |
| C68 | `rate_str2bin`, `parseFloat` | rounding is monotone at numbers of at most 53 bits; bounds of that kind below and above every step |
| C69 | `text2mpflow`, `text2mpgroupdesc` | C54 for each line; an action of the text is in the bytes of its entry |
| C70 | reading and printing of replies | C69 with the round trips C41, C42, C43 |
| C71 | all readers of messages with their printers | the lengths in what is built (C25, C28, C36, C39) exclude the loops of C59-C61 |
| C72, C73 | every reader and printer | the set of exceptions of each function from those of its parts; one example per exception, computed |
| C74 | printed replies with `str2mod`, `str2group` | the printed text is a written one (C30, C38) with the defaults of the command |
| C75 | the wire formats of the spec, `str2mod`, `str2group` | each part tells its own length or type, so it can be cut off a longer text of bytes in one way only; induction over the parts |
| C76 | the printers of C58-C61 | `b2a_qp` proved equal to a relation that writes from left to right with a column; the relation is total and has one result |
| C77 | `str2oxm`, `str2mod` | state after the written beginning as in C35, then one step of the reader; the "=" is found by the head of the next token |
| C78 | `str2oxmid`, `oxmid2str` | relations over the tokens of the text and over the headers, proved equal to the loops; total and with one result for texts |
| C79 | `str2oxm`, `str2dict`, `str2mod`, `str2group` | the relations of C57, C62, C63 and C64 extended to the right: a finished text stays cut at the same places; one run of the loop over the first text, then the second |
| C80 | `oxm2str`, `act2str`, `inst2str`, `group2str` | one entry depends on its bytes only; the fuel of the loops does not matter; induction on the entries |
| C81 | `text2mpflow`, `text2mpgroupdesc`, `text2mpgroup`, `mpflow2text`, `mpgroupdesc2text`, `mpgroup2text` | splitting at newlines; one loop for the three kinds of entries, one for the messages, as in C80 |
| C82 | `str2act` | the relation of C62 inverted: a call is read by its arguments only, and these determine the words and names in them |
| C83 | `str2mod`, `str2group`, `str2act` | the readers of C63 and C64 run up to struct.pack, which is the only step left that can raise; `says` inverted for the actions |

Nothing in the list is beyond the model; what a theorem here cannot show is the
behaviour of the real network (timing, lost connections) behind C46-C48, which
enters as an arbitrary segmentation of the byte stream.

## 5. Status and assumptions

`MANIFEST.json` has the theorem names and, per property, what is proved. It is
generated by `tools/manifest.py` from the `Prop*.v` files and `tools/status.txt`.

* Theorems whose name has `_refuted` are proofs that the code does not do what a
  reader would expect there; they are the exceptions named in the property.
* Properties that are false as stated (C21, C40, C45, C46, C47) keep their
  statement and have status "partial": a refutation, and the theorem for the part
  of the domain where they hold.

`ASSUMPTIONS.txt` is written by `tools/assumptions.py` after a build: one line
with the answer of `Print Assumptions` per theorem of the manifest. All of them
are "Closed under the global context".

## 6. Wrong programs

`tools/seed.py` applies an edit to a copy of the model outside /verif and rebuilds
it with `make -k`. The log names the lemmas that fail; the files that need them are
not tried, so the theorems behind them fail too. `tools/cases.py` evaluates the
concrete cases of the properties on the edited model, which tells whether the claim
itself has become false. The results are in `seeded/LOG.jsonl`.

`tools/mutate.py` makes random edits (numbers, operators, conditions, texts,
exceptions, dropped assertions) one by one and stops at the first proof that fails;
the edits it found no proof for were looked at one by one.
