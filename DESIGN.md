# Formal model of MJKWoolnough/limage in Rocq (Coq 8.16.1)

## 1. Layout

`rocq/theories/`

| file | content |
|---|---|
| `Base.v` | machine words (`u8/u16/u32/s64` = explicit `mod`), Z-indexed lists, outcome type |
| `M_*.v`  | the **model**: executable Gallina transcriptions of the Go functions, one comment per definition citing file:lines |
| `S_*.v`  | small **specifications**, independent of the model's helpers |
| `L_*.v`  | lemmas and proofs |
| `P_*.v`  | the **property theorems** only: statement, `exact lemma.`, `Print Assumptions`, plus an `Example` showing the hypotheses are met by a concrete non-trivial case |

Conventions: numbers are `Z`; Go's fixed width arithmetic is written with explicit `u8/u16/u32`
wraps wherever an operand is a fixed-width type; `int` (64 bit) is unbounded unless the property is about
overflow.  A Go panic is an explicit outcome (`Panic`), an `error` is a value, loops are structural
recursion or recursion on fuel with an explicit `NoFuel` outcome that the theorems exclude.

A property that the unchanged code violates keeps its full English statement in `properties.jsonl`; the
development then contains a theorem `..._refuted` (a witness on the faithful model, or a universally
quantified proof of the failure) and the strongest true part, suffixed `_partial`.

## 2. Trusted base

* Coq's kernel (8.16.1), `coqc`, the standard library. `Print Assumptions` is run under each property
  theorem; see section 5 for the result.
* The reading of the Go source: every definition of the model cites what it transcribes.
* Behaviour of code that is not in /repo (the sandbox has neither the Go standard library nor the
  dependencies); assumed as stated here:
  - `image.Rectangle/Point` (`In, Intersect, Union, Add, Sub, Empty, Dx, Dy, Eq`), `image/color` conversions
    (`NRGBA.RGBA`, `NRGBA64.RGBA`, `NRGBAModel`, `NRGBA64Model`, `GrayModel`, `Palette.Index`) : transcribed from
    the documented Go implementation into `M_Color.v`/`M_Rect.v`.
  - `io.SectionReader`, `io.ReadFull`, `bytes.Reader.ReadAt` semantics for the `io.ReaderAt` given to the decoder.
  - `vimagination.zapto.org/byteio` sticky readers/writers: integer methods are `io.ReadFull`/one `Write`, `Read`/`Write`
    are one underlying call, all are no-ops once `Err` is set.
  - `memio.Buffer.Read` copies what is available, EOF only when empty.
  - `archive/zip`, `encoding/xml`, `image/png`: in the ORA model an archive is a list of named members, an XML
    document is its token stream, PNG is an abstract codec.  C92 assumes of it (S_OraLooks.png_ok) that an
    image of model NRGBA keeps 8 bits per straight component and one of the library's model RGB 16 bits.
  - `parser` tokeniser (text parasites): `Accept/AcceptRun/ExceptRun/Peek/Get` over bytes; `Peek` decodes UTF-8 and
    answers U+FFFD for an invalid byte and at the end; a parser asked again after an error answers the same error.
  - `strconv.AppendQuote` (`%q`), `ParseUint`, `Atoi`, `Itoa`, `html.EscapeString` are written out in `M_Text.v`/`M_Ora.v`.
    Parameters of the text theorems (record `tlibs`): `strconv.IsPrint` above ASCII, `strconv.ParseFloat`, and the
    tokens `encoding/xml` makes of a byte string.  Parameters of the ORA theorems (record `libs`): PNG encoding,
    float formatting and parsing, XML escaping of attribute values, rounding to float64.
  - Go allocation: `make` beyond 2^48 bytes panics, below that memory is available.
  - scheduling: goroutines are interleavings of atomic steps; mutex = lock bit.

## 3. Per property: model and proof

The English statements are in `properties.jsonl`, the exact theorem names and what is missing from partial ones in
`MANIFEST.json`.  Here: which model, which specification, which method.

### Colours and compositing
Model `M_Color.v` (lcolor/*, internal/nrgba.go, internal/minmax.go, image/color), `M_Composite.v` (composite.go).  Pure
functions on `Z` with explicit wraps; proofs by division lemmas (`L_Word.v`), `lia`/`nia`, and case analysis over the hue
sextants.  Specifications in `S_Color.v`, `S_Composite.v` are rational formulae (cross-multiplied) or floor formulae.

| | theorem file | method |
|---|---|---|
| C01 C02 C04 C05 | P_Composite | all 16-bit values, all modes, all draws; a division by zero would be an explicit `None` |
| C03 C06-C11 | P_Composite, P_Extent | false of the code: witness or universal failure, the largest true part, and (P_Extent: also C13, C17) for every input when or by how much the result differs from the documented one |
| C12 C13 C14 | P_Color, P_Composite | error bound of HSV by sextants; HSL refuted for chromatic colours |
| C15-C18 | P_Color | colour contract, agreement of `ToNRGBA`, idempotence of models, nearest palette entry |
| C69 | P_Luma | grey value within one unit of the weighted mean of 8-bit values, neutral, monotone |

### Images
Model `M_Rect.v` (image.Rectangle), `M_Pix.v` (rgb.go, grayalpha.go, indexedalpha.go), `M_Image.v` (image.go, layer.go,
misc.go), `M_Misc.v` (the String methods).  Pixel containers are views (buffer number, offset, length, stride, rect) over a heap.

| | theorem file | method |
|---|---|---|
| C19 C23 C24 | P_Image | induction over layer trees; `S_Image.v` defines the fold and the least rectangle |
| C20 C21 C22 | P_Pix | every history of New/Set/At/SubImage refines a map from points to pixels (`S_Pix.v`); New of a rectangle with its corners the wrong way round apart (C20_new) |
| C25 | P_Image | witness; exact for layers that keep their origin |
| C68 | P_Misc | table of names; universal failure for 14 modes |

### XCF reading
Model `M_Reader.v` (reader.go, the arithmetic of skip.go), `M_Rle.v` (rle.go), `M_Compressed.v` (compressed.go), `M_Monad.v`
(state, sticky error, panic, fuel), `M_Decode.v` (decoder.go, image_decode.go, layer_decode.go, channel.go, skip.go,
parasites.go), `M_Groups.v` (makeGroups, makeImage over a heap), `M_Paths.v` (paths.go, vectors.go and ReadParasite: code
the decoder does not call), `M_Text.v` (text.go, the parser of parasites.go),
`M_Strings.v` (TextData.String and quoteWriter, which has no caller), `M_Float.v` (the float opacity of layer_decode.go:145-146).

| | theorem file | method |
|---|---|---|
| C26-C30 | P_Rle | induction on the byte list and on the stream, against an independent expansion (`S_Rle.v`) |
| C31 C32 | P_Compressed, P_Trip | invariant of the tile cache over any history of `At`; C32 runs both decoders on every laid out file |
| C33 C34 | P_String | both mode tables; strings, against the Unicode definition of well-formed UTF-8 (`S_String.v`) |
| C40 C41 | P_Decode, P_TextParse | every loop is given a measure; fuel monotonicity (`L_Fuel.v`); classification of panics by what is in the file (`S_Decode.v`: pixels of a size are a header and, where its pointer leads, a level of that size; text data is what stands in a text parasite); `L_Words.v` decides these for the examples |
| C42 | P_Config | a source is its first 16 MiB |
| C43 C44 C45 | P_String, P_DecCfg, P_File, P_Props | header, DecodeConfig against Decode, framing of image properties (`S_File.v`) |
| C46 C47 C48 | P_Groups | heap of group objects; any order of map iteration; recursive specification tree (`S_Groups.v`) |
| C49 C50 | P_Sched | interleaving machines of `M_Sched.v` with invariants |
| C51 | P_File | parasites against the declared length |
| C62 | P_TextParse | the parser advances on every token unless the data has an unknown character; exact panics |
| C63 C64 | P_Paths, P_Vectors | ReadPaths/SkipPaths in lock step; ReadVectors returns only for an empty list; its inner readers run on laid out strokes and parasites |
| C75 | P_Kinds | both decoders run on laid out tiles; colour of a pixel given from its bytes alone |
| C76 | P_Render | writeTextMarkup against a tag writer of its own (S_Render); styles by S_Markup; refuted: the quotes of the text end the string it is put into, those of a font other than Sans even before |
| C77 | P_Raw | readImage run on laid out uncompressed tiles (S_Raw: interleaved and planar order); right for one byte to a pixel, refuted for every type with more |
| C78 | P_Spell | quoting and unquoting against a relation of texts and escape sequences (S_Spell); refuted: every unprintable text has a printable twin that comes back the same |
| C79 | P_Opacity | IEEE 754 single precision product and truncation on the bits (M_Float) against the number m/2^s the bits stand for; refuted: NaN and numbers outside [0,1] are not refused |
| C80 | P_Whole | `S_Whole.v` says what bytes lie where in a file of an image and what layers that image has; the decoder is run over the file (C45 frames, C67 properties, C75 pixels, C47 tree); partial: masks only of layers at the origin and not of groups, modes of grey and indexed images as C67 has them. Refuted without that: the mask of a group is dropped (C80_masks, for all files), a masked layer or group elsewhere is always refused (C80_untaken), with examples |
| C81 | P_Model | the model given by a relation on the tree (`S_Model.v`); refuted: a hidden grey layer in front of a red one makes the model grey, a hidden palette layer changes the composition, and (through C36's theorem) every layer of a file behind a grey front layer comes back grey |
| C82 | P_Format | M_Format over the library contracts of image.Decode and bufio; proved at position 0 of what can be read at offsets or sought; refuted: other readers are always refused, and the second of two images in a file is decoded as the first (with C80 and files extended by any bytes) |
| C83 | P_Written | S_Written relates the layers to the format's description of a file (S_Whole, the same C80 decodes); proved for layered images whose canvas starts at (0,0) (and what is described for every other, C83_described); C83_back: what either decoder makes of any written file, and when it refuses it; refuted: images whose canvas starts elsewhere are described moved off the canvas, images that are not layered give no such file, Luminance is written as Normal, modes without a number are written as others without an error |
| C65 | P_Props | framing of layer and channel properties (`S_Props.v`) |
| C66 | P_Accept | symbolic run up to the malformed part (`S_Accept.v`); the sticky error survives (`L_Sticky.v`) |
| C70 | P_Markup | token streams as trees (`S_Markup.v`); the stack of the loop is the path of elements |
| C71 | P_Parasite | grammar (`S_Parasite.v`), sound and complete: every document is read as its tags, everything accepted is a document or breaks off |
| C72 C73 | P_Strings | concatenation of the pieces of C70; unquoting inverts the quoting of runes |
| C67 | P_Meaning | meaning of a list of properties (`S_Meaning.v`, with GIMP's table of mode numbers) |

### XCF writing
Model `M_Encode.v` (encoder.go, image_encode.go, layer_encode.go, writer.go, WriteChannel): a state with the log of WriteAt calls; the
destination is an arbitrary function that may fail or shorten any call.

| | theorem file | method |
|---|---|---|
| C35 | P_Trip | tiles: layout of the written bytes, symbolic run of the reader at any place of any file; the colour model comes back too |
| C36 C37 C53 C54 | P_Trip | the encoder establishes a layout (`S_Layout.v`, `S_Tree.v`) of the final file, the decoder is run on every file with that layout; `S_Trip.v` says what survives |
| C74 | P_Straight | bounds of the integer quotients of the NRGBA conversion |
| C38 | P_Layout | every byte below the end is written exactly once; every pointer refers to the part it announces (`S_Linked.v`) |
| C39 | P_Write | induction over the encoder's calls |
| C52 | P_Text | quoting and tokenising of the text parasite; through whole files by C36's theorem |
| C86 | P_Resave | Decode, Encode and Decode again on a file that describes a tree of layers (S_Whole), compared layer by layer with `unchanged_layers` (S_Resave): C80 gives what is loaded, C36 what the saved file is loaded as, C87 that it is saved; refuted by files: translucent greys, layers reaching out of the canvas (C94 says which saved images are refused) |
| C87 | P_Panics, P_Resave | `None` is a panic; the condition of a panic is composed over the encoder's steps (`lives`: no panic iff P), images being read at the points of their bounds (`drawn_image`): exactly the texts that cannot be written; loaded images can be read (L_Readable) iff their indices are in the colour map; refuted by a text of two segments and by an index out of range |
| C88 | P_OraDoc | Documents (S_OraDoc) are trees of elements with their attribute lists; what the attributes say (`says`) does not depend on their order; reading is by induction over the document, unknown content by C58; positions compare what the document `puts` at a point with what `stands` there following Layer.At; the negative offset and the stack whose content does not reach the edges are refuted for all such documents, offsets of stacks by a document |
| C89 | P_Alike | `alike` relates two trees of layers whose pictures show the same inside their bounds (an opaque colour may be RGB in one and NRGBA in the other, a grey Gray and GrayAlpha, palettes may be written with either); by induction over the relation `image_At` gives the same colour after the same draws (every composition uses its colours through `colourToNRGBA` only) and each step of the writer is the same function of the state, for all destinations. With C80 (the tree loaded either way is described by the file) and the exact components of C75 the two loaded images are alike. `covered` (no layer larger than its picture) holds for all loaded images; an example shows that it is needed in general. |
| C90 | P_Looks | C36's round trip gives pictures alike in the sense of C89, whence the same drawing and the same bytes, for colours, opaque or black greys and opaque colours of an AlphaPalette; four witnesses for what is left out, by computation |
| C91 | P_OraRead | an equivalence: success of `readStack` gives back the inductive description of the tokens consumed (inversion of `skipTag`, `toStack`, `processLayerAttrs`, `atoi`), and by induction over the description enough fuel reads it |
| C92 | P_OraLooks | C56's round trip and what image/png keeps (S_OraLooks.png_ok: 8 bits per component for model NRGBA, 16 for RGB) give the same drawing, by induction over the tree; refuted: opacity (every layer), corners and modes without a name (witnesses) |
| C93 | P_MinMax | induction over the arguments; refuted for Mid: the uint16 sum wraps, then Mid is below every argument (every such list) |
| C94 | P_Loads | each record of the file laid out by C61 is read: forwards by L_Trip's readable_result, backwards by following readLayer through the record (an error once set stays, L_Sticky); makeGroups rebuilds any tree of indices in range (L_Groups2) |
| C95 | P_OraSave | documents as in C88, saved and loaded by C56, looks by C92: `stays` (S_OraSave) says which documents are kept; the modes of every loaded archive are kept (C95_modes); refuted for every document with a translucent outermost layer and for every one that does not reach the left or the upper edge (it is cut: C56_corner_refuted says so for any layers) |

### ORA
Model `M_Ora.v`: an archive is a list of members, a document its token stream.

| | theorem file | method |
|---|---|---|
| C55 C56 C57 C61 | P_OraEnc | induction over layer trees, layer numbers threaded through both passes |
| C58 C59 | P_OraDec | token stream induction, insertion of unknown elements |
| C60 | P_OraThumb | rational arithmetic with a correctly rounding float64 |
| C84 | P_OraWrite | M_OraWrite: the calls of the libraries with their errors, zip's bufio.Writer modelled, everything else of the libraries arbitrary; invariant over all sequences of calls; C84_calls ties the calls to the members of C55; refuted: the error of the deferred Close is dropped, so an archive of up to 4096 bytes is always reported as written, and the end of any other can be lost |
| C85 | P_Extend | `C85_extended`: for every file f on which decodeImage succeeds and every t, decodeImage (f ++ t) gives the same layers; `C85_truncated`, `C85_refused`: the consequences for prefixes; `C85_config` for DecodeConfig. Proof: L_Extend relates each function of M_Reader, M_Rle and M_Decode on a source and on a longer one (`exM`: same result and same state unless the shorter run ended with an EOF error, and the first error stays), so a successful run never met the end. Panics on a truncated file are the subject of C41, not of C85 |

## 4. Not modelled
* What a library reader or writer does beyond the contracts in section 2; `archive/zip`, `image/png`, `encoding/xml` internals.
* What the zip, XML and PNG encoders write and which errors of their own they return: arbitrary functions in C84; that a call returns the error of a write that failed in it is assumed.
* `uint8(float32*255)` of the float opacity property: a parameter `f32op` of the decoder unless a theorem says otherwise. C79 puts the conversion of M_Float there; what Go leaves to the implementation (a product that is no uint8) is a parameter `wild`.
* `image.Decode`'s choice among other registered formats (C82: xcf is the only one that may match); `SkipParasites` (one call of Skip); `writer.WriteAt`
  (no caller).
* Go's scheduler and memory model beyond interleavings of atomic steps; goroutine stack limits; memory below 2^48 bytes
  is always available.
* `ReadPaths`, `ReadVectors`, `ReadParasite` are modelled although nothing in the repository calls them.

## 5. Assumptions reported
`Print Assumptions` answers "Closed under the global context" for every theorem named in `MANIFEST.json` (the command
stands below each of them in its `P_` file).  No axiom is added and none of the standard library's is used.  A scan of the
loaded libraries also lists the seven parameters of the module type in `Coq.ssr.ssrunder` (`Under_rel.Under_rel`,
`Under_rel_from_rel`, `Under_relE`, `Over_rel`, `over_rel`, `over_rel_done`, `under_rel_done`); they come with the
standard library files loaded behind `Lia`, and no theorem depends on them.

## 6. Tests of the theorems
`seeded/LOG.jsonl`: one line per wrong program: the definition edited, the claim it breaks, the outcome (`killed`: some
theorem no longer proves; `survived`: all still prove), the theorems that failed and, for survivors, the theorem added or
strengthened because of it.
