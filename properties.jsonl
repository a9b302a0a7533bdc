{"id": "C01", "title": "Normal compositing obeys the alpha-over laws", "statement": "CompositeNormal(b,t): an opaque top returns exactly the top colour; a fully transparent top over a non-empty bottom returns exactly the bottom; two empty colours give the empty colour; the result alpha is 1-(1-ab)(1-at) rounded up to 1/65535 and is at least max(ab,at); every colour channel lies between min-1 and max of the two input channels.", "quantifier": "all pairs of colours with 16-bit channels", "why_tests_cant": "2^128 pairs of 16-bit NRGBA colours; a test samples a handful", "anchors": ["composite.go:Composite.Composite", "composite.go:compositeNormal", "composite.go:blend"]}
{"id": "C02", "title": "Composite is total", "statement": "For every Composite value (all uint32, also undefined ones), every pair of colours and every random draw, Composite returns a colour whose four channels are 16-bit values; it never divides by zero.", "quantifier": "all modes x all colour pairs x all random draws", "why_tests_cant": "division by zero depends on alpha combinations no finite sample exhausts", "anchors": ["composite.go:Composite.Composite", "composite.go:blend", "lcolor/hsl.go"]}
{"id": "C03", "title": "Separable blend modes act per channel", "statement": "For the 15 channel-function modes (Multiply ... GrainMerge) each of the R, G and B outputs is a function of the same channel of the two inputs and of the two alphas only.", "quantifier": "all separable modes, all colour pairs", "why_tests_cant": "a test on grey or primary colours cannot see cross-channel leakage", "anchors": ["composite.go:Composite.Composite"]}
{"id": "C04", "title": "Separable modes keep the backdrop alpha", "statement": "For the 15 channel-function modes the result alpha equals the bottom alpha; an empty bottom gives the empty colour; a transparent top leaves the bottom unchanged.", "quantifier": "all separable modes, all colour pairs", "why_tests_cant": "2^128 pairs of 16-bit NRGBA colours; a test samples a handful", "anchors": ["composite.go:Composite.Composite"]}
{"id": "C05", "title": "Arithmetic blend functions compute their defining formula", "statement": "Multiply, Screen, Difference, Addition, Subtract, DarkenOnly, LightenOnly, Divide, Dodge, GrainExtract compute, on grey colours, the documented (GIMP) formula to within one 16-bit unit, saturating at the ends of the range.", "quantifier": "all 2^32 channel pairs per mode", "why_tests_cant": "overflow and rounding corners are isolated points", "anchors": ["composite.go:compositeMultiply", "composite.go:compositeScreen", "composite.go:compositeDivide", "composite.go:compositeDodge", "composite.go:compositeGrainExtract", "composite.go:clamp"]}
{"id": "C06", "title": "Burn never lightens", "statement": "CompositeBurn of an opaque top over an opaque grey bottom is never lighter than the bottom, and equals 1-(1-b)/t saturated at zero.", "quantifier": "all channel pairs", "why_tests_cant": "the wrap-around happens only when the top is darker than the inverted bottom", "anchors": ["composite.go:compositeBurn"]}
{"id": "C07", "title": "HardLight is monotone in the backdrop and fixes black and white", "statement": "CompositeHardLight over a black grey bottom with a mid-grey or darker top is black, and equals multiply/screen with the doubled top otherwise.", "quantifier": "all channel pairs", "why_tests_cant": "a single boundary value of the top misbehaves", "anchors": ["composite.go:compositeHardLight"]}
{"id": "C08", "title": "Overlay and SoftLight keep black black", "statement": "CompositeOverlay and CompositeSoftLight with backdrop I and top M compute I*(I+2M(1-I)); in particular a black backdrop stays black and a white one stays white.", "quantifier": "all channel pairs", "why_tests_cant": "formula errors need the whole plane", "anchors": ["composite.go:compositeOverlay", "composite.go:compositeSoftLight"]}
{"id": "C09", "title": "GrainMerge undoes GrainExtract", "statement": "CompositeGrainMerge with the neutral mid-grey leaves the backdrop unchanged, and merging an extracted grain back restores the backdrop whenever nothing saturated.", "quantifier": "all channel pairs", "why_tests_cant": "needs every pair", "anchors": ["composite.go:compositeGrainExtract", "composite.go:compositeGrainMerge"]}
{"id": "C10", "title": "Dissolve shows the top with probability equal to its own alpha", "statement": "CompositeDissolve returns either the bottom unchanged or the top made opaque; a fully transparent top never shows.", "quantifier": "all colour pairs and every random draw", "why_tests_cant": "randomness: every draw must be covered", "anchors": ["composite.go:compositeDissolve"]}
{"id": "C11", "title": "Porter-Duff operators follow their algebra", "statement": "DestinationOut with an opaque top clears the bottom, DestinationIn with a transparent top clears it, SourceAtop keeps the bottom alpha, DestinationAtop keeps the top alpha, Plus adds.", "quantifier": "all colour pairs", "why_tests_cant": "2^128 pairs of 16-bit NRGBA colours; a test samples a handful", "anchors": ["composite.go:compositePlus", "composite.go:compositeDstIn", "composite.go:compositeDstOut", "composite.go:compositeAtop"]}
{"id": "C12", "title": "HSV conversion round-trips", "statement": "Converting a colour to HSV and back keeps alpha and the largest channel exactly and every channel within a small constant (a fraction of one 8-bit step).", "quantifier": "all 2^48 RGB triples", "why_tests_cant": "48-bit domain with truncating divisions", "anchors": ["lcolor/hsl.go:RGBToHSV", "lcolor/hsl.go:HSVA.ToNRGBA", "lcolor/hsl.go:colourToHue", "lcolor/hsl.go:hcmaToColour"]}
{"id": "C13", "title": "HSL conversion round-trips", "statement": "Converting a colour to HSL and back restores the colour up to rounding.", "quantifier": "all 2^48 RGB triples", "why_tests_cant": "48-bit domain", "anchors": ["lcolor/hsl.go:RGBToHSL", "lcolor/hsl.go:HSLA.ToNRGBA"]}
{"id": "C14", "title": "Hue, Saturation and Value modes take the right component", "statement": "Value mode gives the bottom's hue/saturation with the top's value (largest channel equals the top's largest channel), Saturation and Hue keep the bottom's value, all keep the bottom alpha; a grey top in Hue mode leaves the bottom unchanged; Color mode keeps the bottom lightness.", "quantifier": "all colour pairs", "why_tests_cant": "2^128 pairs of 16-bit NRGBA colours; a test samples a handful", "anchors": ["composite.go:compositeHue", "composite.go:compositeSaturation", "composite.go:compositeValue", "composite.go:compositeColor"]}
{"id": "C15", "title": "Colour types meet the color.Color contract", "statement": "RGBA() of every colour type of the library (RGB, GrayAlpha, HSLA, HSVA) returns premultiplied components r,g,b <= a <= 0xffff.", "quantifier": "all field values", "why_tests_cant": "full field ranges including overflowing HSL intermediate values", "anchors": ["lcolor/rgb.go", "lcolor/gray.go", "lcolor/hsl.go"]}
{"id": "C16", "title": "ToNRGBA agrees with RGBA", "statement": "The non-premultiplied colour returned by ToNRGBA denotes the same colour as RGBA() for RGB, GrayAlpha, HSLA, HSVA; converting any colour to NRGBA64 and back through RGBA() changes no component by more than one unit and keeps alpha.", "quantifier": "all colours, including user-defined colour types", "why_tests_cant": "any colour value", "anchors": ["lcolor/gray.go:GrayAlpha.ToNRGBA", "lcolor/rgb.go:RGB.ToNRGBA", "internal/nrgba.go:ColourToNRGBA"]}
{"id": "C17", "title": "Colour models are projections", "statement": "RGBModel and GrayAlphaModel are idempotent: converting a colour already of the model's type returns it unchanged.", "quantifier": "all colours", "why_tests_cant": "all alpha values matter", "anchors": ["lcolor/rgb.go:rgbColourModel", "lcolor/gray.go:grayAlphaColourModel"]}
{"id": "C18", "title": "AlphaPalette picks a nearest entry and preserves alpha", "statement": "Index returns a valid index whose entry is at minimal distance (an exact member of the palette is found); Convert returns that entry's colour with the argument's alpha.", "quantifier": "all non-empty palettes, all colours", "why_tests_cant": "unbounded palette contents", "anchors": ["lcolor/indexed.go:AlphaPalette.Convert", "lcolor/indexed.go:AlphaPalette.Index"]}
{"id": "C19", "title": "Layer transparency and masks scale alpha only", "statement": "Layer.At and MaskedImage.At keep the colour channels, multiply alpha by the opacity (floor), are the identity at full opacity and empty at zero, and are monotone in the opacity.", "quantifier": "all colours x 256 opacities", "why_tests_cant": "2^128 pairs of 16-bit NRGBA colours; a test samples a handful", "anchors": ["misc.go:transparency", "misc.go:MaskedImage.At", "layer.go:Layer.At"]}
{"id": "C20", "title": "Pixel images behave like a map", "statement": "RGB, GrayAlpha and PalettedAlpha images of any rectangle behave, under any sequence of sets and gets on the image and on any nest of its sub-images, like a finite map from points to pixels: a get returns the last value set at that point (zero if none), sets elsewhere do not change it, out-of-bounds sets are ignored and out-of-bounds gets return the zero pixel; no index is ever out of range.", "quantifier": "all rectangles (also negative origins), all operation histories, all sub-image nests", "why_tests_cant": "histories and aliasing are unbounded", "anchors": ["rgb.go", "grayalpha.go", "indexedalpha.go"]}
{"id": "C21", "title": "SubImage of a pixel image is a shared view", "statement": "For RGB, GrayAlpha, PalettedAlpha: SubImage(r) has bounds r intersected with the image bounds, shows the same pixel at the same coordinates, and a write through either is seen by both; an empty intersection gives an empty image.", "quantifier": "all rectangles, all coordinates, all writes", "why_tests_cant": "aliasing over all rectangles", "anchors": ["rgb.go:RGB.SubImage", "grayalpha.go:GrayAlpha.SubImage", "indexedalpha.go:PalettedAlpha.SubImage"]}
{"id": "C22", "title": "Opaque tells the truth", "statement": "Opaque() returns true exactly when every pixel within the bounds has full alpha (RGB, GrayAlpha, PalettedAlpha).", "quantifier": "all images and sub-images", "why_tests_cant": "all contents", "anchors": ["rgb.go:RGB.Opaque", "grayalpha.go:GrayAlpha.Opaque", "indexedalpha.go:PalettedAlpha.Opaque"]}
{"id": "C23", "title": "Image.At composites visible layers bottom to top", "statement": "Image.At(x,y) is the bottom-to-top fold of Composite over the layers that are visible and contain the point, starting from transparent; invisible or non-covering layers have no effect; an opaque Normal layer hides everything below; nested groups are flattened by the same rule. (If the colour model of the image, i.e. of its first layer, is a palette, a layer not in Dissolve mode replaces the colour when it is more than half opaque and is ignored otherwise.)", "quantifier": "all layer stacks of any size and nesting, all points", "why_tests_cant": "unbounded stacks", "anchors": ["image.go:Image.At", "layer.go:Layer.At"]}
{"id": "C24", "title": "Image.Bounds is the least bounding rectangle", "statement": "Image.Bounds contains every non-empty layer's bounds, is contained in every rectangle that does, is empty if all are, and does not depend on layer order.", "quantifier": "all stacks of layers", "why_tests_cant": "unbounded stacks", "anchors": ["image.go:Image.Bounds"]}
{"id": "C25", "title": "SubImage of a layer or layered image is a view", "statement": "For Layer.SubImage and Image.SubImage: inside r and the bounds the sub-image shows the same colour at the same coordinates as the original, outside it shows nothing.", "quantifier": "all rectangles, layers, points", "why_tests_cant": "depends on the relative position of two rectangles", "anchors": ["layer.go:Layer.SubImageLayer", "image.go:Image.SubImage"]}
{"id": "C26", "title": "XCF RLE round-trips", "statement": "Decoding what the RLE encoder wrote returns the original bytes and consumes exactly the encoded bytes, whatever follows, for every byte string a tile channel can hold.", "quantifier": "all byte strings shorter than 65536 (a channel has at most 4096)", "why_tests_cant": "exponentially many inputs", "anchors": ["xcf/rle.go:writer.WriteRLE", "xcf/rle.go:writer.WriteRLEData", "xcf/rle.go:rle.Read"]}
{"id": "C27", "title": "RLE size bound", "statement": "The RLE encoding of n bytes is never longer than n + n/128 + 3 bytes and is non-empty for non-empty input.", "quantifier": "all byte strings", "why_tests_cant": "exponentially many inputs", "anchors": ["xcf/rle.go:writer.WriteRLE"]}
{"id": "C28", "title": "RLE reader is safe on arbitrary input", "statement": "For every input stream and every request the RLE reader terminates; it returns either exactly the requested bytes of the stream's run-length expansion or a non-nil error; it never returns bytes of a run it could not read.", "quantifier": "all byte streams (valid or hostile), all request sizes", "why_tests_cant": "hostile inputs", "anchors": ["xcf/rle.go:rle.Read"]}
{"id": "C29", "title": "RLE reads can be split", "statement": "Reading a + b bytes in one call or in two calls yields the same bytes and leaves the stream at the same place, also when a run straddles the split.", "quantifier": "all streams, all splits", "why_tests_cant": "all splits", "anchors": ["xcf/rle.go:rle.Read"]}
{"id": "C30", "title": "Deferred copy equals eager decode", "statement": "Copying one channel's compressed bytes (DecodeCompressed) succeeds exactly when the stream contains whole runs adding up to the channel size, copies exactly those bytes, and later decompression of the copy yields the bytes an eager RLE read yields.", "quantifier": "all streams, all channel sizes", "why_tests_cant": "hostile inputs", "anchors": ["xcf/rle.go:decoder.readRLE", "xcf/compressed.go:compressedImage.decompressTile"]}
{"id": "C31", "title": "Compressed images are history independent", "statement": "At on a CompressedXxx image returns the same colour whatever At calls were made before: the tile cache is invisible.", "quantifier": "all images, all histories of At calls", "why_tests_cant": "unbounded histories", "anchors": ["xcf/compressed.go:compressedImage.decompressTile", "xcf/compressed.go:CompressedRGB.RGBAt"]}
{"id": "C32", "title": "DecodeCompressed shows the same pixels as Decode", "statement": "Any image Encode can produce decodes to the same pixels, layer by layer, through Decode and DecodeCompressed, for all colour types and sizes.", "quantifier": "all images and sizes, including sizes not multiple of 64", "why_tests_cant": "tile edge geometry", "anchors": ["xcf/image_decode.go:decoder.readCompressedImage", "xcf/compressed.go"]}
{"id": "C33", "title": "XCF strings round-trip", "statement": "A string written by the encoder is read back unchanged and the reader is left just after it, for every valid UTF-8 string below the size limit; malformed or oversized strings are rejected with an error.", "quantifier": "all strings", "why_tests_cant": "unbounded strings", "anchors": ["xcf/writer.go:writer.WriteString", "xcf/reader.go:reader.ReadString"]}
{"id": "C34", "title": "Layer mode identifiers round-trip", "statement": "The layer mode read back from an encoded RGB image is the mode that was written.", "quantifier": "all Composite values", "why_tests_cant": "only an exhaustive check over both tables shows collisions", "anchors": ["xcf/layer_encode.go:modeID", "xcf/layer_decode.go:layer.readMode"]}
{"id": "C35", "title": "Tile layer round-trip", "statement": "For every image and every size (zero, below, at, above multiples of 64) the pixel data written by the encoder is read back pixel for pixel: the decoded pixel at (x,y) is the encoder's colour conversion of the source pixel at (min.x+x,min.y+y).", "quantifier": "all sizes and pixel contents", "why_tests_cant": "all sizes x contents", "anchors": ["xcf/image_encode.go:encoder.WriteImage", "xcf/image_decode.go:decoder.readAndDecompressImage"]}
{"id": "C36", "title": "XCF file round-trip", "statement": "Decode(Encode(im)) reproduces the layer tree: same nesting and order, names, opacity, visibility, offsets, modes and pixels, for every well-formed layered image.", "quantifier": "all layer trees of any width, depth and size", "why_tests_cant": "unbounded trees", "anchors": ["xcf/encoder.go:Encode", "xcf/decoder.go:Decode", "xcf/layer_encode.go", "xcf/layer_decode.go"]}
{"id": "C37", "title": "A plain image survives Encode and Decode", "statement": "Encoding any image.Image that is not a limage type produces an XCF file that Decode accepts and that shows the same pixels.", "quantifier": "all images", "why_tests_cant": "any non-empty image", "anchors": ["xcf/encoder.go:Encode"]}
{"id": "C38", "title": "Encoded files are hole-free and well linked", "statement": "Every byte of the encoded file is written; every reserved layer and tile pointer is filled exactly once and points inside the file at the structure it denotes.", "quantifier": "all layer trees", "why_tests_cant": "back-patched pointers in unbounded trees", "anchors": ["xcf/writer.go:writer.ReservePointers", "xcf/writer.go:pointerWriter.WritePointer", "xcf/encoder.go:layerCount"]}
{"id": "C39", "title": "Write failures are reported", "statement": "If any write to the destination fails or is short, at whatever point, Encode returns a non-nil error; if none fails it returns nil.", "quantifier": "all images, all failure points of the destination", "why_tests_cant": "every crash point", "anchors": ["xcf/writer.go", "xcf/encoder.go:Encode"]}
{"id": "C40", "title": "Decode terminates on every file", "statement": "Decode, DecodeCompressed and DecodeConfig terminate on every byte string.", "quantifier": "all byte strings", "why_tests_cant": "hostile files", "anchors": ["xcf/decoder.go:decodeImage", "xcf/decoder.go:readImageProperties", "xcf/decoder.go:readLayerPointers", "xcf/layer_decode.go:layer.readProperties"]}
{"id": "C41", "title": "Decode never panics", "statement": "Decode and DecodeCompressed return an image or an error on every byte string; they never panic.", "quantifier": "all byte strings", "why_tests_cant": "hostile files", "anchors": ["xcf/decoder.go:decodeImage", "xcf/channel.go:decoder.ReadChannel", "xcf/text.go:parseText"]}
{"id": "C42", "title": "Decode reads the whole file", "statement": "Decode can read files of any size a 32-bit XCF can have.", "quantifier": "all files", "why_tests_cant": "large files", "anchors": ["xcf/reader.go:newReader"]}
{"id": "C43", "title": "Version gate", "statement": "Decode and DecodeConfig accept exactly the headers 'gimp xcf ' followed by file, v001..v013 and a NUL; any other header is rejected with an error, whatever follows.", "quantifier": "all byte strings", "why_tests_cant": "all headers", "anchors": ["xcf/decoder.go:readHeader"]}
{"id": "C44", "title": "DecodeConfig agrees with Decode", "statement": "When Decode succeeds, DecodeConfig succeeds and reports the canvas size and palette that Decode used.", "quantifier": "all byte strings Decode accepts", "why_tests_cant": "versions x base types", "anchors": ["xcf/decoder.go:DecodeConfig", "xcf/decoder.go:decodeImage"]}
{"id": "C45", "title": "Properties are framed by their declared length", "statement": "Whatever the property, after reading an image property the decoder stands exactly at the end of its declared payload, so unknown or uninteresting properties cannot derail decoding.", "quantifier": "all property types and payloads", "why_tests_cant": "all payloads", "anchors": ["xcf/decoder.go:readImageProperties", "xcf/skip.go"]}
{"id": "C46", "title": "Group assembly is independent of map order", "statement": "The layered image assembled from decoded layers does not depend on the iteration order of the group map.", "quantifier": "all layer lists (any paths, duplicates, nesting) x all iteration orders", "why_tests_cant": "Go randomises map order; a test sees a few orders", "anchors": ["xcf/decoder.go:makeImage", "xcf/decoder.go:makeGroups"]}
{"id": "C47", "title": "Group assembly rebuilds the tree", "statement": "From the pre-order layer list with item paths the decoder rebuilds exactly the nested tree; a layer naming an unknown group is rejected; a non-bottom layer without alpha is rejected.", "quantifier": "all trees, all layer lists", "why_tests_cant": "unbounded trees", "anchors": ["xcf/decoder.go:makeGroups"]}
{"id": "C48", "title": "Canvas clipping does not move pixels", "statement": "A layer partly outside the canvas shows, inside the canvas, the same pixels at the same place as the file says.", "quantifier": "all layers, all offsets", "why_tests_cant": "negative offsets", "anchors": ["xcf/decoder.go:makeGroups"]}
{"id": "C49", "title": "Concurrent layer decoding is schedule independent", "statement": "Whatever the interleaving of the layer goroutines, the decoded layers are those of a sequential decode, Decode fails iff some layer fails, and the reported error is one of the layers' errors.", "quantifier": "all numbers of layers, all schedules", "why_tests_cant": "schedules", "anchors": ["xcf/decoder.go:readLayers"]}
{"id": "C50", "title": "The ReadSeeker adapter is an atomic ReaderAt", "statement": "Concurrent ReadAt calls through the adapter each return the bytes at their own offset, whatever the interleaving, and a failing Seek does not block later calls.", "quantifier": "all numbers of callers, offsets, interleavings", "why_tests_cant": "schedules", "anchors": ["internal/bufioToReader.go:readerAt.ReadAt"]}
{"id": "C51", "title": "Parasite parsing stays inside its property", "statement": "Reading a parasite property never consumes or allocates more than the property's declared length without reporting an error.", "quantifier": "all byte strings", "why_tests_cant": "32-bit wrap-around", "anchors": ["xcf/parasites.go:reader.ReadParasites"]}
{"id": "C52", "title": "Text survives Encode and Decode", "statement": "A text layer's string is read back unchanged (quoting is undone), its colour is preserved, and layers with several styled segments can be encoded.", "quantifier": "all strings, all segment lists", "why_tests_cant": "unbounded strings", "anchors": ["xcf/text.go:encoder.WriteText", "xcf/parasites.go:quotedString", "xcf/text.go:parseText"]}
{"id": "C53", "title": "Masked layers round-trip", "statement": "A layer with a mask encodes to a file that decodes to the same masked layer, wherever the layer is placed.", "quantifier": "all masked layers", "why_tests_cant": "offsets and decode modes", "anchors": ["xcf/channel.go", "xcf/layer_decode.go:layer.readMask"]}
{"id": "C54", "title": "Paletted and grey images round-trip", "statement": "Encoding an image whose pixels are already in the file's colour space (palette entries with alpha, grey with alpha) loses nothing.", "quantifier": "all pixels", "why_tests_cant": "semi-transparent pixels", "anchors": ["xcf/image_encode.go:encoder.paletteAlphaToBuf", "xcf/image_encode.go:encoder.grayAlphaToBuf"]}
{"id": "C55", "title": "ORA layer sources are linked to their data", "statement": "In every encoded ORA the n-th leaf of the stack (in document order) refers to data/n.png, that member exists exactly once and holds that leaf's image.", "quantifier": "all layer trees", "why_tests_cant": "two separate traversals must agree on unbounded trees", "anchors": ["ora/encode.go:writeLayers", "ora/encode.go:writeStack"]}
{"id": "C56", "title": "ORA round-trip", "statement": "Decode(Encode(im)) reproduces nesting, order, names, offsets, visibility, opacity and modes of every layered image whose attributes ORA can express.", "quantifier": "all layer trees", "why_tests_cant": "unbounded trees and attribute combinations", "anchors": ["ora/encode.go", "ora/decode.go", "ora/stack.go"]}
{"id": "C57", "title": "A plain image survives the ORA round-trip", "statement": "Encoding any image.Image that is not layered produces an ORA file that Decode accepts.", "quantifier": "all images", "why_tests_cant": "any image", "anchors": ["ora/encode.go:Encode", "ora/decode.go:Decode"]}
{"id": "C58", "title": "Unknown ORA elements are ignored", "statement": "Elements the decoder does not know are skipped together with their whole content, wherever they occur, without changing the decoded image.", "quantifier": "all XML trees", "why_tests_cant": "unbounded nesting", "anchors": ["ora/stack.go:decoder.skipTag", "ora/stack.go:decoder.readStack"]}
{"id": "C59", "title": "ORA container checks", "statement": "Decode rejects an archive without stack.xml or with a wrong mimetype member, and a stack without width/height; otherwise DecodeConfig reports the declared size.", "quantifier": "all archives", "why_tests_cant": "all member lists", "anchors": ["ora/decode.go:decoder.getStack", "ora/decode.go:checkMime", "ora/decode.go:decoder.getDimensions"]}
{"id": "C60", "title": "ORA thumbnails fit and show the image", "statement": "The thumbnail is at most 256x256, never empty, keeps the aspect ratio and shows at (x,y) the image at the scaled point.", "quantifier": "all image sizes", "why_tests_cant": "all sizes and aspect ratios", "anchors": ["ora/thumbnail.go", "ora/encode.go:writeImage"]}
{"id": "C61", "title": "ORA composite operators round-trip", "statement": "Every Composite value that ORA can name is read back as itself; the others become Normal.", "quantifier": "all Composite values", "why_tests_cant": "two tables must agree", "anchors": ["ora/encode.go:writeStack", "ora/stack.go:processLayerAttrs"]}
{"id": "C62", "title": "Parsing a text layer's data ends with a text or an error", "statement": "parseTextData returns on every parasite, with a text or an error; it neither runs for ever nor panics, so no text parasite can hang or crash Decode.", "quantifier": "all byte strings as parasite data", "why_tests_cant": "all inputs; a hang is not observable by a test", "anchors": ["xcf/text.go:parseTextData", "xcf/text.go:parseText", "xcf/parasites.go:Parse", "xcf/parasites.go:valueTK"]}
{"id": "C63", "title": "The old path property is parsed to its end", "statement": "ReadPaths returns on every input; where it finds no error SkipPaths consumes exactly the same bytes; and a well-formed list of paths is read as the points, names, closed and tattoo values it denotes.", "quantifier": "all files and positions; all well-formed path lists", "why_tests_cant": "two separately written parsers must agree on all inputs", "anchors": ["xcf/paths.go:ReadPaths", "xcf/skip.go:SkipPaths"]}
{"id": "C64", "title": "The vectors property is parsed without panicking", "statement": "ReadVectors returns, with an error or with the stored paths, on every vectors property.", "quantifier": "all vectors properties", "why_tests_cant": "all inputs", "anchors": ["xcf/vectors.go:ReadVectors"]}
{"id": "C65", "title": "Layer and channel properties are framed", "statement": "Reading a property of a layer, or skipping one of a channel, leaves the reader at the end of its declared payload, so that a list of properties is read up to its END and no further.", "quantifier": "all well-formed layer and channel properties and lists of them, any position in any file", "why_tests_cant": "all property types and payloads, in any order", "anchors": ["xcf/layer_decode.go:readProperties", "xcf/channel.go:skipProperties"]}
{"id": "C66", "title": "Malformed structures are refused", "statement": "Decode and DecodeCompressed accept no file in which an image property is malformed (opacity over 255, unknown compression or unit, a guides or samples length that is no multiple, a boolean other than 0 and 1, an end with a length), or a layer is of another type than the image, has a malformed property, has pixel data whose dimensions, bytes per pixel or number of tiles do not fit the layer, or has a mask that is malformed or not the layer's size.", "quantifier": "all files below 16 MiB with such a structure, whatever surrounds it; both decoders", "why_tests_cant": "every position and combination of properties and layers before the malformed structure", "anchors": ["xcf/props.go:ReadImageProperties", "xcf/layer_decode.go:ReadLayer", "xcf/image_decode.go:ReadImage", "xcf/channel.go:ReadChannel"]}
{"id": "C67", "title": "Layer properties are given their meaning", "statement": "The layer ReadLayer returns has the name, size, position, mode, visibility, transparency, group flag and item path its record in the file declares: the position is the sum of the offsets, the last property of each other kind counts, the mode is the one GIMP numbers so, and unknown properties change nothing.", "quantifier": "all layer records with well-formed properties in any number and order, at any position of any file", "why_tests_cant": "all lists of properties", "anchors": ["xcf/layer_decode.go:ReadLayer", "xcf/layer_decode.go:readProperties", "xcf/layer_decode.go:readMode"]}
{"id": "C68", "title": "A composition mode is printed by its name", "statement": "Composite.String never panics and gives every named mode its own name.", "quantifier": "all uint32 values", "why_tests_cant": "2^32 values", "anchors": ["composite.go:String"]}
{"id": "C69", "title": "Grey is the luma of the colour", "statement": "GrayAlphaModel's grey value is the weighted sum 0.299 R + 0.587 G + 0.114 B of the (premultiplied) colour to within one step, keeps neutral colours, and grows with each of R, G and B.", "quantifier": "all colours", "why_tests_cant": "2^48 colours", "anchors": ["lcolor/gray.go:grayAlphaColourModel"]}
{"id": "C70", "title": "Rich text is read in the style of its elements", "statement": "A text parasite with markup is read as the pieces of text of the markup in document order; font, size, letter spacing, rise and colour of a piece are those of the innermost <span> that sets them (the layer's otherwise), and it is bold, italic, underlined or struck exactly when inside b, i, u or s; an attribute that is no number or colour, or markup that breaks off, is an error.", "quantifier": "all element trees, attributes and tags", "why_tests_cant": "trees of unbounded depth and arbitrary attribute strings", "anchors": ["xcf/text.go:parseTextData", "xcf/text.go:parseText", "xcf/text.go:processText"]}
{"id": "C71", "title": "The parser of text parasites reads exactly its language", "statement": "The parser accepts the documents of a grammar of nested tags with strings, words and numbers, gives their tags, and accepts nothing that is not a complete document.", "quantifier": "all byte strings", "why_tests_cant": "all byte strings", "anchors": ["xcf/parasites.go:Parse", "xcf/parasites.go:readTag", "xcf/parasites.go:valueTK", "xcf/parasites.go:quotedString"]}
{"id": "C72", "title": "The string of a text layer is its text", "statement": "TextData.String of a decoded text layer is the plain text of its parasite, or the concatenated text of its markup, and Encode followed by Decode keeps it for printable text of one segment.", "quantifier": "all text parasites", "why_tests_cant": "all documents", "anchors": ["misc.go:TextData.String"]}
{"id": "C73", "title": "quoteWriter is inverted by quotedString", "statement": "What quoteWriter writes for a string, between quotes, is read by the parser as that string with every byte outside a UTF-8 character turned into U+FFFD; it is the same string exactly when the string is UTF-8.", "quantifier": "all byte strings", "why_tests_cant": "all byte strings", "anchors": ["xcf/text.go:quoteWriter.WriteString", "xcf/parasites.go:quotedString"]}
{"id": "C74", "title": "Colours of any type are stored straight", "statement": "A pixel of any Go colour type written into an RGB file becomes its alpha and its straight (unpremultiplied) components, each rounded down to 8 bits; a transparent pixel becomes transparent black, an 8 bit NRGBA is unchanged.", "quantifier": "all colours of all types", "why_tests_cant": "2^64 premultiplied colours", "anchors": ["xcf/image_encode.go:encoder.rgbAlphaToBuf"]}
{"id": "C75", "title": "The six pixel types are shown as the format means them", "statement": "From well-formed pixel data of any of the six layer types (RGB, grey, indexed, each with or without alpha) Decode and DecodeCompressed build an image with the size, the colour model and in every pixel the colour that the bytes (and the colour map) mean.", "quantifier": "all sizes, all pixel bytes, all colour maps, all coordinates", "why_tests_cant": "all sizes x contents x six types", "anchors": ["xcf/image_decode.go:decoder.readAndDecompressImage", "xcf/image_decode.go:decoder.readCompressedImage", "xcf/compressed.go:CompressedPaletted.At"]}
{"id": "C76", "title": "Markup of text segments says what the segment is", "statement": "For a text segment writeTextMarkup writes opening tags, the text with XML entities, and the closing tags in reverse order, such that text inside these elements, read by the decoder's rules, has the segment's size, spacing, rise, flags and 8 bit colour; embedded in the markup string of a text parasite the whole text must be read back.", "quantifier": "all segments in the default font, all texts, colours, sizes, spacings and rises below 2^22", "why_tests_cant": "all texts x styles", "anchors": ["xcf/text.go:writeTextMarkup", "xcf/text.go:encoder.WriteText"]}
{"id": "C77", "title": "Uncompressed pixel data", "statement": "A layer in a file without compression, whose tiles are stored as the format says (pixel after pixel, each with all its bytes), is shown with the size, the colour model and in every pixel the colour its bytes mean.", "quantifier": "all sizes, all pixel bytes, all six layer types, all colour maps", "why_tests_cant": "all sizes x contents x six types; the encoder never writes such files", "anchors": ["xcf/image_decode.go:decoder.readAndDecompressImage"]}
{"id": "C78", "title": "Texts with unprintable characters", "statement": "A text layer of one segment, encoded and decoded, comes back with every unprintable character and stray byte spelled as its escape sequence and everything else unchanged, and texts that differ come back different.", "quantifier": "all texts and font names (any bytes)", "why_tests_cant": "all byte strings", "anchors": ["xcf/text.go:encoder.WriteText", "xcf/parasites.go:quotedString"]}
{"id": "C79", "title": "Opacity given as a floating point number", "statement": "The opacity of a layer given as a 32-bit float from 0 to 1 is read as 255 times that number rounded down (up to the rounding of the product), never decreasing with the number; the float nearest to k/255 is read as k for every byte k, so the layer gets transparency 255-k. A float that is no number from 0 to 1 is refused.", "quantifier": "all 2^32 bit patterns, all layers with any other properties", "why_tests_cant": "2^32 floats in every list of properties; rounding of the product near each of the 255 thresholds", "anchors": ["xcf/layer_decode.go:decoder.ReadLayer"]}
{"id": "C80", "title": "A whole file is decoded to the image it describes", "statement": "A file of run length coded layers, laid out in any order with anything between its parts, is decoded to the layered image it describes: the tree of groups in order, and of each layer the name, place (within the canvas), mode, visibility, transparency, the colour of every pixel, the mask and the text.", "quantifier": "all files below 16 MiB of versions 0 to 13, all base types, all trees of layers with any lists of properties, both decoders", "why_tests_cant": "all files: pixels, run length codings, layouts, properties and trees in every combination", "anchors": ["xcf/decoder.go:Decode", "xcf/decoder.go:readLayers", "xcf/layer_decode.go:decoder.ReadLayer", "xcf/image_decode.go:decoder.ReadImage", "xcf/channel.go:decoder.ReadChannel"]}
{"id": "C81", "title": "The colour model of a layered image", "statement": "A layered image has the colour model of the picture in front (that of an alpha channel if there is none), and shows only colours of that model; a hidden layer in front changes nothing of what is seen, and Encode, which chooses the colour type of the file by the model, keeps the colours of every layer.", "quantifier": "all images, layer stacks and points; all files written", "why_tests_cant": "all nestings and mixtures of colour models", "anchors": ["image.go:Image.ColorModel", "image.go:Image.At", "xcf/encoder.go:Encode"]}
{"id": "C82", "title": "Reading through image.Decode", "statement": "image.Decode and image.DecodeConfig, with the xcf format registered, give for every reader what Decode and DecodeConfig give for the bytes from the reader's position on, if these start with the format's name, and report an unknown format otherwise.", "quantifier": "all readers (io.ReaderAt, io.ReadSeeker or neither, buffered or not), all files, all positions", "why_tests_cant": "all files, positions and kinds of readers", "anchors": ["xcf/decoder.go:decode", "xcf/decoder.go:decodeConfig", "internal/bufioToReader.go:GetReaderAt"]}
{"id": "C83", "title": "An encoded image is a file of the format describing it", "statement": "For every layered image whose layers the format can express, Encode writes a file of the format (header, properties, pointers, run length coded tiles) that describes the image: a canvas of its size and on it the tree of its layers with their names, sizes, places, modes, visibility, opacity, pixels, masks and texts.", "quantifier": "all layered images of trees of layers (also over or outside the edges of the canvas, with masks anywhere, texts, all colour models), all random draws", "why_tests_cant": "all images; the claim is about the bytes against the format's description, not against this package's decoder", "anchors": ["xcf/encoder.go:Encode", "xcf/layer_encode.go:WriteLayers", "xcf/layer_encode.go:WriteLayer", "xcf/layer_encode.go:writeProperties", "xcf/layer_encode.go:modeID", "xcf/image_encode.go:WriteImage"]}
{"id": "C84", "title": "ora.Encode reports a destination that fails", "statement": "ora.Encode returns nil only if the Writer has taken every byte of the archive; otherwise it returns the error of the write that failed, or of the image or XML encoder; after a write that failed nothing more is written, and what was taken is the beginning of the archive.", "quantifier": "all images, all destinations (any write may fail after any number of bytes), all behaviours of the zip, XML and PNG encoders behind the 4096 byte buffer", "why_tests_cant": "all destinations and points of failure", "anchors": ["ora/encode.go:Encode", "ora/encode.go:writeImage", "ora/encode.go:writeLayers", "ora/encode.go:writeGroup", "ora/encode.go:writeStack", "ora/encode.go:writeGroupStack"]}
{"id": "C85", "title": "A truncated file is never decoded to another image", "statement": "If Decode or DecodeCompressed succeeds on a file, it returns the same image for that file followed by any further bytes; hence a file cut short anywhere is either not decoded or decoded to the image of the whole file, and no beginning of a refused file is accepted. DecodeConfig likewise returns the same configuration whatever follows.", "quantifier": "all byte sequences, all continuations of any length (also across the 16 MiB limit of the reader), both decoders", "why_tests_cant": "every cut of every file, and every continuation; an error that is swallowed anywhere in the reader, the run-length decoder or the goroutines shows only for particular cuts", "anchors": ["xcf/reader.go:16-63", "xcf/rle.go:18-78", "xcf/rle.go:155-195", "xcf/decoder.go:75-172", "xcf/image_decode.go:14-255"]}
{"id": "C86", "title": "Loading a file and saving it again changes nothing", "statement": "If an XCF file is loaded with Decode and the image is saved with Encode, the file written is loaded again as the same image: the same layers with the same names, places, modes, visibility and opacity in the same groups, the same colours at every pixel, and the same texts.", "quantifier": "all files of the format (any tree of layers and groups, any pixels, any palette), all random draws of the encoder, both loads with any float rounding", "why_tests_cant": "The statement joins both directions over all trees of layers; tests load and save a few sample files and compare sizes or single pixels, and never save what they have loaded.", "anchors": ["xcf/decoder.go:Decode", "xcf/encoder.go:Encode", "xcf/layer_decode.go", "xcf/layer_encode.go:WriteLayer", "xcf/image_decode.go", "xcf/image_encode.go:WriteImage"]}
{"id": "C87", "title": "Encode never panics", "statement": "Encode of an image, also of one that was loaded with Decode, returns nil or an error, whatever the destination does; it does not panic.", "quantifier": "all images of any nesting, all texts, all destinations (any write may fail), all random draws, all files of the format", "why_tests_cant": "tests encode a few images of one kind each to a destination that does not fail; none encodes a text of several segments or an image loaded from an indexed file", "anchors": ["xcf/encoder.go:Encode", "xcf/layer_encode.go:WriteLayer", "xcf/image_encode.go:WriteImage", "xcf/text.go:207-247", "indexedalpha.go"]}
{"id": "C88", "title": "An OpenRaster document is read as the image it describes", "statement": "Decoding an ORA archive whose stack.xml is well formed yields the tree of stacks and layers of the document, with the names, composite operators, visibilities, opacities and pictures it gives (attributes in any order, numbers in any notation, unknown elements anywhere), and every point of every picture is at the place of the canvas where the document puts it.", "quantifier": "all documents of any nesting, all attribute lists, all unknown content between and inside the elements, all pictures, all points of the canvas", "why_tests_cant": "the test files have one nested stack, without an offset and with a layer at its corner, and no negative offset; a few files cannot cover all nestings, attribute lists and positions", "anchors": ["ora/decode.go:Decode", "ora/stack.go:readStack", "ora/stack.go:readLayer", "ora/stack.go:processLayerAttrs"]}
{"id": "C89", "title": "Keeping the pixels compressed makes no difference", "statement": "An image loaded with DecodeCompressed has the same bounds and colour model as the one loaded from the same file with Decode, shows the same colour at every point when its layers are composed, and is saved by Encode as exactly the same bytes. More generally Encode writes the same, call for call, for two images of the same layers whose pictures show the same colours inside their bounds, whatever their Go types.", "quantifier": "all files without masks of the format (any tree of layers and groups, three base types, any colour map), all points, all random draws, all destinations (any write may fail)", "why_tests_cant": "tests compare a few pixels of single layers; the two kinds of pictures differ outside their bounds and in the Go types of their colours, and only a proof over all trees shows that neither is ever seen when composing or saving", "anchors": ["xcf/decoder.go:Decode", "xcf/decoder.go:DecodeCompressed", "xcf/image_decode.go:readCompressedImage", "xcf/compressed.go", "xcf/encoder.go:Encode", "xcf/image_encode.go:WriteImage", "image.go:At"]}
{"id": "C90", "title": "A saved image looks the same when it is loaded", "statement": "Encode of a layered image (of colours, greys or a palette), then Decode of the file, gives an image that shows the same colour as the original at every point of the plane, with the same random draws for Dissolve; and Encode of that image makes the same calls with the same bytes as Encode of the original. The same for an image that was itself loaded from a file.", "quantifier": "all trees of layers, groups, masks and texts that can be expressed in XCF, all pictures, all points, all random draws, all destinations", "why_tests_cant": "needs every pixel of every composition of layers, masks, modes and opacities before and after a round trip", "anchors": ["xcf/encode.go:Encode", "xcf/decode.go:decoder.decode", "xcf/writelayer.go:encoder.WriteLayer", "image.go:Group.At"]}
{"id": "C91", "title": "The ORA decoder reads exactly the archives it should", "statement": "Decode of an ORA archive succeeds if and only if every mimetype member is right, the last stack.xml can be opened, its root element is an image with a width and a height that are integers, it contains a closed stack, and in that stack, at any depth, every offset is an integer, every opacity a number, every layer's source a readable picture of the archive; unknown elements and their content, and what follows the stack, do not matter. Every other archive gives an error.", "quantifier": "all archives, all token streams including those cut off, all attribute lists including repeated attributes", "why_tests_cant": "needs all malformed archives; tests have a handful of good files", "anchors": ["ora/decode.go:Decode", "ora/stack.go:readStack", "ora/stack.go:readLayer", "ora/stack.go:processLayerAttrs", "ora/stack.go:skipTag"]}
{"id": "C92", "title": "An image saved as OpenRaster looks the same when it is loaded", "statement": "ora.Encode of a layered image, then Decode of the archive, gives an image with the same bounds that shows the same colour as the original at every point of the plane, with the same random draws for Dissolve; saved again it has the same stack.xml; and the merged picture in the archive is what the loaded image shows, to 8 bits per component.", "quantifier": "all trees of layers, groups, texts and masked pictures, all pictures, all points, all random draws", "why_tests_cant": "the points, the pictures and the trees are unbounded, and a difference may show only where modes, masks and offsets meet", "anchors": ["ora/encode.go:Encode", "ora/encode.go:writeImage", "ora/encode.go:writeLayers", "ora/encode.go:writeStack", "ora/decode.go:Decode", "ora/stack.go:readStack", "image.go:Image.At", "layer.go:Layer.At", "misc.go:MaskedImage.At"]}
{"id": "C93", "title": "Min, Max and Mid", "statement": "internal.Min and internal.Max of any arguments are the least and the greatest of them, and Mid is half way between these, rounded down, so never below the least or above the greatest.", "quantifier": "all argument lists of any length", "why_tests_cant": "argument lists are unbounded, and the failure of Mid shows only where the sum of two uint16 wraps around", "anchors": ["internal/minmax.go:Min", "internal/minmax.go:Max", "internal/minmax.go:Mid"]}
{"id": "C94", "title": "Which saved images can be loaded", "statement": "A layered image that Encode saved can be loaded again exactly if the name of each of its layers, at any depth, is UTF-8, each layer that is no group has the size of its picture, each mask has the size of its layer and lies in the corner of the canvas (or both are empty) and is read by Decode rather than DecodeCompressed, and each text written can be read. Encode reports no error either way.", "quantifier": "all trees of layers whose numbers fit the fields of the format, all masks, texts and names, every destination that does not fail", "why_tests_cant": "the equivalence speaks of every tree of layers; a test tries some trees and shows one direction for those", "anchors": ["xcf/encoder.go:Encode", "xcf/decoder.go:Decode", "xcf/decoder.go:DecodeCompressed", "xcf/layer_decode.go:ReadLayer", "xcf/layer_decode.go:readMask", "xcf/layer_encode.go:WriteLayer"]}
{"id": "C95", "title": "Loading an OpenRaster archive and saving it again changes nothing", "statement": "If an archive holds a document (whatever unknown elements are between its own) and ora.Decode loads it, and the layers are saved with ora.Encode and the new archive is loaded, then the second image has the same tree of layers with the same names, positions, composition modes, visibilities and opacities, each picture being what its PNG is read as, and it looks the same at every point.", "quantifier": "all archives, documents, libraries meeting their contract, random draws and ways of reading the members back", "why_tests_cant": "Documents are arbitrary trees with arbitrary attributes in any order and unknown elements anywhere; tests check a few archives.", "anchors": ["ora/decode.go:Decode", "ora/stack.go:readStack", "ora/stack.go:readLayer", "ora/encode.go:Encode", "ora/encode.go:writeStack"]}
