# Formal model of BoostGSoC19/astronomy in Rocq (Coq 8.16.1)

The code in `/repo` is a header-only C++ library: FITS file input/output (`io/`), sidereal time (`time/`)
and sky coordinates (`coordinate/`). It is read as text; nothing of it is compiled or run here.

## 1. Layers and files

Every layer has a `*Model.v` (definitions only, each citing file and lines), proof files (`*Proofs.v` and the others named
below) and `*Props.v` (the property theorems `Cnn_...`, each followed by `Print Assumptions`, with an `Example` showing that
a concrete case meets the hypotheses). Specification vocabulary that is not part of the code lives in `*Spec.v`.

| Layer | Files | Code modelled |
|---|---|---|
| C++ base | `CppModel`, `CppProofs` | std::string operations, size_t wrap-around, boost trim, to_string, lexical_cast |
| Cards | `CardModel`, `CardSpec`, `CardProofs`, `CardSlash`, `CardProps` | `io/card.hpp`, `io/default_card_policy.hpp`, `io/string_conversion_utility.hpp` |
| Stream | `StreamModel`, `StreamSpec`, `StreamProofs`, `StreamProps` | `io/fits_stream.hpp` |
| Header | `HeaderModel`, `HeaderSpec`, `HeaderProofs`, `HeaderLookup`, `HeaderProps` | `io/header.hpp` |
| Converter | `ConvModel`, `ConvSpec`, `ConvProofs`, `ConvProps` | `io/binary_data_converter.hpp` |
| Image | `ImageModel`, `ImageSpec`, `ImageProofs`, `StatModel`, `StatProofs`, `ImageProps` | `io/image.hpp`, `io/bitpix.hpp` |
| Tables | `TableModel`, `TableSpec`, `TableProofs`, `TableCells`, `TableTrim`, `TableAgain`, `TableProps`, `RefillModel`, `RefillSpec`, `RefillProofs`, `RefillProps` | `io/column.hpp`, `io/table_extension.hpp`, `io/ascii_table.hpp`, `io/binary_table.hpp` |
| Column views | `ViewModel`, `ViewSpec`, `ViewProofs`, `ViewProps`, `SheetModel`, `SheetSpec`, `SheetProofs`, `SheetOrder`, `SheetProps`, `TypedProps` | `io/column_data.hpp`, `get_column` and the column cache of the tables |
| Reader | `ReaderModel`, `ReaderSpec`, `ReaderProofs`, `ReaderRewrite`, `ReaderMore`, `ReaderImage`, `ReaderProps`, `CutSpec`, `CutProofs`, `CutProps`, `StopSpec`, `StopProofs`, `StopProps`, `ExnModel`, `ExnSpec`, `ExnProofs`, `ExnProps`, `WholeSpec`, `WholeProofs`, `WholeProps`, `ValueSpec`, `ValueProofs`, `ValueProps`, `CopySpec`, `CopyProofs`, `CopyProps`, `PartSpec`, `PartProofs`, `PartProps`, `LifeSpec`, `LifeProofs`, `LifeProps`, `BoundSpec`, `BoundProofs`, `BoundProps`, `NeedSpec`, `NeedProofs`, `NeedProps`, `AccessModel`, `AccessProofs`, `AccessProps`, `FaultModel`, `FaultProofs`, `FaultProps` | `io/fits_reader.hpp`, `io/default_hdus.hpp`, `io/primary_hdu.hpp`, `io/extension_hdu.hpp`, `io/image_extension.hpp`, `io/fits.hpp` |
| Text of floats | `TextModel`, `TextSpec`, `TextRound`, `TextScan`, `TextFloat`, `TextProofs`, `TextLaws`, `TextRead`, `TextCard`, `TextProps` | what `<<` and `lexical_cast` do with float and double in cards and ASCII cells, in bit patterns |
| Time | `TimeModel`, `TimeSpec`, `TimeProofs`, `CalendarProofs`, `TimeFloat`, `TimeProps` | `time/*.hpp`; in reals, and in binary64 (`TimeFloat`) |
| Doubles, printing | `DoubleModel`, `DoubleSpec`, `DoubleProofs`, `DoubleText`, `DoubleUnits`, `DoublePrint`, `DoubleProps` | `time/parser.hpp` and unit conversion of components in binary64; every `operator<<` (`coordinate/io/io.hpp`, `coord_sys/*.hpp`, `parser.hpp`) |
| Pixels in doubles | `PixelModel`, `PixelSpec`, `PixelProofs`, `PixelSums`, `PixelStats`, `PixelImage`, `PixelOrder`, `PixelProps` | statistics of `io/image.hpp` on the bit patterns of the pixels, in binary64 |
| Sky in doubles | `SkyModel`, `SkySpec`, `SkyAngles`, `SkyProofs`, `SkyConvert`, `SkySeparation`, `SkyTransform`, `SkyLibrary`, `SkyProps`, `EclipticModel`, `EclipticSpec`, `EclipticProofs`, `EclipticProps`, `SkyArithModel`, `SkyArithSpec`, `SkyArithProofs`, `SkyArithProps`, `SkyDiffModel`, `SkyDiffSpec`, `SkyDiffProofs`, `SkyDiffProps` | `coordinate/utility/utility.hpp`, separation and positional angle, spherical and Cartesian representations and their arithmetic, differentials, in binary64 over any mathematical library with stated errors |
| Vectors in doubles | `VectorModel`, `VectorSpec`, `VectorProofs`, `VectorArith`, `VectorProducts`, `VectorLength`, `VectorUnit`, `VectorProps` | `coordinate/arithmetic.hpp` on Cartesian operands in binary64 |
| Representations | `CoordModel`, `CoordSpec`, `CoordProofs`, `CoordArith`, `CoordRound`, `CoordProps` | `coordinate/rep/*.hpp`, `coordinate/arithmetic.hpp` |
| Differentials | `DiffModel`, `DiffSpec`, `DiffProofs`, `DiffProps` | `coordinate/diff/*.hpp` |
| Matrices | `UtilModel`, `UtilSpec`, `UtilProofs`, `UtilProps` | `coordinate/utility/utility.hpp` |
| Stars | `StarModel`, `StarSpec`, `StarProofs`, `StarDouble`, `StarProps`, `RigidSpec`, `RigidProofs`, `RigidDouble`, `RigidProps`, `ClockSpec`, `ClockProofs`, `ClockProps` | `time/time_conversions.hpp`, `coordinate/utility/utility.hpp`, used together as in `test/coordinate/utility.cpp` |
| Frames | `FrameModel`, `FrameSpec`, `FrameProofs`, `FrameProps` | `coordinate/ref_frame/*.hpp`, `coordinate/coord_sys/*.hpp`, `coordinate/sky_point.hpp` |

## 2. Modelling decisions

* **Strings** are `list ascii`; a `char` is a byte. Lengths are `nat`; sizes that can wrap (`size_t`) are `N` with
  the wrap written out (`mod 2^64`).
* **Outcomes.** A C++ call yields `Ret v`, `Throw e`, `Undef` (undefined behaviour) or `NoFuel`. A method that may
  throw after changing the object returns the changed object *and* the outcome.
* **Undefined behaviour** (out-of-range `operator[]`, reversed iterator ranges, null dereference) is the outcome
  `Undef`, never a default value. Theorems that say `= Ret ..` therefore exclude it.
* **Loops** that need not terminate (`read_header`, `read_entire_hdus`) take fuel and return `NoFuel` when it runs out. Theorems of
  the form "succeeds" say `exists fuel`, theorems of non-termination say `forall fuel, .. = NoFuel`.
* **Floating point in FITS data** is exact: a float or double is its bit pattern (the code copies bytes).
* **Floating point in card text** (`ostream <<` and `lexical_cast<double>`) is an arbitrary codec, an argument of the
  model (`fcodec`); theorems hold for every codec. For C89-C92 the codec is `std_codec`, the behaviour of the C++ library: "%g" with six digits,
  and reading to the nearest number of the type (`TextModel.v`), for binary32 and binary64 bit patterns. Flocq's decoder of bit patterns and its rounding are the specification.
* **Floating point in time and coordinates** is modelled by real numbers: rounding and signed zeros are ignored. That is the largest
  idealisation; theorems there say what the formulas compute, not what the last bit is. For `time/` the results that depend on it
  are also proved in binary64 (`TimeFloat.v`, with Flocq's rounding to nearest even): the Julian date is exact, sidereal times are within a stated bound.
  The Julian date itself is done in integers. `decimal_hour`, setting and reading a component in a unit, all printing, the arithmetic of Cartesian
  vectors and the statistics of the pixels of an image are also modelled in binary64 (`DoubleModel.v`, `VectorModel.v`, `PixelModel.v`, Flocq's operations). There each C++ operation is one rounded operation in the order of the source: no contraction to fused
  multiply-add, no extended precision, `std::pow(x, 2)` is `x * x`. The sky conversions, separations and spherical transforms
  (`SkyModel.v`) take sine, cosine and their inverses as an argument, the mathematical library; theorems hold for every library with the errors written in `good_libm`, or for every correctly rounded one
  (`rounded_libm`), and one is shown to exist (`C106_library`). The obliquity takes its last step, done in `long double`, as an argument (`good_radians`; `C113_plain` for platforms where that is double). Frames stay in the reals.
* **Units** of Boost.Units are their positive factor to a base unit; a quantity is a number and a unit. C++ types (kind of coordinates,
  units) become fields of a record or an argument. A number the C++ code leaves uninitialised is an argument (`old`, `m0`) over which theorems quantify.
* **Boost.Geometry/Boost.Units** are not in the repository. Their contract (documented formulas of
  `bg::transform`, `cross_product`, `dot_product`; unit conversion is multiplication by a positive factor) is written as definitions
  in the model and is part of the trusted base.
* **Locale** is the classic "C" locale. Allocation never fails.

## 3. Trusted base

* Coq 8.16.1's kernel (and `vm_compute`).
* `Print Assumptions` stands under every property theorem. Four groups come out (563 theorems):
  * Closed under the global context (294): all of C01-C27 except `C08_never_refused`, C29-C34, C56-C68, C76-C88, C112, C114, C116, C118-C126, C129; of C28 `max`, `min`, `median`, `median_order_free`, `std_dev_single`, `total_on_nonempty`;
    `C35_before_reform`, `C35_julian_calendar_before_reform`, `C35_days_between`; `C55_equinox`, `C55_frame_parameters`; `C91_d_exponent_refused`.
  * `ClassicalDedekindReals.sig_forall_dec` and `FunctionalExtensionality.functional_extensionality_dep` (32): `C28_mean`; the other C35 except `double_exact`; `C36_greenwich`, `C36_local`; C37; C38;
    `C50_arcsine_defined`, `C50_not_inverse`, `C50_transpose_is_inverse_approximately`; `C54_proper_motion`, `C54_proper_motion_right_iff_radians`; the other C55; C69; `C89_same_value_refuted`, `C90_subnormal_refuted`, `C103_ordinary`, `C103_integer_total`, `C128_galactic`.
  * These and `ClassicalDedekindReals.sig_not_dec` (30): `C28_empty`, `C28_std_dev`, `C28_std_dev_zero`; C41 except `separation_ignores_latitude`; C43 except `dot_laws`; C46; C48; C51;
    `C54_proper_motion_refuted`; `C70_change_of_units_keeps_position`; C73 except `unit_vector`; C75; `C110_north_east`.
  * These and `Classical_Prop.classic` (207): `C08_never_refused`, C93-C102, the other C103, C104-C109, the other C110, C111, C113, C115, C117, C127, the other C128, C130 and the remaining theorems of C35, C36, C39-C45, C47, C49, C50, C52, C53, C70-C74, C89-C92.

  All four are axioms of the standard library (its real numbers and classical logic). No axiom is added here. Flocq supplies
  the definition of binary64 rounding and its lemmas; no axiom other than these four shows up in the theorems that use it.
* Contracts written as definitions, because the code is not in the repository:
  `bg::transform`, `cross_product`, `dot_product` (Boost.Geometry; `transform` of the null vector leaves the second coordinate as it was),
  unit conversion (Boost.Units; in doubles a product with the factor or with 1/factor), printing of a quantity (number, blank, symbol), matrix product (uBLAS), `boost::gregorian::date::julian_day` and the range 1400..9999 of Boost dates,
  `boost::algorithm::trim`, `lexical_cast`, `std::fstream` (state flags, short reads, `seekg`; in `FaultModel.v` also writes cut short and buffers not flushed), `std::to_string`, and the text of floating point numbers
  (`ostream <<`, `std::to_string` of a double as "%f", and Boost's `lexical_cast`, the latter with the reader of libstdc++: correctly rounded, overflow is an error, underflow is not; no hexadecimal).
* In the converter, alignment and aliasing of the reinterpreted buffers are ignored, and sizes are those of a 64-bit platform with 8-bit bytes (`int` 4 bytes, `long` and `size_t` 8; `sizeof(column)=232` in the bound on the number of columns).
* The reading of the C++ code described in section 2.

Modelled code is what section 1 lists. Not modelled: `units/length.hpp` (constants of Boost.Units), `detail/` (a compile-time check), exception message texts,
rows counted past `INT_MAX`, text-mode newline translation (`create_file` is taken as on POSIX), and the members listed under "Not expressible".

## 4. Per-property plan

| Id | Model | Proof |
|---|---|---|
| C01 | `create_card_impl` over arbitrary strings | length arithmetic on `app`/`repeat`; both directions |
| C02 | `card_keyword` after `create_card` | `trim` lemmas |
| C03 | `create_card` + `value_imp<string>` | `find` of `/` in an append; refutation witness for `/` |
| C04 | decimal printer/parser of the three integer types | induction on digits, range check |
| C05 | bool printer/parser | case analysis |
| C06 | complex serializer/parser | shape of a padded decimal: interior run of blanks |
| C07 | card as a state machine with cache | induction over operation lists |
| C08 | `set_value` | direct, plus rejection by constructor; the refusal of a number wider than its field (`RefuseSpec`, `RefuseProofs`, `RefuseProps`), which the library's own texts never reach |
| C09 | `extract_value` on a structured record | `find`/`substr` arithmetic with 64-bit wrap |
| C10 | `card_of_string` | case analysis, iff |
| C11 | `create_commentary_card` | length arithmetic incl. the throwing path |
| C12 | `read_header`, `write_header` over the stream model | induction over the records |
| C13 | same | induction on fuel |
| C14 | `key_index` association map | induction, last-wins invariant |
| C15 | same | fallback index 0 |
| C16 | same | invariant "no END seen" for every fuel |
| C17 | `data_size` | fold with wrap |
| C18 | `find_unit_end` | `lia` with div/mod |
| C19 | `stream_read` | list lemmas |
| C20 | scan loop over concatenated units | induction over HDU list |
| C21 | control block map | counting distinct keys |
| C22 | stream flags state machine | invariant "failbit set, eofbit false" for every fuel |
| C23-C25 | byte-level codec | positional arithmetic base 256; induction on length |
| C26, C27 | image reader/writer | from C24 |
| C28 | statistics over Z/Q/R lists | order statistics via sorting |
| C29, C30 | row/field slicing | induction on rows and columns |
| C31, C32 | ASCII slicing/writing | same |
| C33, C34 | column view as a state machine over the table | refinement to a function row -> value; history induction |
| C35 | Julian date in Z | month/year case analysis, `lia` |
| C36-C38 | reals, `floor` | `Int_part` lemmas |
| C39-C41 | reals, `atan2`/`acos`/`asin` | trigonometric identities |
| C42-C47 | real vectors with unit factors | `ring`/`field`/`nra`, Cauchy-Schwarz |
| C48-C51 | 3x3 real matrices; polynomial bounds | `ring` with sin^2+cos^2; interval reasoning |
| C52-C55 | differentials, frames; setter histories | reals; induction over the calls |
| C56 | `value_of` after `read_header` | cache contents by type |
| C57 | `image_buffer::operator()` | index arithmetic, injectivity |
| C58 | trimmed binary fields | first/last byte analysis, positional arithmetic |
| C59 | column metadata | induction over the columns |
| C60, C61 | tables with cached views, heap of tables | invariants over histories of uses |
| C62-C68 | reader/writer on whole files | induction over the units of a file |
| C69 | sidereal time | reals, from C35 and C36 |
| C70 | representations | positions preserved by construction |
| C71 | matrices | trigonometric identities |
| C72, C73 | differentials | as C42-C46 |
| C74 | `positional_angle` | components along north and east |
| C75 | frame constructors | unit conversion |
| C76 | card equality, `value_with_comment` | text of a created record |
| C77, C78 | stream state machine | list lemmas; invariant over operations |
| C79 | header accessors after `read_header` | from C13, C14 |
| C80 | `set_data` | lookups repeated on a header only read since give the same results |
| C81, C82 | HDU objects | lookups in a read header; from C27 |
| C83 | binary converter on arbitrary bytes | induction over the elements |
| C84 | reader on any file and on every prefix of it | inversion of the reading loop; the units of a file are determined by it; records and data of a prefix are those of the file |
| C85, C86 | reader after an exception, after the end | as C84; the loop leaves eofbit set |
| C87, C88 | paths, access by number, conversion (`AccessModel.v`) | a failed stream stays failed; case analysis |
| C89, C90 | `std_codec`: digits as lists, fractions rounded in Z | rounding in Z = Flocq's `round`; the text scans to the same digits; error bounds of both roundings, half-gap argument for stability |
| C91 | `read_float` | grammar (inductive) = scanner, both directions |
| C92 | same | bounds on the decimal exponent |
| C93 | `hms_of_double` in binary64 | whole and fractional parts are exact; one rounding below 64 |
| C94 | `show_fixed` | digits of the rounded fraction; cutting the text at its letters |
| C95 | three roundings in a row | relative errors; half-gap argument for six digits |
| C96 | `print_object` | cutting the text at commas and blanks |
| C97 | `sum_d` | one rounding per component; rounding is symmetric; relative errors for units |
| C98 | `mean_d` | rounding is monotone and fixes twice a double; the half is exact or the sum was |
| C99 | `dot_d` | relative errors of three products; two products that cancel round alike |
| C100 | `cross_d` | as C99; equal products round alike |
| C101 | `magnitude_d` | the rounded root of the rounded square of a double is the double; monotone; relative errors |
| C102 | `unit_vector_d` | C101 and monotone division; relative errors; zero over zero |
| C103 | `pixel_mean` over `pixel_double` | the running sum stays below k times the largest size; error by induction; sums stay on the grid of the pixels, so nothing underflows; integer sums are exact |
| C104 | `pixel_std_dev` | each rounding is a factor 1 +- 2^-53 of a positive sum; sum of squares about another point |
| C105 | `pixel_max`, `pixel_min`, `pixel_median` | order of the doubles of the pixels; induction on the pixels; rank by counting |
| C106 | `convert_angles_d` with four matrices | error of each entry of the product; arc sine of close sines; zenith: the series for sin and cos of 35/512, rounded step by step |
| C107 | as C106, twice | C106 and the true maps being inverse |
| C108 | `galactic_to_ra_dec_d`, `ra_dec_to_galactic_d` | the matrices of the source have rows shorter than 1, so the sine stays in range |
| C109 | `separation_d`, `sky_separation_d` | C99, C101, relative error of the quotient; arc cosine of close cosines |
| C110 | `positional_angle_d` | errors of the two arguments of atan2; angle of a close point |
| C111 | `to_cartesian_d`, `make_angular_d` | errors relative to the distance; the computed length is never below the z coordinate, so the arc sine is defined |
| C112 | the write path over a device that cuts writes short (`FaultModel.v`) | each writer appends or is dead, kept under composition; C84 for what is left |
| C113 | `obliquity_d`, `ecliptic_at_d` | absolute errors of each step; pi to 35 digits from Machin's formula; the formula falls by more than the error in a day |
| C114 | `bin_set_data_state`, `ascii_set_data_state`: the object with the cells set so far | the metadata are read again with the same result (C80); a width that could be read once can be read in every row |
| C115 | `sph_sum_d`, `sph_plus_d`, `sph_mean_d`, `sph_cross_d`, `operand_dot_d`, `axes_sum_d`, `axes_cross_d`, `sph_unit_d` | errors of each component relative to the sizes of the operands; C111's bounds for the way back, carried over to a vector that is nearby |
| C116 | both readers at a header that is refused | C84's prefix of the loop, the same for headers only; the records read up to END or the one that is no card |
| C117 | `vel_axes_times_d`, `vel_angles_times_d`, `vel_cart_d`, the three sums, `make_coslat_d`, `vel_magnitude_d`, `vel_unit_d` | C111's and C115's bounds; the error of dividing by a computed cosine; the angle moves the direction by no more than itself |
| C118 | `is_fits_exception` and every call of the io part that can throw | a set of exceptions carried through every call; a file for each member; an invariant of the tables a reader holds |
| C119 | `read_entire_hdus` and all it calls, against the bytes of the file | a relation between contents and bytes that does not mention the model (`WholeSpec`); the values of the records carried through the construction of every HDU; induction over the units of the file |
| C120 | `get_column` and reading a row of it, against the bytes of the file | the column of a name and the cell of a row from C119's contents; the converter on the field without white space (C83) |
| C121 | `read_entire_hdus`, assigning to `get_data()` and `write_to`, as bytes to bytes | the bytes of a copy from the contents of C119 (`CopySpec`); the file written is again laid out by the rules, so C119 reads it |
| C122 | the same, for a header without one keyword | C119's relation for the remaining records; computations that break at the first missing keyword; the first record taken for BITPIX, NAXIS and the axes |
| C123 | the same, for files that also have extensions of other kinds and images of bytes | C119's relation for their records; what each part becomes and is written as; the unit lists of C62 |
| C124 | the same, for read_only_headers on a file that ends anywhere behind its last header | C123's parts as announced units (C63); objects made of an empty buffer; C64 for what is written |
| C125 | sequences of `initialize_path` and the two readings on one object | invariants of one turn of the reading loop, then of the loop, a call and a sequence; every write appends, so each HDU starts a block |
| C126 | the units of a file that is read and the objects made of them | the extents of consecutive units add up to at most the file; distinct TFORM keywords need distinct cards; positions of ASCII rows advance in steps too small to wrap |
| C127 | LST and the two matrices one after the other, over the reals and in doubles | the two products are one rotation of the unit sphere; multiples of 24 hours are whole turns; the bounds of C36 and C106 added up |
| C128 | pairs and triples of converted positions | the matrices are orthogonal, so products are kept; their determinants; the entries of the product of the galactic matrix with its transpose; in doubles the bounds of C106 |
| C129 | one table object used through `get_column` and `get_data` any number of times (SheetModel.v) | the object stands for a sheet (types asked for, values entered): invariant kept by every use, induction over the uses; entries last, looking is harmless and columns commute on the sheet, carried back by the refinement |
| C130 | GST and LST in doubles, put into `decimal_hour` and printed | the bounds of C36, C93 and C94 added up; C69 for the rate; a longitude just west of Greenwich at a moment just after sidereal midnight for the 24 hours |

Findings (statements a user would expect that the code violates) are proved as `*_refuted` or as exact
characterisations and are collected in section 5 as they are established.

### Not expressible
* `cirs::get_obs_time/set_obs_time` name a member that does not exist, `supergalactic::set_sgl` is declared const and assigns, `alt_az::set_az`
  passes a quantity of the wrong dimension, `make_equatorial_ha_coord` returns the wrong type unless both quantity types are equal, `ascii_converter::serialize<std::string>`
  does not compile: these template members have no behaviour to model.
* `sky_point(std::string)`, `from_name`, `get_constillation`, `transform_to` and the conversion between sky points are declared and never defined.

## 5. Findings

Statements a user would expect and the code violates. Each is proved, as a witness (`_refuted`) or as part of an exact characterisation.

Cards and headers
* A string value containing `/` is truncated or undefined behaviour (`C03_slash_roundtrip_refuted`, `C03_slash_undefined_refuted`); a string literal goes through the
  generic serializer: unquoted, right-justified, refused beyond 20 characters (`C11_literal_value_too_long_refuted`).
* `complex<int>`, `complex<float>` and `complex<double>` cards cannot be read back; `complex<size_t>` only if the imaginary part has 19 digits (C06, C92).
* A double keeps six digits: 1234567.0 reads back as 1234570 (`C89_same_value_refuted`); a subnormal changes again when rewritten (`C90_subnormal_refuted`); the exponent letter D is refused (`C91_d_exponent_refused`).
* The cached value of a card survives `create_card` (`C07_recreate_is_fresh_refuted`); `set_value` leaves a record that the constructor rejects (`C08_set_value_record_rejected`) and silently ignores a text over 70 characters (C08).
* A comment glued to the value drops a character (`C09_tight_comment_refuted`); a commentary card with a short key reads back as another keyword and a cut text (`C11_short_key_refuted`).
* After `set_value` of a string, `value_with_comment` lacks the quote and the first character (`C76_after_set_value_refuted`).
* Asking for the HDU name changes header equality (`C12_name_query_breaks_equality_refuted`); a truncated `END` is accepted (C13); without BITPIX or NAXIS the first card is
  used instead (C15); a header without END is read forever (C16); the data size wraps at 2^64 (`C17_overflow_refuted`); `find_unit_end` skips a whole block when already aligned (C18).
* After reading, BITPIX and NAXIS can only be asked for as `int` and `size_t` (C56); `card_count` of a header that was not read is 2^64-1 (`C79_card_count_empty_refuted`).
* `get` returns a zero byte at the end of the file (`C77_end_or_zero_refuted`); a stream that failed stays failed (C77); after `at_end` noticed the end nothing can be written (`C78_write_after_end_refuted`).

Data
* `vector<pair>` deserialises overlapping words (`C25_pair_vector_roundtrip_refuted`, C83), a `bool` vector takes the whole field whatever its count, a field one byte short is completed by a NUL byte (`C83_short_refuted`); 8-bit images read as zeros (C26) and are zeroed by rewriting (C66).
* Standard deviation of one pixel is 0/0 (`C28_std_dev_single`); pixel (x, y) is looked up at x * width + y, so all positions of a w by h image exist iff w <= h or w = 1, and an image that was read has an uninitialised width (C57).
* Binary table fields are trimmed before they are decoded: the integer 32 reads as 0, 8224 is undefined behaviour (C58); the row stride ignores NAXIS1 (`C29_row_stride_refuted`);
  an `X` column takes a byte per bit, `K` and `P` columns are refused, a negative repeat count is accepted (`C29_other_formats`); a column named like a looked-up keyword makes construction throw (`C59_column_name_refuted`).
* ASCII tables with gaps between columns are not re-readable (`C32_gap_refuted`); an over-wide cell throws (C32).
* `set_data` with an empty buffer keeps the old rows (`C80_no_data_refuted`); a `set_data` that throws can have emptied the table (`C114_unchanged_refuted`).
* Column views cache the first value (C34), fix the type (C60), and a copy of the table made after a column was requested writes to the original, and is undefined behaviour once the original is gone (C61).

Files
* An HDU without data is padded by a block the reader does not skip: reading never ends if it is the last HDU, otherwise the next header starts with 36 blank cards (C62); a file with truncated data is read forever unless the HDU's constructor throws (C22); equal names collide (C21); headers read alone and written lose the data (C64);
  extensions other than TABLE and BINTABLE become blank HDUs and are dropped on writing (C65); a primary header without EXTEND throws `out_of_range` (C67); re-initialising keeps the old HDUs (C68); image extension objects, which the reader never makes, need EXTNAME and zero 8-bit data (C82).
* A file cut inside padding or between units reads without any notice of the loss (C84); after an exception the name of the failing unit is undefined behaviour to look up, and after reading on it denotes the next HDU (C85); `read_entire_hdus` after `read_only_headers` reads nothing, and sizes that wrap can make `read_only_headers` run forever (C86, `C86_headers_wrap_refuted`);
  `write_to` does not report that the file could not be created (`C87_failure_reported_refuted`), and reading after a failed `initialize` never ends (C87).
  A full disk or a failing write is never reported (`C112_silent`) and any beginning of the file can be left in place of the old one (`C112_every_length`, `C112_atomic_refuted`).
  Reading on after a header was refused takes the rest of that unit for cards of the next header, so sound HDUs after it are lost (`C116_reading_on`, `C116_reading_on_refuted`).
  Catching `fits_exception` around the reading of a file is not enough: `out_of_range`, `length_error`, `bad_get` and `bad_lexical_cast` get past it (`C118_fits_handler`, `C118_fits_handler_refuted`).
* A file that follows the FITS rules is read to its contents (C119), except when a header fills its blocks exactly: if the last unit has such a header and any data, reading never ends (`C119_full_header_never_ends`, `C119_full_header_refuted`); a unit before the last whose data fills its blocks makes the reader pass over the next header (`C119_full_data_refuted`).
  A column named like a keyword that the library uses as a number or logical is outside the theorem because the library looks the name up. A table without EXTNAME, which FITS makes optional, cannot be read (`C122_extname_refuted`), nor can an image without EXTEND (`C122_needed`, C67). A file whose headers only were read is written with blanks for data and read back with blanks as values (`C124_written_refuted`).
  Because cells of binary tables are trimmed, numbers whose bytes begin or end with a white space byte are lost: 32 is read as 0, and two such bytes or a text with blanks read behind the end of a string (`C120_blank_byte`, `C120_blank_bytes`, `C120_text_blank`, `C120_every_integer_refuted`).
  Reading and writing such a file gives a file with other cells if a field of a binary table has a blank at an end (`C121_blank_refuted`) or if the columns of an ASCII table leave gaps (`C121_gap_refuted`); otherwise the copy is read to the same objects (`C121_same_objects`).
* What a file is read to is bounded by its size (C126) except for three things: the data buffer is allocated as large as the header says (`C126_buffer_refuted`); axes whose product wraps give any number of rows without characters (`C126_rows_refuted`); overlapping columns of an ASCII table multiply its data (`C126_cells_refuted`).

Time
* Julian dates ignore the time of day, drop by 9 from 1582-10-01 to 1582-10-02 and jump by 2 after February 28 of a non-leap century year before the reform (C35); up to the reform they count in the Julian calendar, off by y/100 - y/400 - 2 days for a Gregorian date (`C35_value_before_reform`).
* In doubles, reducing a tiny negative hour gives exactly 24 (`C36_reduction_double_refuted`), so that LST does return 24 hours just after sidereal midnight in Greenwich for a place as far to the west (`C130_below_24_refuted`); `decimal_hour(h,m,s)` leaves its components zero (C38) and prints as zero (`C94_from_fields_prints_zero`); 1h 1m 0s taken apart again is 1h 0m 59.99..s (`C93_fields_return_refuted`); sixty seconds are printed (`C94_below_sixty_refuted`).

Coordinates
* "Latitude" is used as azimuth and "longitude" as polar angle (C41); `positional_angle` uses the opposite convention (`C74_conventions_differ_refuted`).
* `operator==`, `to_representation` and `to_differential` ignore units (C46, C70, C72); `unit_vector` in mixed units has another direction (`C44_mixed_units_refuted`); the magnitude for a negative distance is negative, and the separation of opposite points can be 0 (C43, C47).
* Converting to coslat and back negates the first two components of a velocity with dx < 0 and turns one with dx = 0, dy <> 0 into (0, 0, |v|) (C52); multiplying a coslat differential by 1, or adding zero to it, changes it (C53, C72); equal coslat differentials in equal units can be different velocities (C73).
* 9 degrees set and read back are not 9 degrees to the last bit (`C95_identity_refuted`); printing keeps six digits (`C96_long_numbers_refuted`).
* Pixel statistics in doubles: the mean of ten doubles 0.1 is below 0.1 (`C103_mean_below_refuted`) and their standard deviation above zero (`C104_constant_refuted`); the mean of
  2^60, 1, -2^60 depends on their order (`C103_order_refuted`); that of two doubles 1e308 is infinite (`C103_overflow_refuted`); one pixel has no standard deviation (`C104_single`).
  FITS marks missing float pixels by NaN: one of them makes mean and standard deviation NaN and the median undefined behaviour (`C105_median_undefined`), and max and min
  ignore it unless it comes first (`C105_first_blank`, `C105_blank_order_refuted`).
* In doubles: addition of vectors is not associative (`C97_associative_refuted`); `mean` of two vectors of size 2^1023 is infinite (`C98_self_large_refuted`); perpendicular
  vectors can have a dot product of -1 (`C99_perpendicular_refuted`) and vectors that are not parallel the cross product zero (`C100_parallel_only_refuted`); `magnitude` is infinite or zero for vectors of length
  2^600 and 2^-600 (`C101_range_refuted`); the unit vector of (1, 1, 0) does not have magnitude 1 (`C102_exact_refuted`); that of the null vector is NaN (`C102_null`).
* A star in the zenith can have no altitude: latitude and declination 35/512, hour angle 0 gives the sine 1 + 2^-52, even with correctly rounded functions (`C106_zenith_refuted`); the separation of (1, 1, 1)
  from itself is NaN with any library (`C109_itself_refuted`), that of (1, 0, 0) and (1, 2^-27, 0) zero (`C109_small_refuted`); (2^-27, 0, 1) turned spherical is the pole (`C111_pole_refuted`); the null vector turned spherical has an uninitialised second angle (`C111_null`), and so has the sum of a vector and its opposite (`C115_opposite_refuted`);
  a spherical differential times 1 can lose its polar angle (`C117_times_one_refuted`).
* `get_proper_motion` returns the numbers in radians: right iff the unit is the radian or the number is 0 (C54).
* `galactic_to_ra_dec` is not the inverse of `ra_dec_to_galactic`: the equinox returns more than 30 degrees off (`C50_equinox_off`).

## 6. Tests against wrong programs

`seeded/LOG.jsonl` has a line for each edited model whose rebuild came to an end. A rebuild usually covers one file of property theorems or
stops at the first one with a failing theorem, so `failed` need not name every theorem that would fail.
`lemmas_failed` holds at most six names.

* Edits that did not typecheck are left out. Nine of them, made automatically, were not written again in another form.
* Eight edits have no line because their rebuild ran into the time limit or lost its place: in `ra_dec_to_ecliptic`, `decode_abs`, `later`,
  `ascii_column_size`, `skip_data`, `hour_of_hms`, `substr` and `make_angular_d`. Nothing is claimed about them.
* Edits against C119-C122 and part of those against C125 and C126 were written but not run.
