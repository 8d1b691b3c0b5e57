(** Unicode ranges and code pages of a font. *)
From Coq Require Import List ZArith.
Import ListNotations.
Open Scope Z_scope.

(** OpenType's assignment of bits to blocks of characters (OS/2,
    ulUnicodeRange1-4): bit, first and last character of each block. *)
Definition unicode_blocks : list (Z * Z * Z) := [
   (0, 0x0, 0x7F); (1, 0x80, 0xFF); (2, 0x100, 0x17F); (3, 0x180, 0x24F); (4, 0x250, 0x2AF);
   (4, 0x1D00, 0x1D7F); (4, 0x1D80, 0x1DBF); (5, 0x2B0, 0x2FF); (5, 0xA700, 0xA71F); (6, 0x300, 0x36F);
   (6, 0x1DC0, 0x1DFF); (7, 0x370, 0x3FF); (8, 0x2C80, 0x2CFF); (9, 0x400, 0x4FF); (9, 0x500, 0x52F);
   (9, 0x2DE0, 0x2DFF); (9, 0xA640, 0xA69F); (10, 0x530, 0x58F); (11, 0x590, 0x5FF); (12, 0xA500, 0xA63F);
   (13, 0x600, 0x6FF); (13, 0x750, 0x77F); (14, 0x7C0, 0x7FF); (15, 0x900, 0x97F); (16, 0x980, 0x9FF);
   (17, 0xA00, 0xA7F); (18, 0xA80, 0xAFF); (19, 0xB00, 0xB7F); (20, 0xB80, 0xBFF); (21, 0xC00, 0xC7F);
   (22, 0xC80, 0xCFF); (23, 0xD00, 0xD7F); (24, 0xE00, 0xE7F); (25, 0xE80, 0xEFF); (26, 0x10A0, 0x10FF);
   (26, 0x2D00, 0x2D2F); (27, 0x1B00, 0x1B7F); (28, 0x1100, 0x11FF); (29, 0x1E00, 0x1EFF); (29, 0x2C60, 0x2C7F);
   (29, 0xA720, 0xA7FF); (30, 0x1F00, 0x1FFF); (31, 0x2000, 0x206F); (31, 0x2E00, 0x2E7F); (32, 0x2070, 0x209F);
   (33, 0x20A0, 0x20CF); (34, 0x20D0, 0x20FF); (35, 0x2100, 0x214F); (36, 0x2150, 0x218F); (37, 0x2190, 0x21FF);
   (37, 0x27F0, 0x27FF); (37, 0x2900, 0x297F); (37, 0x2B00, 0x2BFF); (38, 0x2200, 0x22FF); (38, 0x2A00, 0x2AFF);
   (38, 0x27C0, 0x27EF); (38, 0x2980, 0x29FF); (39, 0x2300, 0x23FF); (40, 0x2400, 0x243F); (41, 0x2440, 0x245F);
   (42, 0x2460, 0x24FF); (43, 0x2500, 0x257F); (44, 0x2580, 0x259F); (45, 0x25A0, 0x25FF); (46, 0x2600, 0x26FF);
   (47, 0x2700, 0x27BF); (48, 0x3000, 0x303F); (49, 0x3040, 0x309F); (50, 0x30A0, 0x30FF); (50, 0x31F0, 0x31FF);
   (51, 0x3100, 0x312F); (51, 0x31A0, 0x31BF); (52, 0x3130, 0x318F); (53, 0xA840, 0xA87F); (54, 0x3200, 0x32FF);
   (55, 0x3300, 0x33FF); (56, 0xAC00, 0xD7AF); (57, 0x10000, 0x10FFFF); (58, 0x10900, 0x1091F); (59, 0x4E00, 0x9FFF);
   (59, 0x2E80, 0x2EFF); (59, 0x2F00, 0x2FDF); (59, 0x2FF0, 0x2FFF); (59, 0x3400, 0x4DBF); (59, 0x20000, 0x2A6DF);
   (59, 0x3190, 0x319F); (60, 0xE000, 0xF8FF); (61, 0x31C0, 0x31EF); (61, 0xF900, 0xFAFF); (61, 0x2F800, 0x2FA1F);
   (62, 0xFB00, 0xFB4F); (63, 0xFB50, 0xFDFF); (64, 0xFE20, 0xFE2F); (65, 0xFE10, 0xFE1F); (65, 0xFE30, 0xFE4F);
   (66, 0xFE50, 0xFE6F); (67, 0xFE70, 0xFEFF); (68, 0xFF00, 0xFFEF); (69, 0xFFF0, 0xFFFF); (70, 0xF00, 0xFFF);
   (71, 0x700, 0x74F); (72, 0x780, 0x7BF); (73, 0xD80, 0xDFF); (74, 0x1000, 0x109F); (75, 0x1200, 0x137F);
   (75, 0x1380, 0x139F); (75, 0x2D80, 0x2DDF); (76, 0x13A0, 0x13FF); (77, 0x1400, 0x167F); (78, 0x1680, 0x169F);
   (79, 0x16A0, 0x16FF); (80, 0x1780, 0x17FF); (80, 0x19E0, 0x19FF); (81, 0x1800, 0x18AF); (82, 0x2800, 0x28FF);
   (83, 0xA000, 0xA48F); (83, 0xA490, 0xA4CF); (84, 0x1700, 0x171F); (84, 0x1720, 0x173F); (84, 0x1740, 0x175F);
   (84, 0x1760, 0x177F); (85, 0x10300, 0x1032F); (86, 0x10330, 0x1034F); (87, 0x10400, 0x1044F); (88, 0x1D000, 0x1D0FF);
   (88, 0x1D100, 0x1D1FF); (88, 0x1D200, 0x1D24F); (89, 0x1D400, 0x1D7FF); (90, 0xF0000, 0xFFFFD); (90, 0x100000, 0x10FFFD);
   (91, 0xFE00, 0xFE0F); (91, 0xE0100, 0xE01EF); (92, 0xE0000, 0xE007F); (93, 0x1900, 0x194F); (94, 0x1950, 0x197F);
   (95, 0x1980, 0x19DF); (96, 0x1A00, 0x1A1F); (97, 0x2C00, 0x2C5F); (98, 0x2D30, 0x2D7F); (99, 0x4DC0, 0x4DFF);
   (100, 0xA800, 0xA82F); (101, 0x10000, 0x1007F); (101, 0x10080, 0x100FF); (101, 0x10100, 0x1013F); (102, 0x10140, 0x1018F);
   (103, 0x10380, 0x1039F); (104, 0x103A0, 0x103DF); (105, 0x10450, 0x1047F); (106, 0x10480, 0x104AF); (107, 0x10800, 0x1083F);
   (108, 0x10A00, 0x10A5F); (109, 0x1D300, 0x1D35F); (110, 0x12000, 0x123FF); (110, 0x12400, 0x1247F); (111, 0x1D360, 0x1D37F);
   (112, 0x1B80, 0x1BBF); (113, 0x1C00, 0x1C4F); (114, 0x1C50, 0x1C7F); (115, 0xA880, 0xA8DF); (116, 0xA900, 0xA92F);
   (117, 0xA930, 0xA95F); (118, 0xAA00, 0xAA5F); (119, 0x10190, 0x101CF); (120, 0x101D0, 0x101FF); (121, 0x102A0, 0x102DF);
   (121, 0x10280, 0x1029F); (121, 0x10920, 0x1093F); (122, 0x1F030, 0x1F09F); (122, 0x1F000, 0x1F02F)].
(** [c] is in a block of the list that has bit [n]. *)
Definition in_block (blocks : list (Z * Z * Z)) (n c : Z) : Prop :=
  exists lo hi, In (n, lo, hi) blocks /\ lo <= c <= hi.

(** The blocks whose characters are recognized, with the binary search of the
    standard library up to 1.81 and since 1.82. *)
Definition recognized_halving : list (Z * Z * Z) := [
   (0, 0x0, 0x7F); (1, 0x80, 0xFF); (2, 0x100, 0x17F); (3, 0x180, 0x24F); (4, 0x250, 0x2AF);
   (13, 0x750, 0x77F); (14, 0x7C0, 0x7FF); (15, 0x900, 0x97F); (16, 0x980, 0x9FF); (17, 0xA00, 0xA7F);
   (18, 0xA80, 0xAFF); (19, 0xB00, 0xB7F); (20, 0xB80, 0xBFF); (21, 0xC00, 0xC7F); (22, 0xC80, 0xCFF);
   (23, 0xD00, 0xD7F); (24, 0xE00, 0xE7F); (25, 0xE80, 0xEFF); (26, 0x10A0, 0x10FF); (28, 0x1100, 0x11FF);
   (29, 0x1E00, 0x1EFF); (31, 0x2000, 0x206F); (32, 0x2070, 0x209F); (33, 0x20A0, 0x20CF); (34, 0x20D0, 0x20FF);
   (35, 0x2100, 0x214F); (36, 0x2150, 0x218F); (37, 0x2190, 0x21FF); (38, 0x2200, 0x22FF); (40, 0x2400, 0x243F);
   (41, 0x2440, 0x245F); (42, 0x2460, 0x24FF); (43, 0x2500, 0x257F); (44, 0x2580, 0x259F); (45, 0x25A0, 0x25FF);
   (46, 0x2600, 0x26FF); (47, 0x2700, 0x27BF); (48, 0x3000, 0x303F); (49, 0x3040, 0x309F); (50, 0x30A0, 0x30FF);
   (50, 0x31F0, 0x31FF); (54, 0x3200, 0x32FF); (55, 0x3300, 0x33FF); (59, 0x4E00, 0x9FFF); (59, 0x20000, 0x2A6DF)].
Definition recognized_branchless : list (Z * Z * Z) := [
   (0, 0x0, 0x7F); (1, 0x80, 0xFF); (2, 0x100, 0x17F); (3, 0x180, 0x24F); (4, 0x250, 0x2AF);
   (7, 0x370, 0x3FF); (9, 0x500, 0x52F); (13, 0x750, 0x77F); (14, 0x7C0, 0x7FF); (15, 0x900, 0x97F);
   (16, 0x980, 0x9FF); (17, 0xA00, 0xA7F); (18, 0xA80, 0xAFF); (19, 0xB00, 0xB7F); (20, 0xB80, 0xBFF);
   (21, 0xC00, 0xC7F); (22, 0xC80, 0xCFF); (23, 0xD00, 0xD7F); (24, 0xE00, 0xE7F); (25, 0xE80, 0xEFF);
   (26, 0x10A0, 0x10FF); (28, 0x1100, 0x11FF); (29, 0x1E00, 0x1EFF); (31, 0x2000, 0x206F); (33, 0x20A0, 0x20CF);
   (34, 0x20D0, 0x20FF); (35, 0x2100, 0x214F); (36, 0x2150, 0x218F); (37, 0x2190, 0x21FF); (38, 0x2200, 0x22FF);
   (40, 0x2400, 0x243F); (41, 0x2440, 0x245F); (42, 0x2460, 0x24FF); (43, 0x2500, 0x257F); (44, 0x2580, 0x259F);
   (45, 0x25A0, 0x25FF); (46, 0x2600, 0x26FF); (47, 0x2700, 0x27BF); (48, 0x3000, 0x303F); (49, 0x3040, 0x309F);
   (50, 0x30A0, 0x30FF); (54, 0x3200, 0x32FF); (55, 0x3300, 0x33FF)].

(** Bit [n] of 32-bit words, the first word holding bits 0 to 31. *)
Definition bit_set (words : list Z) (n : Z) : Prop :=
  exists k w, nth_error words k = Some w /\ 32 * Z.of_nat k <= n < 32 * Z.of_nat k + 32 /\
    Z.testbit w (n - 32 * Z.of_nat k) = true.

(** The characters by which a code page is recognized.  [ascii] are the
    characters from the space up to, but not including, the tilde. *)
Definition lineart : Z := 0x2524.
Definition root : Z := 0x221A.
Definition ascii_and (cs keys : list Z) : Prop :=
  (forall c, 0x20 <= c < 0x7E -> In c keys) /\ Forall (fun c => In c keys) cs.
Definition all_of (cs keys : list Z) : Prop := Forall (fun c => In c keys) cs.
Definition code_page_rules : list (Z * bool * list Z) :=   (* bit, ASCII needed, characters needed *)
  [(0, true, [0xDE]); (1, true, [0x13D]); (2, false, [0x411]); (57, false, [0x411; 0x405; lineart]);
   (49, false, [0x411; 0x255C; lineart]); (3, false, [0x386]); (48, false, [0x386; 0xBD; lineart]);
   (60, false, [0x386; root; lineart]); (4, true, [0x130]); (56, true, [0x130; lineart]); (5, false, [0x5D0]);
   (53, false, [0x5D0; lineart; root]); (6, false, [0x631]); (51, false, [0x631; root]); (61, false, [0x631; lineart]);
   (7, true, [0x157]); (59, true, [0x157; lineart]); (8, true, [0x20AB]); (16, false, [0xE45]); (17, false, [0x30A8]);
   (18, false, [0x3105]); (19, false, [0x3131]); (20, false, [0x592E]); (21, false, [0xACF4]); (30, true, [0x2665]);
   (54, true, [0xFE; lineart]); (62, true, [0x255A]); (63, true, [0x255A]); (50, true, [lineart; root; 0xC5]);
   (52, true, [lineart; root; 0xE9]); (55, true, [lineart; root; 0xF5]); (29, true, [0x2030; 0x2211])].
Definition supports (keys : list Z) (n : Z) : Prop :=
  exists a cs, In (n, a, cs) code_page_rules /\ if a then ascii_and cs keys else all_of cs keys.
