(** * The scripts of the repository, as text. *)

From Coq Require Import String.
From Verif Require Import Base.

(** import/bob.fl *)
Definition bob_fl_text : bytes := lit
"# SPDX-License-Identifier: MIT
# Copyright (c) 2024 Aymeric Wibo

let __bob_has_been_imported__

class Fs {
	static proto list(path: str) -> vec<str>
}

class Cc(flags: vec<str>) {
	proto compile(src: vec<str>) -> vec<str>
}

class Linker(flags: vec<str>) {
	proto link(obj: vec<str>) -> str
	proto archive(obj: vec<str>) -> str
}

let install: map<str, str>
let run: vec<str> = []
".

(** build.fl *)
Definition own_fl_text : bytes := lit
"# SPDX-License-Identifier: MIT
# Copyright (c) 2024 Aymeric Wibo

import bob

let src = Fs.list(""src"").where(|path| path.endswith("".c"") && !path.startswith(""src/flamingo"")) + [""src/flamingo/flamingo.c""]

let obj = Cc([
	""-std=c11"", ""-g"",
	""-Wall"", ""-Wextra"", ""-Werror"",
	""-Wno-unused-parameter"",
	""-Isrc"", ""-Isrc/flamingo/runtime"",
]).compile(src)

let cmd = Linker([""-lm"", ""-lpthread""]).link(obj)

install = {
	cmd: ""bin/bob"",
	""import/bob.fl"": ""share/flamingo/import/bob.fl"",
	""skeletons"": ""share/bob/skeletons"",
}

run = [""bob""]
".

(** skeletons/c/build.fl *)
Definition skeleton_fl_text : bytes := lit
"import bob

let src = Fs.list(""src"").where(|path| path.endswith("".c""))

let obj = Cc([""-std=c99"", ""-Wall"", ""-Wextra"", ""-Werror""]).compile(src)
let cmd = Linker([]).link(obj)

install = {
	cmd: ""bin/bob-skeleton-c"",
}

run = [""bob-skeleton-c""]
".

(** tests/run_path_traversal_order/build.fl *)
Definition order_fl_text : bytes := lit
"# SPDX-License-Identifier: MIT
# Copyright (c) 2024 Aymeric Wibo

import bob

run = [""test_command""]
".

(** tests/frugality/build.fl *)
Definition frugality_fl_text : bytes := lit
"import bob

let src1 = ""src1.c""
let src2 = ""src2.c""

let obj = Cc([""-std=c11""]).compile([src1, src2])
let linked = Linker([]).link(obj)

install = {
	obj[0]: ""obj1.o"",
	obj[1]: ""obj2.o"",
	linked: ""bin"",
}
".

(** tests/chown/build.fl *)
Definition chown_fl_text : bytes := lit
"# SPDX-License-Identifier: MIT
# Copyright (c) 2024 Aymeric Wibo

import bob

install = {
	""build.fl"": ""share/bob_chown_test.fl"",
}
".
