(** * Files of the repository's unit tests, verbatim.

    Each definition is the text of one file under [/repo]; used by
    [Repo*Tests.v]. *)
From Coq Require Import String NArith List.
From Verif Require Import PyBase.
Local Open Scope string_scope.

(** [wip/setenvironment/src/setenvironment/unittests/config_test_setenvironment.ini] *)
Definition setenv_ini : str := lit
"[CONFIG_A]
envvar-set     FOO : bar
envvar-append  FOO : baz
envvar-prepend FOO : foo
envvar-set     BAR : foo
envvar-set     BAZ : bar
envvar-remove-substr FOO : bar
envvar-unset   FOO
envvar-remove  BAZ

[CONFIG_A+]
use CONFIG_A
use CONFIG_B+


[CONFIG_B]
module-purge
module-use             : src/setenvironment/unittests/modulefiles
module-load   gcc A    : 4.8.4
module-load   boost    : 1.10.1
module-load   python A : 3.5.3
module-load   gcc B    : 4.8.4
module-unload boost    :
module-unload python   :
module-load   python B : 3.9.0
module-swap   gcc      : gcc/7.3.0
module-remove python   :


[CONFIG_B+]
use CONFIG_B
use CONFIG_A+



[CONFIG_TEST_ENVVAR_REMOVE]
module-use         : /foo/bar/baz
envvar-set     FOO : bar
envvar-append  FOO : baz
envvar-prepend FOO : foo
envvar-set     BAR : foo
envvar-remove  FOO
envvar-remove  UNKNOWN


[ENVVAR_SET_FOO]
envvar-set FOO : BAR


[MODULE_USE_BADPATH]
module-use : this/is/a/bad/path



[MODULE_LOAD_NOEXIST]
module-load gcc : 1.2.3



[MODULE_LOAD_OK]
module-use      : src/setenvironment/unittests/modulefiles
module-load gcc : 7.3.0



[ENVVAR_VAR_EXPANSION]
envvar-set ENVVAR_PARAM_01 : ""AAA""
envvar-set ENVVAR_PARAM_02 : ""B${ENVVAR_PARAM_01}B""
envvar-set ENVVAR_PARAM_03 : ${ENVVAR_PARAM_01} -- ${ENVVAR_PARAM_02} -- ${ADFASF}



[ENVVAR_VAR_EXPANSION_BAD]
envvar-set ENVVAR_PARAM_01 : ""B${ENVVAR_PARAM_MISSING}B""



[CONFIG_ENVVAR_WITH_GENERIC_OPTION]
envvar-set     FOO : bar
envvar-append  FOO : baz
envvar-prepend FOO : foo
key1: value1


[ENVVAR_UNSET_TEST]
envvar-set     FOO : bar
envvar-unset   FOO
# FOO should be UNSET so unsetting again
# should exercise the condition if we try
# to unset a nonexistent envvar.
envvar-unset   FOO B


[ENVVAR_REMOVE_SUBSTR_TEST]
# Create an environment var FOO=""BAAAB""
envvar-set FOO           : BAAAB
# Removes all ""A"" substrings from FOO
envvar-remove-substr FOO : A
# Result should be: FOO=""BB""


[ENVVAR_REMOVE_SUBSTR_TEST_PATHS]
# USECASE 1:
envvar-set TEST_SETENVIRONMENT_PATH1 : /foo:/bar/baz:/bif
envvar-remove-substr TEST_SETENVIRONMENT_PATH1: /bar/baz
# Result of `/foo::/bif` is ok, but we should properly handle the `/` in the
# generated bash script when writing output to a file (will sed not work?)

# USECASE 2:
envvar-set TEST_SETENVIRONMENT_PATH2 : /foo:/bar:/bar/baz:/bif
envvar-remove-substr TEST_SETENVIRONMENT_PATH2: /bar
# Desired result is `/foo:/bar/baz:/bif`
# Result will probably be `/foo::/baz:/bif` which is wrong.


[ENVVAR_REMOVE_SUBSTR_TEST_NO_ENVVAR]
# Test removing from an envvar that doesn't exist.
envvar-unset FOO
envvar-remove-substr FOO: MEH!
# This should do nothing...


[ENVVAR_REMOVE_PATH_ENTRY_TEST]
# Test 1:
# Create an TEST_PATH1 = ""/foo:/bar:/bar/baz:/bar:/bif""
envvar_set TEST_PATH1 : /foo:/bar:/bar/baz:/bar:/bif
# Removes ""/bar"" from the path
envvar-remove-path-entry TEST_PATH1 : /bar
# Result should be: TEST_PATH1 = ""/foo:/bar/baz:/bif""

# Test 2:
# Try removing a nonexistent path substr
envvar-set TEST_PATH2 : /foo:/bar:/bar/baz:/bar:/bif
envvar-remove-path-entry TEST_PATH2 : /this/path/does/not/exist
# Result should be: /foo:/bar:/bar/baz:/bar:/bif

# Test 3:
# Remove a path that is longer than 1 dir
envvar-set TEST_PATH3 : /foo:/bar:/bar/baz:/bar:/bif
envvar-remove-path-entry TEST_PATH3 : /bar/baz
# Result should be: /foo:/bar:/bar:/bif

# Test 4:
# Try removing an entry from a non-existent path:
envvar-remove-path-entry TEST_PATH_NO_EXIST: /biz
# This shouldn't do anything...


[ENVVAR_FIND_IN_PATH_TEST]
envvar-set          TEST_ENVVAR_EXE  : ls
envvar-find-in-path TEST_ENVVAR_PATH : ${TEST_ENVVAR_EXE}

envvar-find-in-path TEST_ENVVAR_NOTFOUND : nonexistent-app


# Issue #12 : `envvar-assert-not-empty` testing
[ENVVAR_ASSERT_NOT_EMPTY]
envvar-set TEST_ENVVAR_VALUE_01: FOO
envvar-assert-not-empty TEST_ENVVAR_VALUE_01
# TEST_ENVVAR_VALUE_01 should be set and would pass the check

envvar-set TEST_ENVVAR_VALUE_02:
envvar-assert-not-empty TEST_ENVVAR_VALUE_02
# TEST_ENVVAR_VALUE_02 would be empty and thus would fail the check

envvar-set TEST_ENVVAR_VALUE_03:
envvar-assert-not-empty TEST_ENVVAR_VALUE_03: ERROR - TEST_ENVVAR_VALUE_03 is missing or empty.
# TEST_ENVVAR_VALUE_03 would be empty and thus would fail the check

envvar-unset TEST_ENVVAR_VALUE_04
envvar-assert-not-empty TEST_ENVVAR_VALUE_04
# TEST_ENVVAR_VALUE_02 would be unset and would fail the check

envvar-unset TEST_ENVVAR_VALUE_05
envvar-assert-not-empty TEST_ENVVAR_VALUE_05: ERROR - TEST_ENVVAR_VALUE_05 is missing or empty.
# TEST_ENVVAR_VALUE_02 would be unset and would fail the check

[ENVVAR_ASSERT_NOT_EMPTY_02]
envvar-unset TEST_ENVVAR
envvar-assert-not-empty TEST_ENVVAR : ""MY CUSTOM ERROR MESSAGE""


[ENVVAR_SET_IF_EMPTY_01]
# Cleanup
envvar-unset FOO_VAR
envvar-unset BAR_VAR
envvar-unset BAZ_VAR
envvar-unset BIF_VAR

# Set initial envvars
envvar-set FOO_VAR: FOO_VAL
envvar-set BAR_VAR:

# Test envvar-set-if-empty
envvar-set-if-empty FOO_VAR: BAR_VAL
envvar-set-if-empty BAR_VAR: BAR_VAL
envvar-set-if-empty BAZ_VAR: BAZ_VAL
envvar-set-if-empty BIF_VAR:

# Results should be:
# FOO_VAR == FOO_VAL
# BAR_VAR == BAR_VAL
# BAZ_VAR == BAZ_VAL
# BIF_VAR == """"

# Test module-load without version
[MODULE_LOAD_NO_VERSION]
module-unload gcc
module-unload boost
module-load gcc
module-load boost:
envvar-assert-not-empty TEST_SETENVIRONMENT_GCC_VER

[BASH_ENV_VAL_WITH_SPECIAL_CHARS_NOT_INTERPRETED]
envvar-set          SEMICOLON_SET:          value_with;semicolon
envvar-set          ASTERISK_SET:           value_with*asterisk
envvar-set-if-empty SEMICOLON_SET_IF_EMPTY: value_with;semicolon
envvar-set-if-empty ASTERISK_SET_IF_EMPTY:  value_with*asterisk
".

(** [wip/setenvironment/src/setenvironment/unittests/files/_ane-bash-inc_hdr-inc_body-inc_shbng.sh] *)
Definition truth_ane_bash_iii : str := lit
"#!/usr/bin/env bash
# ---------------------------------------------------
#   S E T E N V I R O N M E N T   F U N C T I O N S
# ---------------------------------------------------


# envvar_append_or_create
#  $1 = envvar name
#  $2 = string to append
function envvar_append_or_create() {
    if [[ ! -n ""${!1+1}"" ]]; then
        export ${1}=""${2}""
    else
        export ${1}=""${!1}:${2}""
    fi
}

# envvar_assert_not_empty
# $1 = envvar name
# $2 = optional error message
function envvar_assert_not_empty() {
    local envvar=${1}
    local message=${2}
    if [[ -z ""${!envvar}"" ]]; then
        if [[ -z ""${message}"" ]]; then
            echo ""ERROR: ${envvar} is empty or not set""
        else
            echo ""${message}""
        fi
        exit 1
    fi
}

# envvar_prepend_or_create
#  $1 = envvar name
#  $2 = string to prepend
function envvar_prepend_or_create() {
    if [[ ! -n ""${!1+1}"" ]]; then
        export ${1}=""${2}""
    else
        export ${1}=""${2}:${!1}""
    fi
}

# envvar_set_or_create
#  $1 = envvar name
#  $2 = string to set the value to.
function envvar_set_or_create() {
    export ${1:?}=""${2}""
}

# envvar_set_if_empty
# Param1: Envvar name
# Param2: Envvar value
function envvar_set_if_empty() {
    local ENVVAR_NAME=${1:?}
    local ENVVAR_VALUE=${2}
    if [[ -z ""${!ENVVAR_NAME}"" ]]; then
        export ${ENVVAR_NAME}=""${ENVVAR_VALUE}""
    fi
}

# envvar_remove_substr
# $1 = envvar name
# $2 = substring to remove
function envvar_remove_substr() {
    local envvar=${1:?}
    local substr=${2:?}
    #echo ""envvar   : ${envvar}"" > /dev/stdout
    #echo ""to_remove: ${substr}"" > /dev/stdout
    if [[ ""${substr}"" == *""#""* ]]; then
        printf ""%s\n"" ""ERROR: $FUNCNAME: ""$substr"" contains a '#' which is invalid."" 2>&1
        return
    fi
    if [ ! -z ${1:?} ]; then
        export ${envvar}=$(echo ${!envvar} | sed s#${substr}##g)
    fi
}

# envvar_remove_path_entry
# $1 = A path style envvar name
# $2 = Entry to remove from the path.
function envvar_remove_path_entry() {
    local envvar=${1:?}
    local to_remove=${2:?}
    local new_value=${!envvar}
    #echo -e ""envvar = ${envvar}"" > /dev/stdout
    #echo -e ""to_remove = ${to_remove}"" > /dev/stdout
    #echo -e ""new_value = ${new_value}"" > /dev/stdout
    if [ ! -z ${envvar} ]; then
        new_value=:${new_value}:
        new_value=${new_value//:${to_remove}:/:}
        new_value=${new_value#:1}
        new_value=${new_value%:1}
        export ${envvar}=${new_value}
    fi
}

# envvar_op
# $1 = operation    (set, append, prepend, unset)
# $2 = arg1         (envvar name)
# $3 = arg2         (envvar value - optional)
function envvar_op() {
    local op=${1:?}
    local arg1=${2:?}
    local arg2=${3}
    if [[ ""${op:?}"" == ""set"" ]]; then
        envvar_set_or_create ${arg1:?} ""${arg2}""
    elif [[ ""${op:?}"" == ""unset"" ]]; then
        unset ${arg1:?}
    elif [[ ""${op:?}"" == ""append"" ]]; then
        envvar_append_or_create ${arg1:?} ""${arg2:?}""
    elif [[ ""${op:?}"" == ""prepend"" ]]; then
        envvar_prepend_or_create ${arg1:?} ""${arg2:?}""
    elif [[ ""${op:?}"" == ""remove_substr"" ]]; then
        envvar_remove_substr ${arg1:?} ""${arg2:?}""
    elif [[ ""${op:?}"" == ""remove_path_entry"" ]]; then
        envvar_remove_path_entry ${arg1:?} ""${arg2:?}""
    elif [[ ""${op:?}"" == ""find_in_path"" ]]; then
        envvar_set_or_create ${arg1:?} ""$(which ${arg2:?})""
    elif [[ ""${op:?}"" == ""assert_not_empty"" ]]; then
        envvar_assert_not_empty ""${arg1:?}"" ""${arg2}""
    elif [[ ""${op:?}"" == ""set_if_empty"" ]]; then
        envvar_set_if_empty ""${arg1:?}"" ""${arg2}""
    else
        echo -e ""!! ERROR (BASH): Unknown operation: ${op:?}""
    fi
}


# -------------------------------------------------
#   S E T E N V I R O N M E N T   C O M M A N D S
# -------------------------------------------------
envvar_op set ""TEST_ENVVAR_VALUE_01"" ""FOO""
envvar_op assert_not_empty ""TEST_ENVVAR_VALUE_01"" """"
envvar_op set ""TEST_ENVVAR_VALUE_02"" """"
envvar_op assert_not_empty ""TEST_ENVVAR_VALUE_02"" """"
envvar_op set ""TEST_ENVVAR_VALUE_03"" """"
envvar_op assert_not_empty ""TEST_ENVVAR_VALUE_03"" ""ERROR - TEST_ENVVAR_VALUE_03 is missing or empty.""
envvar_op unset ""TEST_ENVVAR_VALUE_04""
envvar_op assert_not_empty ""TEST_ENVVAR_VALUE_04"" """"
envvar_op unset ""TEST_ENVVAR_VALUE_05""
envvar_op assert_not_empty ""TEST_ENVVAR_VALUE_05"" ""ERROR - TEST_ENVVAR_VALUE_05 is missing or empty.""


".

(** [wip/setenvironment/src/setenvironment/unittests/files/_ane-python-inc_hdr-inc_body-inc_shbng.py] *)
Definition truth_ane_python_iii : str := lit
"#!/usr/bin/env python3

# ---------------------------------------------------
#   S E T E N V I R O N M E N T   F U N C T I O N S
# ---------------------------------------------------
import os
import re
import sys

if not sys.version_info.major >= 3:
    raise Exception(""Minimum Python required is 3.x"")

from setenvironment import ModuleHelper


def envvar_set(envvar_name: str, envvar_value: str, allow_empty: bool = True) -> int:
    """"""Assign an environment variable.

    Assigns an environment variable (envvar) to a set value.
    Optionally raise an exception if the value is empty.

    Args:
        envvar_name (str): The name of the envvar.
        envvar_value (str): The value to set to the envvar.
        allow_empty (bool): If False, we throw a ``ValueError`` if
            ``envvar_value`` is empty. Default: True.

    Raises:
        TypeError: if:

            - ``envvar_value`` is not a string.
            - ``envvar_value`` is not a string.
            - ``allow_empty`` is not a bool.

        ValueError if:

            - ``allow_empty`` is True *and* ``envvar_value`` is an empty string.
    """"""
    if not isinstance(envvar_name, (str)):
        raise TypeError(""`envvar_name` must be a string."")
    if not isinstance(envvar_value, (str)):
        raise TypeError(""`envvar_value` must be a string."")
    if not isinstance(allow_empty, (bool)):
        raise TypeError(""`allow_empty` must be a boolean."")
    if not allow_empty and envvar_value == """":
        raise ValueError(""`envvar_value` must not be empty."")

    os.environ[envvar_name] = envvar_value
    return 0


def envvar_set_if_empty(envvar_name: str, envvar_value: str, allow_empty: bool = True) -> int:
    """"""Set an environment variable if it is empty or not set.

    Assigns an environment variable (envvar) to a value if
    the envvar either does not exist or is empty.

    Args:
        envvar_name (str): The name of the envvar.
        envvar_value (str): The value to set to the envvar.
        allow_empty (bool): If False, we throw a ``ValueError`` if
            ``envvar_value`` is empty. Default: True.

    Returns:
        int: Returns a zero.

    Raises:
        TypeError: if:

            - ``envvar_value`` is not a string.
            - ``envvar_value`` is not a string.
            - ``allow_empty`` is not a bool.

        ValueError if:

            - ``allow_empty`` is True *and* ``envvar_value`` is an empty string.
    """"""
    if not isinstance(envvar_name, (str)):
        raise TypeError(""`envvar_name` must be a string."")
    if not isinstance(envvar_value, (str)):
        raise TypeError(""`envvar_value` must be a string."")
    if not isinstance(allow_empty, (bool)):
        raise TypeError(""`allow_empty` must be a boolean."")
    if not allow_empty and envvar_value == """":
        raise ValueError(""`envvar_value` must not be empty."")

    if envvar_name not in os.environ.keys() or os.environ[envvar_name] == """":
        os.environ[envvar_name] = envvar_value
    return 0


def envvar_find_in_path(exe_file) -> str:
    """"""Find an executable file in the current search path.

    This function attempts to locate an executable app in the current
    search path. If found it will return the path to the application,
    otherwise an exception is raised.

    Args:
        exe_file (str, Path): An executable application file to locate.

    Raises:
        FileNotFoundError: If the executable is not located we will
            raise this exception.
    """"""
    import distutils.spawn
    import shutil

    output = None
    try:
        output = distutils.spawn.find_executable(exe_file)
        if output is None:
            raise FileNotFoundError(""Unable to find {}"".format(exe_file))
    except:
        output = shutil.which(exe_file)
        if output is None:
            raise FileNotFoundError(""Unable to find {}"".format(exe_file))

    return str(output)


def envvar_op(op, envvar_name: str, envvar_value: str = """", allow_empty: bool = True) -> int:
    """"""Envvar operation helper

    This function generates a wrapper for envvar operations.

    Args:
        op (str): The operation to execute. Valid entries are:

          - ``set`` - Sets or resets an envvar to the specified value.
          - ``append`` - Append a value to an existing envvar
              or set if it doesn't exist.
          - ``prepend`` - Prepend a value to an existing envvar
              or set if it doesn't exist.
          - ``unset`` - Unset (delete) an envvar if it exists.
          - ``remove_substr`` - Removes a substring from an existing envvar.

        envvar_name (str): The *name* of the envvar to be modified.
        envvar_value (str): Optional envvar value for operations that
            need to set a value. Default: """"
        allow_empty (bool): If False, we throw a ``ValueError`` if
            assignment of an empty value is attempted. Default: True.
    """"""
    if not isinstance(envvar_name, (str)):
        raise TypeError(""`envvar_name` must be a string."")
    if not isinstance(envvar_value, (str)):
        raise TypeError(""`envvar_value` must be a string."")
    if not isinstance(allow_empty, (bool)):
        raise TypeError(""`allow_empty` must be a boolean."")
    if not allow_empty and envvar_value == """":
        raise ValueError(""`envvar_value` must not be empty."")

    envvar_exists = envvar_name in os.environ.keys()
    envvar_value_old = [os.environ[envvar_name]] if envvar_exists else []

    if envvar_value != """" and '$' in envvar_value:
        envvar_value = os.path.expandvars(envvar_value)

    if op == ""set"":
        envvar_set(envvar_name, envvar_value, allow_empty)
    elif op == ""set_if_empty"":
        envvar_set_if_empty(envvar_name, envvar_value, allow_empty)
    elif op == ""append"":
        tmp = envvar_value_old + [envvar_value]
        newval = os.pathsep.join(tmp)
        envvar_set(envvar_name, newval, allow_empty)
    elif op == ""prepend"":
        tmp = [envvar_value] + envvar_value_old
        newval = os.pathsep.join(tmp)
        envvar_set(envvar_name, newval, allow_empty)
    elif op == ""unset"":
        if envvar_exists:
            del os.environ[envvar_name]
    elif op == ""remove_substr"":
        if envvar_exists:
            newval = os.environ[envvar_name].replace(envvar_value, """")
            envvar_set(envvar_name, newval, allow_empty)
    elif op == ""remove_path_entry"":
        if envvar_exists:
            entry_list_old = os.environ[envvar_name].split(os.pathsep)
            entry_list_new = [x for x in entry_list_old if x != envvar_value]
            newval = os.pathsep.join(entry_list_new)
            envvar_set(envvar_name, newval, allow_empty)
    elif op == ""find_in_path"":
        try:
            envvar_value = envvar_find_in_path(envvar_value)
        except FileNotFoundError:
            envvar_value = """"
        envvar_set(envvar_name, envvar_value, allow_empty)
    elif op == ""assert_not_empty"":
        if not envvar_exists or os.environ[envvar_name] == """":
            message = ""ERROR: Required envvar `{}` is not set."".format(envvar_name)
            if envvar_value != """":
                message = envvar_value
            raise ValueError(message)
    else:
        raise ValueError(""Unknown command `{}`."".format(op))
    return 0


# -------------------------------------------------
#   S E T E N V I R O N M E N T   C O M M A N D S
# -------------------------------------------------
envvar_op(""set"",""TEST_ENVVAR_VALUE_01"",""FOO"")
envvar_op(""assert_not_empty"",""TEST_ENVVAR_VALUE_01"","""")
envvar_op(""set"",""TEST_ENVVAR_VALUE_02"","""")
envvar_op(""assert_not_empty"",""TEST_ENVVAR_VALUE_02"","""")
envvar_op(""set"",""TEST_ENVVAR_VALUE_03"","""")
envvar_op(""assert_not_empty"",""TEST_ENVVAR_VALUE_03"",""ERROR - TEST_ENVVAR_VALUE_03 is missing or empty."")
envvar_op(""unset"",""TEST_ENVVAR_VALUE_04"")
envvar_op(""assert_not_empty"",""TEST_ENVVAR_VALUE_04"","""")
envvar_op(""unset"",""TEST_ENVVAR_VALUE_05"")
envvar_op(""assert_not_empty"",""TEST_ENVVAR_VALUE_05"",""ERROR - TEST_ENVVAR_VALUE_05 is missing or empty."")


".

(** [wip/setenvironment/src/setenvironment/unittests/files/_config-bash-exc_hdr-exc_body-exc_shbng.sh] *)
Definition truth_config_bash_eee : str := lit
"".

(** [wip/setenvironment/src/setenvironment/unittests/files/_config-bash-exc_hdr-exc_body-inc_shbng.sh] *)
Definition truth_config_bash_eei : str := lit
"".

(** [wip/setenvironment/src/setenvironment/unittests/files/_config-bash-exc_hdr-inc_body-exc_shbng.sh] *)
Definition truth_config_bash_eie : str := lit
"# -------------------------------------------------
#   S E T E N V I R O N M E N T   C O M M A N D S
# -------------------------------------------------
envvar_op set ""FOO"" ""bar""
envvar_op append ""FOO"" ""baz""
envvar_op prepend ""FOO"" ""foo""
envvar_op set ""BAR"" ""foo""
envvar_op remove_substr ""FOO"" ""bar""
envvar_op unset ""FOO""
module purge
module use src/setenvironment/unittests/modulefiles
module load gcc/4.8.4
module load boost/1.10.1
module load gcc/4.8.4
module unload boost
module swap gcc gcc/7.3.0


".

(** [wip/setenvironment/src/setenvironment/unittests/files/_config-bash-exc_hdr-inc_body-inc_shbng.sh] *)
Definition truth_config_bash_eii : str := lit
"#!/usr/bin/env bash
# -------------------------------------------------
#   S E T E N V I R O N M E N T   C O M M A N D S
# -------------------------------------------------
envvar_op set ""FOO"" ""bar""
envvar_op append ""FOO"" ""baz""
envvar_op prepend ""FOO"" ""foo""
envvar_op set ""BAR"" ""foo""
envvar_op remove_substr ""FOO"" ""bar""
envvar_op unset ""FOO""
module purge
module use src/setenvironment/unittests/modulefiles
module load gcc/4.8.4
module load boost/1.10.1
module load gcc/4.8.4
module unload boost
module swap gcc gcc/7.3.0


".

(** [wip/setenvironment/src/setenvironment/unittests/files/_config-bash-inc_hdr-exc_body-exc_shbng.sh] *)
Definition truth_config_bash_iee : str := lit
"# ---------------------------------------------------
#   S E T E N V I R O N M E N T   F U N C T I O N S
# ---------------------------------------------------


# envvar_append_or_create
#  $1 = envvar name
#  $2 = string to append
function envvar_append_or_create() {
    if [[ ! -n ""${!1+1}"" ]]; then
        export ${1}=""${2}""
    else
        export ${1}=""${!1}:${2}""
    fi
}

# envvar_assert_not_empty
# $1 = envvar name
# $2 = optional error message
function envvar_assert_not_empty() {
    local envvar=${1}
    local message=${2}
    if [[ -z ""${!envvar}"" ]]; then
        if [[ -z ""${message}"" ]]; then
            echo ""ERROR: ${envvar} is empty or not set""
        else
            echo ""${message}""
        fi
        exit 1
    fi
}

# envvar_prepend_or_create
#  $1 = envvar name
#  $2 = string to prepend
function envvar_prepend_or_create() {
    if [[ ! -n ""${!1+1}"" ]]; then
        export ${1}=""${2}""
    else
        export ${1}=""${2}:${!1}""
    fi
}

# envvar_set_or_create
#  $1 = envvar name
#  $2 = string to set the value to.
function envvar_set_or_create() {
    export ${1:?}=""${2}""
}

# envvar_set_if_empty
# Param1: Envvar name
# Param2: Envvar value
function envvar_set_if_empty() {
    local ENVVAR_NAME=${1:?}
    local ENVVAR_VALUE=${2}
    if [[ -z ""${!ENVVAR_NAME}"" ]]; then
        export ${ENVVAR_NAME}=""${ENVVAR_VALUE}""
    fi
}

# envvar_remove_substr
# $1 = envvar name
# $2 = substring to remove
function envvar_remove_substr() {
    local envvar=${1:?}
    local substr=${2:?}
    #echo ""envvar   : ${envvar}"" > /dev/stdout
    #echo ""to_remove: ${substr}"" > /dev/stdout
    if [[ ""${substr}"" == *""#""* ]]; then
        printf ""%s\n"" ""ERROR: $FUNCNAME: ""$substr"" contains a '#' which is invalid."" 2>&1
        return
    fi
    if [ ! -z ${1:?} ]; then
        export ${envvar}=$(echo ${!envvar} | sed s#${substr}##g)
    fi
}

# envvar_remove_path_entry
# $1 = A path style envvar name
# $2 = Entry to remove from the path.
function envvar_remove_path_entry() {
    local envvar=${1:?}
    local to_remove=${2:?}
    local new_value=${!envvar}
    #echo -e ""envvar = ${envvar}"" > /dev/stdout
    #echo -e ""to_remove = ${to_remove}"" > /dev/stdout
    #echo -e ""new_value = ${new_value}"" > /dev/stdout
    if [ ! -z ${envvar} ]; then
        new_value=:${new_value}:
        new_value=${new_value//:${to_remove}:/:}
        new_value=${new_value#:1}
        new_value=${new_value%:1}
        export ${envvar}=${new_value}
    fi
}

# envvar_op
# $1 = operation    (set, append, prepend, unset)
# $2 = arg1         (envvar name)
# $3 = arg2         (envvar value - optional)
function envvar_op() {
    local op=${1:?}
    local arg1=${2:?}
    local arg2=${3}
    if [[ ""${op:?}"" == ""set"" ]]; then
        envvar_set_or_create ${arg1:?} ""${arg2}""
    elif [[ ""${op:?}"" == ""unset"" ]]; then
        unset ${arg1:?}
    elif [[ ""${op:?}"" == ""append"" ]]; then
        envvar_append_or_create ${arg1:?} ""${arg2:?}""
    elif [[ ""${op:?}"" == ""prepend"" ]]; then
        envvar_prepend_or_create ${arg1:?} ""${arg2:?}""
    elif [[ ""${op:?}"" == ""remove_substr"" ]]; then
        envvar_remove_substr ${arg1:?} ""${arg2:?}""
    elif [[ ""${op:?}"" == ""remove_path_entry"" ]]; then
        envvar_remove_path_entry ${arg1:?} ""${arg2:?}""
    elif [[ ""${op:?}"" == ""find_in_path"" ]]; then
        envvar_set_or_create ${arg1:?} ""$(which ${arg2:?})""
    elif [[ ""${op:?}"" == ""assert_not_empty"" ]]; then
        envvar_assert_not_empty ""${arg1:?}"" ""${arg2}""
    elif [[ ""${op:?}"" == ""set_if_empty"" ]]; then
        envvar_set_if_empty ""${arg1:?}"" ""${arg2}""
    else
        echo -e ""!! ERROR (BASH): Unknown operation: ${op:?}""
    fi
}


".

(** [wip/setenvironment/src/setenvironment/unittests/files/_config-bash-inc_hdr-exc_body-inc_shbng.sh] *)
Definition truth_config_bash_iei : str := lit
"#!/usr/bin/env bash
# ---------------------------------------------------
#   S E T E N V I R O N M E N T   F U N C T I O N S
# ---------------------------------------------------


# envvar_append_or_create
#  $1 = envvar name
#  $2 = string to append
function envvar_append_or_create() {
    if [[ ! -n ""${!1+1}"" ]]; then
        export ${1}=""${2}""
    else
        export ${1}=""${!1}:${2}""
    fi
}

# envvar_assert_not_empty
# $1 = envvar name
# $2 = optional error message
function envvar_assert_not_empty() {
    local envvar=${1}
    local message=${2}
    if [[ -z ""${!envvar}"" ]]; then
        if [[ -z ""${message}"" ]]; then
            echo ""ERROR: ${envvar} is empty or not set""
        else
            echo ""${message}""
        fi
        exit 1
    fi
}

# envvar_prepend_or_create
#  $1 = envvar name
#  $2 = string to prepend
function envvar_prepend_or_create() {
    if [[ ! -n ""${!1+1}"" ]]; then
        export ${1}=""${2}""
    else
        export ${1}=""${2}:${!1}""
    fi
}

# envvar_set_or_create
#  $1 = envvar name
#  $2 = string to set the value to.
function envvar_set_or_create() {
    export ${1:?}=""${2}""
}

# envvar_set_if_empty
# Param1: Envvar name
# Param2: Envvar value
function envvar_set_if_empty() {
    local ENVVAR_NAME=${1:?}
    local ENVVAR_VALUE=${2}
    if [[ -z ""${!ENVVAR_NAME}"" ]]; then
        export ${ENVVAR_NAME}=""${ENVVAR_VALUE}""
    fi
}

# envvar_remove_substr
# $1 = envvar name
# $2 = substring to remove
function envvar_remove_substr() {
    local envvar=${1:?}
    local substr=${2:?}
    #echo ""envvar   : ${envvar}"" > /dev/stdout
    #echo ""to_remove: ${substr}"" > /dev/stdout
    if [[ ""${substr}"" == *""#""* ]]; then
        printf ""%s\n"" ""ERROR: $FUNCNAME: ""$substr"" contains a '#' which is invalid."" 2>&1
        return
    fi
    if [ ! -z ${1:?} ]; then
        export ${envvar}=$(echo ${!envvar} | sed s#${substr}##g)
    fi
}

# envvar_remove_path_entry
# $1 = A path style envvar name
# $2 = Entry to remove from the path.
function envvar_remove_path_entry() {
    local envvar=${1:?}
    local to_remove=${2:?}
    local new_value=${!envvar}
    #echo -e ""envvar = ${envvar}"" > /dev/stdout
    #echo -e ""to_remove = ${to_remove}"" > /dev/stdout
    #echo -e ""new_value = ${new_value}"" > /dev/stdout
    if [ ! -z ${envvar} ]; then
        new_value=:${new_value}:
        new_value=${new_value//:${to_remove}:/:}
        new_value=${new_value#:1}
        new_value=${new_value%:1}
        export ${envvar}=${new_value}
    fi
}

# envvar_op
# $1 = operation    (set, append, prepend, unset)
# $2 = arg1         (envvar name)
# $3 = arg2         (envvar value - optional)
function envvar_op() {
    local op=${1:?}
    local arg1=${2:?}
    local arg2=${3}
    if [[ ""${op:?}"" == ""set"" ]]; then
        envvar_set_or_create ${arg1:?} ""${arg2}""
    elif [[ ""${op:?}"" == ""unset"" ]]; then
        unset ${arg1:?}
    elif [[ ""${op:?}"" == ""append"" ]]; then
        envvar_append_or_create ${arg1:?} ""${arg2:?}""
    elif [[ ""${op:?}"" == ""prepend"" ]]; then
        envvar_prepend_or_create ${arg1:?} ""${arg2:?}""
    elif [[ ""${op:?}"" == ""remove_substr"" ]]; then
        envvar_remove_substr ${arg1:?} ""${arg2:?}""
    elif [[ ""${op:?}"" == ""remove_path_entry"" ]]; then
        envvar_remove_path_entry ${arg1:?} ""${arg2:?}""
    elif [[ ""${op:?}"" == ""find_in_path"" ]]; then
        envvar_set_or_create ${arg1:?} ""$(which ${arg2:?})""
    elif [[ ""${op:?}"" == ""assert_not_empty"" ]]; then
        envvar_assert_not_empty ""${arg1:?}"" ""${arg2}""
    elif [[ ""${op:?}"" == ""set_if_empty"" ]]; then
        envvar_set_if_empty ""${arg1:?}"" ""${arg2}""
    else
        echo -e ""!! ERROR (BASH): Unknown operation: ${op:?}""
    fi
}


".

(** [wip/setenvironment/src/setenvironment/unittests/files/_config-bash-inc_hdr-inc_body-exc_shbng.sh] *)
Definition truth_config_bash_iie : str := lit
"# ---------------------------------------------------
#   S E T E N V I R O N M E N T   F U N C T I O N S
# ---------------------------------------------------


# envvar_append_or_create
#  $1 = envvar name
#  $2 = string to append
function envvar_append_or_create() {
    if [[ ! -n ""${!1+1}"" ]]; then
        export ${1}=""${2}""
    else
        export ${1}=""${!1}:${2}""
    fi
}

# envvar_assert_not_empty
# $1 = envvar name
# $2 = optional error message
function envvar_assert_not_empty() {
    local envvar=${1}
    local message=${2}
    if [[ -z ""${!envvar}"" ]]; then
        if [[ -z ""${message}"" ]]; then
            echo ""ERROR: ${envvar} is empty or not set""
        else
            echo ""${message}""
        fi
        exit 1
    fi
}

# envvar_prepend_or_create
#  $1 = envvar name
#  $2 = string to prepend
function envvar_prepend_or_create() {
    if [[ ! -n ""${!1+1}"" ]]; then
        export ${1}=""${2}""
    else
        export ${1}=""${2}:${!1}""
    fi
}

# envvar_set_or_create
#  $1 = envvar name
#  $2 = string to set the value to.
function envvar_set_or_create() {
    export ${1:?}=""${2}""
}

# envvar_set_if_empty
# Param1: Envvar name
# Param2: Envvar value
function envvar_set_if_empty() {
    local ENVVAR_NAME=${1:?}
    local ENVVAR_VALUE=${2}
    if [[ -z ""${!ENVVAR_NAME}"" ]]; then
        export ${ENVVAR_NAME}=""${ENVVAR_VALUE}""
    fi
}

# envvar_remove_substr
# $1 = envvar name
# $2 = substring to remove
function envvar_remove_substr() {
    local envvar=${1:?}
    local substr=${2:?}
    #echo ""envvar   : ${envvar}"" > /dev/stdout
    #echo ""to_remove: ${substr}"" > /dev/stdout
    if [[ ""${substr}"" == *""#""* ]]; then
        printf ""%s\n"" ""ERROR: $FUNCNAME: ""$substr"" contains a '#' which is invalid."" 2>&1
        return
    fi
    if [ ! -z ${1:?} ]; then
        export ${envvar}=$(echo ${!envvar} | sed s#${substr}##g)
    fi
}

# envvar_remove_path_entry
# $1 = A path style envvar name
# $2 = Entry to remove from the path.
function envvar_remove_path_entry() {
    local envvar=${1:?}
    local to_remove=${2:?}
    local new_value=${!envvar}
    #echo -e ""envvar = ${envvar}"" > /dev/stdout
    #echo -e ""to_remove = ${to_remove}"" > /dev/stdout
    #echo -e ""new_value = ${new_value}"" > /dev/stdout
    if [ ! -z ${envvar} ]; then
        new_value=:${new_value}:
        new_value=${new_value//:${to_remove}:/:}
        new_value=${new_value#:1}
        new_value=${new_value%:1}
        export ${envvar}=${new_value}
    fi
}

# envvar_op
# $1 = operation    (set, append, prepend, unset)
# $2 = arg1         (envvar name)
# $3 = arg2         (envvar value - optional)
function envvar_op() {
    local op=${1:?}
    local arg1=${2:?}
    local arg2=${3}
    if [[ ""${op:?}"" == ""set"" ]]; then
        envvar_set_or_create ${arg1:?} ""${arg2}""
    elif [[ ""${op:?}"" == ""unset"" ]]; then
        unset ${arg1:?}
    elif [[ ""${op:?}"" == ""append"" ]]; then
        envvar_append_or_create ${arg1:?} ""${arg2:?}""
    elif [[ ""${op:?}"" == ""prepend"" ]]; then
        envvar_prepend_or_create ${arg1:?} ""${arg2:?}""
    elif [[ ""${op:?}"" == ""remove_substr"" ]]; then
        envvar_remove_substr ${arg1:?} ""${arg2:?}""
    elif [[ ""${op:?}"" == ""remove_path_entry"" ]]; then
        envvar_remove_path_entry ${arg1:?} ""${arg2:?}""
    elif [[ ""${op:?}"" == ""find_in_path"" ]]; then
        envvar_set_or_create ${arg1:?} ""$(which ${arg2:?})""
    elif [[ ""${op:?}"" == ""assert_not_empty"" ]]; then
        envvar_assert_not_empty ""${arg1:?}"" ""${arg2}""
    elif [[ ""${op:?}"" == ""set_if_empty"" ]]; then
        envvar_set_if_empty ""${arg1:?}"" ""${arg2}""
    else
        echo -e ""!! ERROR (BASH): Unknown operation: ${op:?}""
    fi
}


# -------------------------------------------------
#   S E T E N V I R O N M E N T   C O M M A N D S
# -------------------------------------------------
envvar_op set ""FOO"" ""bar""
envvar_op append ""FOO"" ""baz""
envvar_op prepend ""FOO"" ""foo""
envvar_op set ""BAR"" ""foo""
envvar_op remove_substr ""FOO"" ""bar""
envvar_op unset ""FOO""
module purge
module use src/setenvironment/unittests/modulefiles
module load gcc/4.8.4
module load boost/1.10.1
module load gcc/4.8.4
module unload boost
module swap gcc gcc/7.3.0


".

(** [wip/setenvironment/src/setenvironment/unittests/files/_config-bash-inc_hdr-inc_body-inc_shbng.sh] *)
Definition truth_config_bash_iii : str := lit
"#!/usr/bin/env bash
# ---------------------------------------------------
#   S E T E N V I R O N M E N T   F U N C T I O N S
# ---------------------------------------------------


# envvar_append_or_create
#  $1 = envvar name
#  $2 = string to append
function envvar_append_or_create() {
    if [[ ! -n ""${!1+1}"" ]]; then
        export ${1}=""${2}""
    else
        export ${1}=""${!1}:${2}""
    fi
}

# envvar_assert_not_empty
# $1 = envvar name
# $2 = optional error message
function envvar_assert_not_empty() {
    local envvar=${1}
    local message=${2}
    if [[ -z ""${!envvar}"" ]]; then
        if [[ -z ""${message}"" ]]; then
            echo ""ERROR: ${envvar} is empty or not set""
        else
            echo ""${message}""
        fi
        exit 1
    fi
}

# envvar_prepend_or_create
#  $1 = envvar name
#  $2 = string to prepend
function envvar_prepend_or_create() {
    if [[ ! -n ""${!1+1}"" ]]; then
        export ${1}=""${2}""
    else
        export ${1}=""${2}:${!1}""
    fi
}

# envvar_set_or_create
#  $1 = envvar name
#  $2 = string to set the value to.
function envvar_set_or_create() {
    export ${1:?}=""${2}""
}

# envvar_set_if_empty
# Param1: Envvar name
# Param2: Envvar value
function envvar_set_if_empty() {
    local ENVVAR_NAME=${1:?}
    local ENVVAR_VALUE=${2}
    if [[ -z ""${!ENVVAR_NAME}"" ]]; then
        export ${ENVVAR_NAME}=""${ENVVAR_VALUE}""
    fi
}

# envvar_remove_substr
# $1 = envvar name
# $2 = substring to remove
function envvar_remove_substr() {
    local envvar=${1:?}
    local substr=${2:?}
    #echo ""envvar   : ${envvar}"" > /dev/stdout
    #echo ""to_remove: ${substr}"" > /dev/stdout
    if [[ ""${substr}"" == *""#""* ]]; then
        printf ""%s\n"" ""ERROR: $FUNCNAME: ""$substr"" contains a '#' which is invalid."" 2>&1
        return
    fi
    if [ ! -z ${1:?} ]; then
        export ${envvar}=$(echo ${!envvar} | sed s#${substr}##g)
    fi
}

# envvar_remove_path_entry
# $1 = A path style envvar name
# $2 = Entry to remove from the path.
function envvar_remove_path_entry() {
    local envvar=${1:?}
    local to_remove=${2:?}
    local new_value=${!envvar}
    #echo -e ""envvar = ${envvar}"" > /dev/stdout
    #echo -e ""to_remove = ${to_remove}"" > /dev/stdout
    #echo -e ""new_value = ${new_value}"" > /dev/stdout
    if [ ! -z ${envvar} ]; then
        new_value=:${new_value}:
        new_value=${new_value//:${to_remove}:/:}
        new_value=${new_value#:1}
        new_value=${new_value%:1}
        export ${envvar}=${new_value}
    fi
}

# envvar_op
# $1 = operation    (set, append, prepend, unset)
# $2 = arg1         (envvar name)
# $3 = arg2         (envvar value - optional)
function envvar_op() {
    local op=${1:?}
    local arg1=${2:?}
    local arg2=${3}
    if [[ ""${op:?}"" == ""set"" ]]; then
        envvar_set_or_create ${arg1:?} ""${arg2}""
    elif [[ ""${op:?}"" == ""unset"" ]]; then
        unset ${arg1:?}
    elif [[ ""${op:?}"" == ""append"" ]]; then
        envvar_append_or_create ${arg1:?} ""${arg2:?}""
    elif [[ ""${op:?}"" == ""prepend"" ]]; then
        envvar_prepend_or_create ${arg1:?} ""${arg2:?}""
    elif [[ ""${op:?}"" == ""remove_substr"" ]]; then
        envvar_remove_substr ${arg1:?} ""${arg2:?}""
    elif [[ ""${op:?}"" == ""remove_path_entry"" ]]; then
        envvar_remove_path_entry ${arg1:?} ""${arg2:?}""
    elif [[ ""${op:?}"" == ""find_in_path"" ]]; then
        envvar_set_or_create ${arg1:?} ""$(which ${arg2:?})""
    elif [[ ""${op:?}"" == ""assert_not_empty"" ]]; then
        envvar_assert_not_empty ""${arg1:?}"" ""${arg2}""
    elif [[ ""${op:?}"" == ""set_if_empty"" ]]; then
        envvar_set_if_empty ""${arg1:?}"" ""${arg2}""
    else
        echo -e ""!! ERROR (BASH): Unknown operation: ${op:?}""
    fi
}


# -------------------------------------------------
#   S E T E N V I R O N M E N T   C O M M A N D S
# -------------------------------------------------
envvar_op set ""FOO"" ""bar""
envvar_op append ""FOO"" ""baz""
envvar_op prepend ""FOO"" ""foo""
envvar_op set ""BAR"" ""foo""
envvar_op remove_substr ""FOO"" ""bar""
envvar_op unset ""FOO""
module purge
module use src/setenvironment/unittests/modulefiles
module load gcc/4.8.4
module load boost/1.10.1
module load gcc/4.8.4
module unload boost
module swap gcc gcc/7.3.0


".

(** [wip/setenvironment/src/setenvironment/unittests/files/_config-python-exc_hdr-exc_body-exc_shbng.py] *)
Definition truth_config_python_eee : str := lit
"".

(** [wip/setenvironment/src/setenvironment/unittests/files/_config-python-exc_hdr-exc_body-inc_shbng.py] *)
Definition truth_config_python_eei : str := lit
"".

(** [wip/setenvironment/src/setenvironment/unittests/files/_config-python-exc_hdr-inc_body-exc_shbng.py] *)
Definition truth_config_python_eie : str := lit
"# -------------------------------------------------
#   S E T E N V I R O N M E N T   C O M M A N D S
# -------------------------------------------------
envvar_op(""set"",""FOO"",""bar"")
envvar_op(""append"",""FOO"",""baz"")
envvar_op(""prepend"",""FOO"",""foo"")
envvar_op(""set"",""BAR"",""foo"")
envvar_op(""remove_substr"",""FOO"",""bar"")
envvar_op(""unset"",""FOO"")
ModuleHelper.module(""purge"")
ModuleHelper.module(""use"",""src/setenvironment/unittests/modulefiles"")
ModuleHelper.module(""load"",""gcc/4.8.4"")
ModuleHelper.module(""load"",""boost/1.10.1"")
ModuleHelper.module(""load"",""gcc/4.8.4"")
ModuleHelper.module(""unload"",""boost"")
ModuleHelper.module(""swap"",""gcc"",""gcc/7.3.0"")


".

(** [wip/setenvironment/src/setenvironment/unittests/files/_config-python-exc_hdr-inc_body-inc_shbng.py] *)
Definition truth_config_python_eii : str := lit
"#!/usr/bin/env python3
# -------------------------------------------------
#   S E T E N V I R O N M E N T   C O M M A N D S
# -------------------------------------------------
envvar_op(""set"",""FOO"",""bar"")
envvar_op(""append"",""FOO"",""baz"")
envvar_op(""prepend"",""FOO"",""foo"")
envvar_op(""set"",""BAR"",""foo"")
envvar_op(""remove_substr"",""FOO"",""bar"")
envvar_op(""unset"",""FOO"")
ModuleHelper.module(""purge"")
ModuleHelper.module(""use"",""src/setenvironment/unittests/modulefiles"")
ModuleHelper.module(""load"",""gcc/4.8.4"")
ModuleHelper.module(""load"",""boost/1.10.1"")
ModuleHelper.module(""load"",""gcc/4.8.4"")
ModuleHelper.module(""unload"",""boost"")
ModuleHelper.module(""swap"",""gcc"",""gcc/7.3.0"")


".

(** [wip/setenvironment/src/setenvironment/unittests/files/_config-python-inc_hdr-exc_body-exc_shbng.py] *)
Definition truth_config_python_iee : str := lit
"
# ---------------------------------------------------
#   S E T E N V I R O N M E N T   F U N C T I O N S
# ---------------------------------------------------
import os
import re
import sys

if not sys.version_info.major >= 3:
    raise Exception(""Minimum Python required is 3.x"")

from setenvironment import ModuleHelper


def envvar_set(envvar_name: str, envvar_value: str, allow_empty: bool = True) -> int:
    """"""Assign an environment variable.

    Assigns an environment variable (envvar) to a set value.
    Optionally raise an exception if the value is empty.

    Args:
        envvar_name (str): The name of the envvar.
        envvar_value (str): The value to set to the envvar.
        allow_empty (bool): If False, we throw a ``ValueError`` if
            ``envvar_value`` is empty. Default: True.

    Raises:
        TypeError: if:

            - ``envvar_value`` is not a string.
            - ``envvar_value`` is not a string.
            - ``allow_empty`` is not a bool.

        ValueError if:

            - ``allow_empty`` is True *and* ``envvar_value`` is an empty string.
    """"""
    if not isinstance(envvar_name, (str)):
        raise TypeError(""`envvar_name` must be a string."")
    if not isinstance(envvar_value, (str)):
        raise TypeError(""`envvar_value` must be a string."")
    if not isinstance(allow_empty, (bool)):
        raise TypeError(""`allow_empty` must be a boolean."")
    if not allow_empty and envvar_value == """":
        raise ValueError(""`envvar_value` must not be empty."")

    os.environ[envvar_name] = envvar_value
    return 0


def envvar_set_if_empty(envvar_name: str, envvar_value: str, allow_empty: bool = True) -> int:
    """"""Set an environment variable if it is empty or not set.

    Assigns an environment variable (envvar) to a value if
    the envvar either does not exist or is empty.

    Args:
        envvar_name (str): The name of the envvar.
        envvar_value (str): The value to set to the envvar.
        allow_empty (bool): If False, we throw a ``ValueError`` if
            ``envvar_value`` is empty. Default: True.

    Returns:
        int: Returns a zero.

    Raises:
        TypeError: if:

            - ``envvar_value`` is not a string.
            - ``envvar_value`` is not a string.
            - ``allow_empty`` is not a bool.

        ValueError if:

            - ``allow_empty`` is True *and* ``envvar_value`` is an empty string.
    """"""
    if not isinstance(envvar_name, (str)):
        raise TypeError(""`envvar_name` must be a string."")
    if not isinstance(envvar_value, (str)):
        raise TypeError(""`envvar_value` must be a string."")
    if not isinstance(allow_empty, (bool)):
        raise TypeError(""`allow_empty` must be a boolean."")
    if not allow_empty and envvar_value == """":
        raise ValueError(""`envvar_value` must not be empty."")

    if envvar_name not in os.environ.keys() or os.environ[envvar_name] == """":
        os.environ[envvar_name] = envvar_value
    return 0


def envvar_find_in_path(exe_file) -> str:
    """"""Find an executable file in the current search path.

    This function attempts to locate an executable app in the current
    search path. If found it will return the path to the application,
    otherwise an exception is raised.

    Args:
        exe_file (str, Path): An executable application file to locate.

    Raises:
        FileNotFoundError: If the executable is not located we will
            raise this exception.
    """"""
    import distutils.spawn
    import shutil

    output = None
    try:
        output = distutils.spawn.find_executable(exe_file)
        if output is None:
            raise FileNotFoundError(""Unable to find {}"".format(exe_file))
    except:
        output = shutil.which(exe_file)
        if output is None:
            raise FileNotFoundError(""Unable to find {}"".format(exe_file))

    return str(output)


def envvar_op(op, envvar_name: str, envvar_value: str = """", allow_empty: bool = True) -> int:
    """"""Envvar operation helper

    This function generates a wrapper for envvar operations.

    Args:
        op (str): The operation to execute. Valid entries are:

          - ``set`` - Sets or resets an envvar to the specified value.
          - ``append`` - Append a value to an existing envvar
              or set if it doesn't exist.
          - ``prepend`` - Prepend a value to an existing envvar
              or set if it doesn't exist.
          - ``unset`` - Unset (delete) an envvar if it exists.
          - ``remove_substr`` - Removes a substring from an existing envvar.

        envvar_name (str): The *name* of the envvar to be modified.
        envvar_value (str): Optional envvar value for operations that
            need to set a value. Default: """"
        allow_empty (bool): If False, we throw a ``ValueError`` if
            assignment of an empty value is attempted. Default: True.
    """"""
    if not isinstance(envvar_name, (str)):
        raise TypeError(""`envvar_name` must be a string."")
    if not isinstance(envvar_value, (str)):
        raise TypeError(""`envvar_value` must be a string."")
    if not isinstance(allow_empty, (bool)):
        raise TypeError(""`allow_empty` must be a boolean."")
    if not allow_empty and envvar_value == """":
        raise ValueError(""`envvar_value` must not be empty."")

    envvar_exists = envvar_name in os.environ.keys()
    envvar_value_old = [os.environ[envvar_name]] if envvar_exists else []

    if envvar_value != """" and '$' in envvar_value:
        envvar_value = os.path.expandvars(envvar_value)

    if op == ""set"":
        envvar_set(envvar_name, envvar_value, allow_empty)
    elif op == ""set_if_empty"":
        envvar_set_if_empty(envvar_name, envvar_value, allow_empty)
    elif op == ""append"":
        tmp = envvar_value_old + [envvar_value]
        newval = os.pathsep.join(tmp)
        envvar_set(envvar_name, newval, allow_empty)
    elif op == ""prepend"":
        tmp = [envvar_value] + envvar_value_old
        newval = os.pathsep.join(tmp)
        envvar_set(envvar_name, newval, allow_empty)
    elif op == ""unset"":
        if envvar_exists:
            del os.environ[envvar_name]
    elif op == ""remove_substr"":
        if envvar_exists:
            newval = os.environ[envvar_name].replace(envvar_value, """")
            envvar_set(envvar_name, newval, allow_empty)
    elif op == ""remove_path_entry"":
        if envvar_exists:
            entry_list_old = os.environ[envvar_name].split(os.pathsep)
            entry_list_new = [x for x in entry_list_old if x != envvar_value]
            newval = os.pathsep.join(entry_list_new)
            envvar_set(envvar_name, newval, allow_empty)
    elif op == ""find_in_path"":
        try:
            envvar_value = envvar_find_in_path(envvar_value)
        except FileNotFoundError:
            envvar_value = """"
        envvar_set(envvar_name, envvar_value, allow_empty)
    elif op == ""assert_not_empty"":
        if not envvar_exists or os.environ[envvar_name] == """":
            message = ""ERROR: Required envvar `{}` is not set."".format(envvar_name)
            if envvar_value != """":
                message = envvar_value
            raise ValueError(message)
    else:
        raise ValueError(""Unknown command `{}`."".format(op))
    return 0


".

(** [wip/setenvironment/src/setenvironment/unittests/files/_config-python-inc_hdr-exc_body-inc_shbng.py] *)
Definition truth_config_python_iei : str := lit
"#!/usr/bin/env python3

# ---------------------------------------------------
#   S E T E N V I R O N M E N T   F U N C T I O N S
# ---------------------------------------------------
import os
import re
import sys

if not sys.version_info.major >= 3:
    raise Exception(""Minimum Python required is 3.x"")

from setenvironment import ModuleHelper


def envvar_set(envvar_name: str, envvar_value: str, allow_empty: bool = True) -> int:
    """"""Assign an environment variable.

    Assigns an environment variable (envvar) to a set value.
    Optionally raise an exception if the value is empty.

    Args:
        envvar_name (str): The name of the envvar.
        envvar_value (str): The value to set to the envvar.
        allow_empty (bool): If False, we throw a ``ValueError`` if
            ``envvar_value`` is empty. Default: True.

    Raises:
        TypeError: if:

            - ``envvar_value`` is not a string.
            - ``envvar_value`` is not a string.
            - ``allow_empty`` is not a bool.

        ValueError if:

            - ``allow_empty`` is True *and* ``envvar_value`` is an empty string.
    """"""
    if not isinstance(envvar_name, (str)):
        raise TypeError(""`envvar_name` must be a string."")
    if not isinstance(envvar_value, (str)):
        raise TypeError(""`envvar_value` must be a string."")
    if not isinstance(allow_empty, (bool)):
        raise TypeError(""`allow_empty` must be a boolean."")
    if not allow_empty and envvar_value == """":
        raise ValueError(""`envvar_value` must not be empty."")

    os.environ[envvar_name] = envvar_value
    return 0


def envvar_set_if_empty(envvar_name: str, envvar_value: str, allow_empty: bool = True) -> int:
    """"""Set an environment variable if it is empty or not set.

    Assigns an environment variable (envvar) to a value if
    the envvar either does not exist or is empty.

    Args:
        envvar_name (str): The name of the envvar.
        envvar_value (str): The value to set to the envvar.
        allow_empty (bool): If False, we throw a ``ValueError`` if
            ``envvar_value`` is empty. Default: True.

    Returns:
        int: Returns a zero.

    Raises:
        TypeError: if:

            - ``envvar_value`` is not a string.
            - ``envvar_value`` is not a string.
            - ``allow_empty`` is not a bool.

        ValueError if:

            - ``allow_empty`` is True *and* ``envvar_value`` is an empty string.
    """"""
    if not isinstance(envvar_name, (str)):
        raise TypeError(""`envvar_name` must be a string."")
    if not isinstance(envvar_value, (str)):
        raise TypeError(""`envvar_value` must be a string."")
    if not isinstance(allow_empty, (bool)):
        raise TypeError(""`allow_empty` must be a boolean."")
    if not allow_empty and envvar_value == """":
        raise ValueError(""`envvar_value` must not be empty."")

    if envvar_name not in os.environ.keys() or os.environ[envvar_name] == """":
        os.environ[envvar_name] = envvar_value
    return 0


def envvar_find_in_path(exe_file) -> str:
    """"""Find an executable file in the current search path.

    This function attempts to locate an executable app in the current
    search path. If found it will return the path to the application,
    otherwise an exception is raised.

    Args:
        exe_file (str, Path): An executable application file to locate.

    Raises:
        FileNotFoundError: If the executable is not located we will
            raise this exception.
    """"""
    import distutils.spawn
    import shutil

    output = None
    try:
        output = distutils.spawn.find_executable(exe_file)
        if output is None:
            raise FileNotFoundError(""Unable to find {}"".format(exe_file))
    except:
        output = shutil.which(exe_file)
        if output is None:
            raise FileNotFoundError(""Unable to find {}"".format(exe_file))

    return str(output)


def envvar_op(op, envvar_name: str, envvar_value: str = """", allow_empty: bool = True) -> int:
    """"""Envvar operation helper

    This function generates a wrapper for envvar operations.

    Args:
        op (str): The operation to execute. Valid entries are:

          - ``set`` - Sets or resets an envvar to the specified value.
          - ``append`` - Append a value to an existing envvar
              or set if it doesn't exist.
          - ``prepend`` - Prepend a value to an existing envvar
              or set if it doesn't exist.
          - ``unset`` - Unset (delete) an envvar if it exists.
          - ``remove_substr`` - Removes a substring from an existing envvar.

        envvar_name (str): The *name* of the envvar to be modified.
        envvar_value (str): Optional envvar value for operations that
            need to set a value. Default: """"
        allow_empty (bool): If False, we throw a ``ValueError`` if
            assignment of an empty value is attempted. Default: True.
    """"""
    if not isinstance(envvar_name, (str)):
        raise TypeError(""`envvar_name` must be a string."")
    if not isinstance(envvar_value, (str)):
        raise TypeError(""`envvar_value` must be a string."")
    if not isinstance(allow_empty, (bool)):
        raise TypeError(""`allow_empty` must be a boolean."")
    if not allow_empty and envvar_value == """":
        raise ValueError(""`envvar_value` must not be empty."")

    envvar_exists = envvar_name in os.environ.keys()
    envvar_value_old = [os.environ[envvar_name]] if envvar_exists else []

    if envvar_value != """" and '$' in envvar_value:
        envvar_value = os.path.expandvars(envvar_value)

    if op == ""set"":
        envvar_set(envvar_name, envvar_value, allow_empty)
    elif op == ""set_if_empty"":
        envvar_set_if_empty(envvar_name, envvar_value, allow_empty)
    elif op == ""append"":
        tmp = envvar_value_old + [envvar_value]
        newval = os.pathsep.join(tmp)
        envvar_set(envvar_name, newval, allow_empty)
    elif op == ""prepend"":
        tmp = [envvar_value] + envvar_value_old
        newval = os.pathsep.join(tmp)
        envvar_set(envvar_name, newval, allow_empty)
    elif op == ""unset"":
        if envvar_exists:
            del os.environ[envvar_name]
    elif op == ""remove_substr"":
        if envvar_exists:
            newval = os.environ[envvar_name].replace(envvar_value, """")
            envvar_set(envvar_name, newval, allow_empty)
    elif op == ""remove_path_entry"":
        if envvar_exists:
            entry_list_old = os.environ[envvar_name].split(os.pathsep)
            entry_list_new = [x for x in entry_list_old if x != envvar_value]
            newval = os.pathsep.join(entry_list_new)
            envvar_set(envvar_name, newval, allow_empty)
    elif op == ""find_in_path"":
        try:
            envvar_value = envvar_find_in_path(envvar_value)
        except FileNotFoundError:
            envvar_value = """"
        envvar_set(envvar_name, envvar_value, allow_empty)
    elif op == ""assert_not_empty"":
        if not envvar_exists or os.environ[envvar_name] == """":
            message = ""ERROR: Required envvar `{}` is not set."".format(envvar_name)
            if envvar_value != """":
                message = envvar_value
            raise ValueError(message)
    else:
        raise ValueError(""Unknown command `{}`."".format(op))
    return 0


".

(** [wip/setenvironment/src/setenvironment/unittests/files/_config-python-inc_hdr-inc_body-exc_shbng.py] *)
Definition truth_config_python_iie : str := lit
"
# ---------------------------------------------------
#   S E T E N V I R O N M E N T   F U N C T I O N S
# ---------------------------------------------------
import os
import re
import sys

if not sys.version_info.major >= 3:
    raise Exception(""Minimum Python required is 3.x"")

from setenvironment import ModuleHelper


def envvar_set(envvar_name: str, envvar_value: str, allow_empty: bool = True) -> int:
    """"""Assign an environment variable.

    Assigns an environment variable (envvar) to a set value.
    Optionally raise an exception if the value is empty.

    Args:
        envvar_name (str): The name of the envvar.
        envvar_value (str): The value to set to the envvar.
        allow_empty (bool): If False, we throw a ``ValueError`` if
            ``envvar_value`` is empty. Default: True.

    Raises:
        TypeError: if:

            - ``envvar_value`` is not a string.
            - ``envvar_value`` is not a string.
            - ``allow_empty`` is not a bool.

        ValueError if:

            - ``allow_empty`` is True *and* ``envvar_value`` is an empty string.
    """"""
    if not isinstance(envvar_name, (str)):
        raise TypeError(""`envvar_name` must be a string."")
    if not isinstance(envvar_value, (str)):
        raise TypeError(""`envvar_value` must be a string."")
    if not isinstance(allow_empty, (bool)):
        raise TypeError(""`allow_empty` must be a boolean."")
    if not allow_empty and envvar_value == """":
        raise ValueError(""`envvar_value` must not be empty."")

    os.environ[envvar_name] = envvar_value
    return 0


def envvar_set_if_empty(envvar_name: str, envvar_value: str, allow_empty: bool = True) -> int:
    """"""Set an environment variable if it is empty or not set.

    Assigns an environment variable (envvar) to a value if
    the envvar either does not exist or is empty.

    Args:
        envvar_name (str): The name of the envvar.
        envvar_value (str): The value to set to the envvar.
        allow_empty (bool): If False, we throw a ``ValueError`` if
            ``envvar_value`` is empty. Default: True.

    Returns:
        int: Returns a zero.

    Raises:
        TypeError: if:

            - ``envvar_value`` is not a string.
            - ``envvar_value`` is not a string.
            - ``allow_empty`` is not a bool.

        ValueError if:

            - ``allow_empty`` is True *and* ``envvar_value`` is an empty string.
    """"""
    if not isinstance(envvar_name, (str)):
        raise TypeError(""`envvar_name` must be a string."")
    if not isinstance(envvar_value, (str)):
        raise TypeError(""`envvar_value` must be a string."")
    if not isinstance(allow_empty, (bool)):
        raise TypeError(""`allow_empty` must be a boolean."")
    if not allow_empty and envvar_value == """":
        raise ValueError(""`envvar_value` must not be empty."")

    if envvar_name not in os.environ.keys() or os.environ[envvar_name] == """":
        os.environ[envvar_name] = envvar_value
    return 0


def envvar_find_in_path(exe_file) -> str:
    """"""Find an executable file in the current search path.

    This function attempts to locate an executable app in the current
    search path. If found it will return the path to the application,
    otherwise an exception is raised.

    Args:
        exe_file (str, Path): An executable application file to locate.

    Raises:
        FileNotFoundError: If the executable is not located we will
            raise this exception.
    """"""
    import distutils.spawn
    import shutil

    output = None
    try:
        output = distutils.spawn.find_executable(exe_file)
        if output is None:
            raise FileNotFoundError(""Unable to find {}"".format(exe_file))
    except:
        output = shutil.which(exe_file)
        if output is None:
            raise FileNotFoundError(""Unable to find {}"".format(exe_file))

    return str(output)


def envvar_op(op, envvar_name: str, envvar_value: str = """", allow_empty: bool = True) -> int:
    """"""Envvar operation helper

    This function generates a wrapper for envvar operations.

    Args:
        op (str): The operation to execute. Valid entries are:

          - ``set`` - Sets or resets an envvar to the specified value.
          - ``append`` - Append a value to an existing envvar
              or set if it doesn't exist.
          - ``prepend`` - Prepend a value to an existing envvar
              or set if it doesn't exist.
          - ``unset`` - Unset (delete) an envvar if it exists.
          - ``remove_substr`` - Removes a substring from an existing envvar.

        envvar_name (str): The *name* of the envvar to be modified.
        envvar_value (str): Optional envvar value for operations that
            need to set a value. Default: """"
        allow_empty (bool): If False, we throw a ``ValueError`` if
            assignment of an empty value is attempted. Default: True.
    """"""
    if not isinstance(envvar_name, (str)):
        raise TypeError(""`envvar_name` must be a string."")
    if not isinstance(envvar_value, (str)):
        raise TypeError(""`envvar_value` must be a string."")
    if not isinstance(allow_empty, (bool)):
        raise TypeError(""`allow_empty` must be a boolean."")
    if not allow_empty and envvar_value == """":
        raise ValueError(""`envvar_value` must not be empty."")

    envvar_exists = envvar_name in os.environ.keys()
    envvar_value_old = [os.environ[envvar_name]] if envvar_exists else []

    if envvar_value != """" and '$' in envvar_value:
        envvar_value = os.path.expandvars(envvar_value)

    if op == ""set"":
        envvar_set(envvar_name, envvar_value, allow_empty)
    elif op == ""set_if_empty"":
        envvar_set_if_empty(envvar_name, envvar_value, allow_empty)
    elif op == ""append"":
        tmp = envvar_value_old + [envvar_value]
        newval = os.pathsep.join(tmp)
        envvar_set(envvar_name, newval, allow_empty)
    elif op == ""prepend"":
        tmp = [envvar_value] + envvar_value_old
        newval = os.pathsep.join(tmp)
        envvar_set(envvar_name, newval, allow_empty)
    elif op == ""unset"":
        if envvar_exists:
            del os.environ[envvar_name]
    elif op == ""remove_substr"":
        if envvar_exists:
            newval = os.environ[envvar_name].replace(envvar_value, """")
            envvar_set(envvar_name, newval, allow_empty)
    elif op == ""remove_path_entry"":
        if envvar_exists:
            entry_list_old = os.environ[envvar_name].split(os.pathsep)
            entry_list_new = [x for x in entry_list_old if x != envvar_value]
            newval = os.pathsep.join(entry_list_new)
            envvar_set(envvar_name, newval, allow_empty)
    elif op == ""find_in_path"":
        try:
            envvar_value = envvar_find_in_path(envvar_value)
        except FileNotFoundError:
            envvar_value = """"
        envvar_set(envvar_name, envvar_value, allow_empty)
    elif op == ""assert_not_empty"":
        if not envvar_exists or os.environ[envvar_name] == """":
            message = ""ERROR: Required envvar `{}` is not set."".format(envvar_name)
            if envvar_value != """":
                message = envvar_value
            raise ValueError(message)
    else:
        raise ValueError(""Unknown command `{}`."".format(op))
    return 0


# -------------------------------------------------
#   S E T E N V I R O N M E N T   C O M M A N D S
# -------------------------------------------------
envvar_op(""set"",""FOO"",""bar"")
envvar_op(""append"",""FOO"",""baz"")
envvar_op(""prepend"",""FOO"",""foo"")
envvar_op(""set"",""BAR"",""foo"")
envvar_op(""remove_substr"",""FOO"",""bar"")
envvar_op(""unset"",""FOO"")
ModuleHelper.module(""purge"")
ModuleHelper.module(""use"",""src/setenvironment/unittests/modulefiles"")
ModuleHelper.module(""load"",""gcc/4.8.4"")
ModuleHelper.module(""load"",""boost/1.10.1"")
ModuleHelper.module(""load"",""gcc/4.8.4"")
ModuleHelper.module(""unload"",""boost"")
ModuleHelper.module(""swap"",""gcc"",""gcc/7.3.0"")


".

(** [wip/setenvironment/src/setenvironment/unittests/files/_config-python-inc_hdr-inc_body-inc_shbng.py] *)
Definition truth_config_python_iii : str := lit
"#!/usr/bin/env python3

# ---------------------------------------------------
#   S E T E N V I R O N M E N T   F U N C T I O N S
# ---------------------------------------------------
import os
import re
import sys

if not sys.version_info.major >= 3:
    raise Exception(""Minimum Python required is 3.x"")

from setenvironment import ModuleHelper


def envvar_set(envvar_name: str, envvar_value: str, allow_empty: bool = True) -> int:
    """"""Assign an environment variable.

    Assigns an environment variable (envvar) to a set value.
    Optionally raise an exception if the value is empty.

    Args:
        envvar_name (str): The name of the envvar.
        envvar_value (str): The value to set to the envvar.
        allow_empty (bool): If False, we throw a ``ValueError`` if
            ``envvar_value`` is empty. Default: True.

    Raises:
        TypeError: if:

            - ``envvar_value`` is not a string.
            - ``envvar_value`` is not a string.
            - ``allow_empty`` is not a bool.

        ValueError if:

            - ``allow_empty`` is True *and* ``envvar_value`` is an empty string.
    """"""
    if not isinstance(envvar_name, (str)):
        raise TypeError(""`envvar_name` must be a string."")
    if not isinstance(envvar_value, (str)):
        raise TypeError(""`envvar_value` must be a string."")
    if not isinstance(allow_empty, (bool)):
        raise TypeError(""`allow_empty` must be a boolean."")
    if not allow_empty and envvar_value == """":
        raise ValueError(""`envvar_value` must not be empty."")

    os.environ[envvar_name] = envvar_value
    return 0


def envvar_set_if_empty(envvar_name: str, envvar_value: str, allow_empty: bool = True) -> int:
    """"""Set an environment variable if it is empty or not set.

    Assigns an environment variable (envvar) to a value if
    the envvar either does not exist or is empty.

    Args:
        envvar_name (str): The name of the envvar.
        envvar_value (str): The value to set to the envvar.
        allow_empty (bool): If False, we throw a ``ValueError`` if
            ``envvar_value`` is empty. Default: True.

    Returns:
        int: Returns a zero.

    Raises:
        TypeError: if:

            - ``envvar_value`` is not a string.
            - ``envvar_value`` is not a string.
            - ``allow_empty`` is not a bool.

        ValueError if:

            - ``allow_empty`` is True *and* ``envvar_value`` is an empty string.
    """"""
    if not isinstance(envvar_name, (str)):
        raise TypeError(""`envvar_name` must be a string."")
    if not isinstance(envvar_value, (str)):
        raise TypeError(""`envvar_value` must be a string."")
    if not isinstance(allow_empty, (bool)):
        raise TypeError(""`allow_empty` must be a boolean."")
    if not allow_empty and envvar_value == """":
        raise ValueError(""`envvar_value` must not be empty."")

    if envvar_name not in os.environ.keys() or os.environ[envvar_name] == """":
        os.environ[envvar_name] = envvar_value
    return 0


def envvar_find_in_path(exe_file) -> str:
    """"""Find an executable file in the current search path.

    This function attempts to locate an executable app in the current
    search path. If found it will return the path to the application,
    otherwise an exception is raised.

    Args:
        exe_file (str, Path): An executable application file to locate.

    Raises:
        FileNotFoundError: If the executable is not located we will
            raise this exception.
    """"""
    import distutils.spawn
    import shutil

    output = None
    try:
        output = distutils.spawn.find_executable(exe_file)
        if output is None:
            raise FileNotFoundError(""Unable to find {}"".format(exe_file))
    except:
        output = shutil.which(exe_file)
        if output is None:
            raise FileNotFoundError(""Unable to find {}"".format(exe_file))

    return str(output)


def envvar_op(op, envvar_name: str, envvar_value: str = """", allow_empty: bool = True) -> int:
    """"""Envvar operation helper

    This function generates a wrapper for envvar operations.

    Args:
        op (str): The operation to execute. Valid entries are:

          - ``set`` - Sets or resets an envvar to the specified value.
          - ``append`` - Append a value to an existing envvar
              or set if it doesn't exist.
          - ``prepend`` - Prepend a value to an existing envvar
              or set if it doesn't exist.
          - ``unset`` - Unset (delete) an envvar if it exists.
          - ``remove_substr`` - Removes a substring from an existing envvar.

        envvar_name (str): The *name* of the envvar to be modified.
        envvar_value (str): Optional envvar value for operations that
            need to set a value. Default: """"
        allow_empty (bool): If False, we throw a ``ValueError`` if
            assignment of an empty value is attempted. Default: True.
    """"""
    if not isinstance(envvar_name, (str)):
        raise TypeError(""`envvar_name` must be a string."")
    if not isinstance(envvar_value, (str)):
        raise TypeError(""`envvar_value` must be a string."")
    if not isinstance(allow_empty, (bool)):
        raise TypeError(""`allow_empty` must be a boolean."")
    if not allow_empty and envvar_value == """":
        raise ValueError(""`envvar_value` must not be empty."")

    envvar_exists = envvar_name in os.environ.keys()
    envvar_value_old = [os.environ[envvar_name]] if envvar_exists else []

    if envvar_value != """" and '$' in envvar_value:
        envvar_value = os.path.expandvars(envvar_value)

    if op == ""set"":
        envvar_set(envvar_name, envvar_value, allow_empty)
    elif op == ""set_if_empty"":
        envvar_set_if_empty(envvar_name, envvar_value, allow_empty)
    elif op == ""append"":
        tmp = envvar_value_old + [envvar_value]
        newval = os.pathsep.join(tmp)
        envvar_set(envvar_name, newval, allow_empty)
    elif op == ""prepend"":
        tmp = [envvar_value] + envvar_value_old
        newval = os.pathsep.join(tmp)
        envvar_set(envvar_name, newval, allow_empty)
    elif op == ""unset"":
        if envvar_exists:
            del os.environ[envvar_name]
    elif op == ""remove_substr"":
        if envvar_exists:
            newval = os.environ[envvar_name].replace(envvar_value, """")
            envvar_set(envvar_name, newval, allow_empty)
    elif op == ""remove_path_entry"":
        if envvar_exists:
            entry_list_old = os.environ[envvar_name].split(os.pathsep)
            entry_list_new = [x for x in entry_list_old if x != envvar_value]
            newval = os.pathsep.join(entry_list_new)
            envvar_set(envvar_name, newval, allow_empty)
    elif op == ""find_in_path"":
        try:
            envvar_value = envvar_find_in_path(envvar_value)
        except FileNotFoundError:
            envvar_value = """"
        envvar_set(envvar_name, envvar_value, allow_empty)
    elif op == ""assert_not_empty"":
        if not envvar_exists or os.environ[envvar_name] == """":
            message = ""ERROR: Required envvar `{}` is not set."".format(envvar_name)
            if envvar_value != """":
                message = envvar_value
            raise ValueError(message)
    else:
        raise ValueError(""Unknown command `{}`."".format(op))
    return 0


# -------------------------------------------------
#   S E T E N V I R O N M E N T   C O M M A N D S
# -------------------------------------------------
envvar_op(""set"",""FOO"",""bar"")
envvar_op(""append"",""FOO"",""baz"")
envvar_op(""prepend"",""FOO"",""foo"")
envvar_op(""set"",""BAR"",""foo"")
envvar_op(""remove_substr"",""FOO"",""bar"")
envvar_op(""unset"",""FOO"")
ModuleHelper.module(""purge"")
ModuleHelper.module(""use"",""src/setenvironment/unittests/modulefiles"")
ModuleHelper.module(""load"",""gcc/4.8.4"")
ModuleHelper.module(""load"",""boost/1.10.1"")
ModuleHelper.module(""load"",""gcc/4.8.4"")
ModuleHelper.module(""unload"",""boost"")
ModuleHelper.module(""swap"",""gcc"",""gcc/7.3.0"")


".

(** [wip/setenvironment/src/setenvironment/unittests/files/_sie-bash-inc_hdr-inc_body-inc_shbng.sh] *)
Definition truth_sie_bash_iii : str := lit
"#!/usr/bin/env bash
# ---------------------------------------------------
#   S E T E N V I R O N M E N T   F U N C T I O N S
# ---------------------------------------------------


# envvar_append_or_create
#  $1 = envvar name
#  $2 = string to append
function envvar_append_or_create() {
    if [[ ! -n ""${!1+1}"" ]]; then
        export ${1}=""${2}""
    else
        export ${1}=""${!1}:${2}""
    fi
}

# envvar_assert_not_empty
# $1 = envvar name
# $2 = optional error message
function envvar_assert_not_empty() {
    local envvar=${1}
    local message=${2}
    if [[ -z ""${!envvar}"" ]]; then
        if [[ -z ""${message}"" ]]; then
            echo ""ERROR: ${envvar} is empty or not set""
        else
            echo ""${message}""
        fi
        exit 1
    fi
}

# envvar_prepend_or_create
#  $1 = envvar name
#  $2 = string to prepend
function envvar_prepend_or_create() {
    if [[ ! -n ""${!1+1}"" ]]; then
        export ${1}=""${2}""
    else
        export ${1}=""${2}:${!1}""
    fi
}

# envvar_set_or_create
#  $1 = envvar name
#  $2 = string to set the value to.
function envvar_set_or_create() {
    export ${1:?}=""${2}""
}

# envvar_set_if_empty
# Param1: Envvar name
# Param2: Envvar value
function envvar_set_if_empty() {
    local ENVVAR_NAME=${1:?}
    local ENVVAR_VALUE=${2}
    if [[ -z ""${!ENVVAR_NAME}"" ]]; then
        export ${ENVVAR_NAME}=""${ENVVAR_VALUE}""
    fi
}

# envvar_remove_substr
# $1 = envvar name
# $2 = substring to remove
function envvar_remove_substr() {
    local envvar=${1:?}
    local substr=${2:?}
    #echo ""envvar   : ${envvar}"" > /dev/stdout
    #echo ""to_remove: ${substr}"" > /dev/stdout
    if [[ ""${substr}"" == *""#""* ]]; then
        printf ""%s\n"" ""ERROR: $FUNCNAME: ""$substr"" contains a '#' which is invalid."" 2>&1
        return
    fi
    if [ ! -z ${1:?} ]; then
        export ${envvar}=$(echo ${!envvar} | sed s#${substr}##g)
    fi
}

# envvar_remove_path_entry
# $1 = A path style envvar name
# $2 = Entry to remove from the path.
function envvar_remove_path_entry() {
    local envvar=${1:?}
    local to_remove=${2:?}
    local new_value=${!envvar}
    #echo -e ""envvar = ${envvar}"" > /dev/stdout
    #echo -e ""to_remove = ${to_remove}"" > /dev/stdout
    #echo -e ""new_value = ${new_value}"" > /dev/stdout
    if [ ! -z ${envvar} ]; then
        new_value=:${new_value}:
        new_value=${new_value//:${to_remove}:/:}
        new_value=${new_value#:1}
        new_value=${new_value%:1}
        export ${envvar}=${new_value}
    fi
}

# envvar_op
# $1 = operation    (set, append, prepend, unset)
# $2 = arg1         (envvar name)
# $3 = arg2         (envvar value - optional)
function envvar_op() {
    local op=${1:?}
    local arg1=${2:?}
    local arg2=${3}
    if [[ ""${op:?}"" == ""set"" ]]; then
        envvar_set_or_create ${arg1:?} ""${arg2}""
    elif [[ ""${op:?}"" == ""unset"" ]]; then
        unset ${arg1:?}
    elif [[ ""${op:?}"" == ""append"" ]]; then
        envvar_append_or_create ${arg1:?} ""${arg2:?}""
    elif [[ ""${op:?}"" == ""prepend"" ]]; then
        envvar_prepend_or_create ${arg1:?} ""${arg2:?}""
    elif [[ ""${op:?}"" == ""remove_substr"" ]]; then
        envvar_remove_substr ${arg1:?} ""${arg2:?}""
    elif [[ ""${op:?}"" == ""remove_path_entry"" ]]; then
        envvar_remove_path_entry ${arg1:?} ""${arg2:?}""
    elif [[ ""${op:?}"" == ""find_in_path"" ]]; then
        envvar_set_or_create ${arg1:?} ""$(which ${arg2:?})""
    elif [[ ""${op:?}"" == ""assert_not_empty"" ]]; then
        envvar_assert_not_empty ""${arg1:?}"" ""${arg2}""
    elif [[ ""${op:?}"" == ""set_if_empty"" ]]; then
        envvar_set_if_empty ""${arg1:?}"" ""${arg2}""
    else
        echo -e ""!! ERROR (BASH): Unknown operation: ${op:?}""
    fi
}


# -------------------------------------------------
#   S E T E N V I R O N M E N T   C O M M A N D S
# -------------------------------------------------
envvar_op unset ""FOO_VAR""
envvar_op unset ""BAR_VAR""
envvar_op unset ""BAZ_VAR""
envvar_op unset ""BIF_VAR""
envvar_op set ""FOO_VAR"" ""FOO_VAL""
envvar_op set ""BAR_VAR"" """"
envvar_op set_if_empty ""FOO_VAR"" ""BAR_VAL""
envvar_op set_if_empty ""BAR_VAR"" ""BAR_VAL""
envvar_op set_if_empty ""BAZ_VAR"" ""BAZ_VAL""
envvar_op set_if_empty ""BIF_VAR"" """"


".

(** [wip/setenvironment/src/setenvironment/unittests/files/_sie-python-inc_hdr-inc_body-inc_shbng.py] *)
Definition truth_sie_python_iii : str := lit
"#!/usr/bin/env python3

# ---------------------------------------------------
#   S E T E N V I R O N M E N T   F U N C T I O N S
# ---------------------------------------------------
import os
import re
import sys

if not sys.version_info.major >= 3:
    raise Exception(""Minimum Python required is 3.x"")

from setenvironment import ModuleHelper


def envvar_set(envvar_name: str, envvar_value: str, allow_empty: bool = True) -> int:
    """"""Assign an environment variable.

    Assigns an environment variable (envvar) to a set value.
    Optionally raise an exception if the value is empty.

    Args:
        envvar_name (str): The name of the envvar.
        envvar_value (str): The value to set to the envvar.
        allow_empty (bool): If False, we throw a ``ValueError`` if
            ``envvar_value`` is empty. Default: True.

    Raises:
        TypeError: if:

            - ``envvar_value`` is not a string.
            - ``envvar_value`` is not a string.
            - ``allow_empty`` is not a bool.

        ValueError if:

            - ``allow_empty`` is True *and* ``envvar_value`` is an empty string.
    """"""
    if not isinstance(envvar_name, (str)):
        raise TypeError(""`envvar_name` must be a string."")
    if not isinstance(envvar_value, (str)):
        raise TypeError(""`envvar_value` must be a string."")
    if not isinstance(allow_empty, (bool)):
        raise TypeError(""`allow_empty` must be a boolean."")
    if not allow_empty and envvar_value == """":
        raise ValueError(""`envvar_value` must not be empty."")

    os.environ[envvar_name] = envvar_value
    return 0


def envvar_set_if_empty(envvar_name: str, envvar_value: str, allow_empty: bool = True) -> int:
    """"""Set an environment variable if it is empty or not set.

    Assigns an environment variable (envvar) to a value if
    the envvar either does not exist or is empty.

    Args:
        envvar_name (str): The name of the envvar.
        envvar_value (str): The value to set to the envvar.
        allow_empty (bool): If False, we throw a ``ValueError`` if
            ``envvar_value`` is empty. Default: True.

    Returns:
        int: Returns a zero.

    Raises:
        TypeError: if:

            - ``envvar_value`` is not a string.
            - ``envvar_value`` is not a string.
            - ``allow_empty`` is not a bool.

        ValueError if:

            - ``allow_empty`` is True *and* ``envvar_value`` is an empty string.
    """"""
    if not isinstance(envvar_name, (str)):
        raise TypeError(""`envvar_name` must be a string."")
    if not isinstance(envvar_value, (str)):
        raise TypeError(""`envvar_value` must be a string."")
    if not isinstance(allow_empty, (bool)):
        raise TypeError(""`allow_empty` must be a boolean."")
    if not allow_empty and envvar_value == """":
        raise ValueError(""`envvar_value` must not be empty."")

    if envvar_name not in os.environ.keys() or os.environ[envvar_name] == """":
        os.environ[envvar_name] = envvar_value
    return 0


def envvar_find_in_path(exe_file) -> str:
    """"""Find an executable file in the current search path.

    This function attempts to locate an executable app in the current
    search path. If found it will return the path to the application,
    otherwise an exception is raised.

    Args:
        exe_file (str, Path): An executable application file to locate.

    Raises:
        FileNotFoundError: If the executable is not located we will
            raise this exception.
    """"""
    import distutils.spawn
    import shutil

    output = None
    try:
        output = distutils.spawn.find_executable(exe_file)
        if output is None:
            raise FileNotFoundError(""Unable to find {}"".format(exe_file))
    except:
        output = shutil.which(exe_file)
        if output is None:
            raise FileNotFoundError(""Unable to find {}"".format(exe_file))

    return str(output)


def envvar_op(op, envvar_name: str, envvar_value: str = """", allow_empty: bool = True) -> int:
    """"""Envvar operation helper

    This function generates a wrapper for envvar operations.

    Args:
        op (str): The operation to execute. Valid entries are:

          - ``set`` - Sets or resets an envvar to the specified value.
          - ``append`` - Append a value to an existing envvar
              or set if it doesn't exist.
          - ``prepend`` - Prepend a value to an existing envvar
              or set if it doesn't exist.
          - ``unset`` - Unset (delete) an envvar if it exists.
          - ``remove_substr`` - Removes a substring from an existing envvar.

        envvar_name (str): The *name* of the envvar to be modified.
        envvar_value (str): Optional envvar value for operations that
            need to set a value. Default: """"
        allow_empty (bool): If False, we throw a ``ValueError`` if
            assignment of an empty value is attempted. Default: True.
    """"""
    if not isinstance(envvar_name, (str)):
        raise TypeError(""`envvar_name` must be a string."")
    if not isinstance(envvar_value, (str)):
        raise TypeError(""`envvar_value` must be a string."")
    if not isinstance(allow_empty, (bool)):
        raise TypeError(""`allow_empty` must be a boolean."")
    if not allow_empty and envvar_value == """":
        raise ValueError(""`envvar_value` must not be empty."")

    envvar_exists = envvar_name in os.environ.keys()
    envvar_value_old = [os.environ[envvar_name]] if envvar_exists else []

    if envvar_value != """" and '$' in envvar_value:
        envvar_value = os.path.expandvars(envvar_value)

    if op == ""set"":
        envvar_set(envvar_name, envvar_value, allow_empty)
    elif op == ""set_if_empty"":
        envvar_set_if_empty(envvar_name, envvar_value, allow_empty)
    elif op == ""append"":
        tmp = envvar_value_old + [envvar_value]
        newval = os.pathsep.join(tmp)
        envvar_set(envvar_name, newval, allow_empty)
    elif op == ""prepend"":
        tmp = [envvar_value] + envvar_value_old
        newval = os.pathsep.join(tmp)
        envvar_set(envvar_name, newval, allow_empty)
    elif op == ""unset"":
        if envvar_exists:
            del os.environ[envvar_name]
    elif op == ""remove_substr"":
        if envvar_exists:
            newval = os.environ[envvar_name].replace(envvar_value, """")
            envvar_set(envvar_name, newval, allow_empty)
    elif op == ""remove_path_entry"":
        if envvar_exists:
            entry_list_old = os.environ[envvar_name].split(os.pathsep)
            entry_list_new = [x for x in entry_list_old if x != envvar_value]
            newval = os.pathsep.join(entry_list_new)
            envvar_set(envvar_name, newval, allow_empty)
    elif op == ""find_in_path"":
        try:
            envvar_value = envvar_find_in_path(envvar_value)
        except FileNotFoundError:
            envvar_value = """"
        envvar_set(envvar_name, envvar_value, allow_empty)
    elif op == ""assert_not_empty"":
        if not envvar_exists or os.environ[envvar_name] == """":
            message = ""ERROR: Required envvar `{}` is not set."".format(envvar_name)
            if envvar_value != """":
                message = envvar_value
            raise ValueError(message)
    else:
        raise ValueError(""Unknown command `{}`."".format(op))
    return 0


# -------------------------------------------------
#   S E T E N V I R O N M E N T   C O M M A N D S
# -------------------------------------------------
envvar_op(""unset"",""FOO_VAR"")
envvar_op(""unset"",""BAR_VAR"")
envvar_op(""unset"",""BAZ_VAR"")
envvar_op(""unset"",""BIF_VAR"")
envvar_op(""set"",""FOO_VAR"",""FOO_VAL"")
envvar_op(""set"",""BAR_VAR"","""")
envvar_op(""set_if_empty"",""FOO_VAR"",""BAR_VAL"")
envvar_op(""set_if_empty"",""BAR_VAR"",""BAR_VAL"")
envvar_op(""set_if_empty"",""BAZ_VAR"",""BAZ_VAL"")
envvar_op(""set_if_empty"",""BIF_VAR"","""")


".

(** [wip/setenvironment/src/setenvironment/unittests/files/_special_chars-bash-inc_hdr-inc_body-inc_shbng.sh] *)
Definition truth_special_chars_bash_iii : str := lit
"#!/usr/bin/env bash
# ---------------------------------------------------
#   S E T E N V I R O N M E N T   F U N C T I O N S
# ---------------------------------------------------


# envvar_append_or_create
#  $1 = envvar name
#  $2 = string to append
function envvar_append_or_create() {
    if [[ ! -n ""${!1+1}"" ]]; then
        export ${1}=""${2}""
    else
        export ${1}=""${!1}:${2}""
    fi
}

# envvar_assert_not_empty
# $1 = envvar name
# $2 = optional error message
function envvar_assert_not_empty() {
    local envvar=${1}
    local message=${2}
    if [[ -z ""${!envvar}"" ]]; then
        if [[ -z ""${message}"" ]]; then
            echo ""ERROR: ${envvar} is empty or not set""
        else
            echo ""${message}""
        fi
        exit 1
    fi
}

# envvar_prepend_or_create
#  $1 = envvar name
#  $2 = string to prepend
function envvar_prepend_or_create() {
    if [[ ! -n ""${!1+1}"" ]]; then
        export ${1}=""${2}""
    else
        export ${1}=""${2}:${!1}""
    fi
}

# envvar_set_or_create
#  $1 = envvar name
#  $2 = string to set the value to.
function envvar_set_or_create() {
    export ${1:?}=""${2}""
}

# envvar_set_if_empty
# Param1: Envvar name
# Param2: Envvar value
function envvar_set_if_empty() {
    local ENVVAR_NAME=${1:?}
    local ENVVAR_VALUE=${2}
    if [[ -z ""${!ENVVAR_NAME}"" ]]; then
        export ${ENVVAR_NAME}=""${ENVVAR_VALUE}""
    fi
}

# envvar_remove_substr
# $1 = envvar name
# $2 = substring to remove
function envvar_remove_substr() {
    local envvar=${1:?}
    local substr=${2:?}
    #echo ""envvar   : ${envvar}"" > /dev/stdout
    #echo ""to_remove: ${substr}"" > /dev/stdout
    if [[ ""${substr}"" == *""#""* ]]; then
        printf ""%s\n"" ""ERROR: $FUNCNAME: ""$substr"" contains a '#' which is invalid."" 2>&1
        return
    fi
    if [ ! -z ${1:?} ]; then
        export ${envvar}=$(echo ${!envvar} | sed s#${substr}##g)
    fi
}

# envvar_remove_path_entry
# $1 = A path style envvar name
# $2 = Entry to remove from the path.
function envvar_remove_path_entry() {
    local envvar=${1:?}
    local to_remove=${2:?}
    local new_value=${!envvar}
    #echo -e ""envvar = ${envvar}"" > /dev/stdout
    #echo -e ""to_remove = ${to_remove}"" > /dev/stdout
    #echo -e ""new_value = ${new_value}"" > /dev/stdout
    if [ ! -z ${envvar} ]; then
        new_value=:${new_value}:
        new_value=${new_value//:${to_remove}:/:}
        new_value=${new_value#:1}
        new_value=${new_value%:1}
        export ${envvar}=${new_value}
    fi
}

# envvar_op
# $1 = operation    (set, append, prepend, unset)
# $2 = arg1         (envvar name)
# $3 = arg2         (envvar value - optional)
function envvar_op() {
    local op=${1:?}
    local arg1=${2:?}
    local arg2=${3}
    if [[ ""${op:?}"" == ""set"" ]]; then
        envvar_set_or_create ${arg1:?} ""${arg2}""
    elif [[ ""${op:?}"" == ""unset"" ]]; then
        unset ${arg1:?}
    elif [[ ""${op:?}"" == ""append"" ]]; then
        envvar_append_or_create ${arg1:?} ""${arg2:?}""
    elif [[ ""${op:?}"" == ""prepend"" ]]; then
        envvar_prepend_or_create ${arg1:?} ""${arg2:?}""
    elif [[ ""${op:?}"" == ""remove_substr"" ]]; then
        envvar_remove_substr ${arg1:?} ""${arg2:?}""
    elif [[ ""${op:?}"" == ""remove_path_entry"" ]]; then
        envvar_remove_path_entry ${arg1:?} ""${arg2:?}""
    elif [[ ""${op:?}"" == ""find_in_path"" ]]; then
        envvar_set_or_create ${arg1:?} ""$(which ${arg2:?})""
    elif [[ ""${op:?}"" == ""assert_not_empty"" ]]; then
        envvar_assert_not_empty ""${arg1:?}"" ""${arg2}""
    elif [[ ""${op:?}"" == ""set_if_empty"" ]]; then
        envvar_set_if_empty ""${arg1:?}"" ""${arg2}""
    else
        echo -e ""!! ERROR (BASH): Unknown operation: ${op:?}""
    fi
}


# -------------------------------------------------
#   S E T E N V I R O N M E N T   C O M M A N D S
# -------------------------------------------------
envvar_op set ""SEMICOLON_SET"" ""value_with;semicolon""
envvar_op set ""ASTERISK_SET"" ""value_with*asterisk""
envvar_op set_if_empty ""SEMICOLON_SET_IF_EMPTY"" ""value_with;semicolon""
envvar_op set_if_empty ""ASTERISK_SET_IF_EMPTY"" ""value_with*asterisk""


".

(** [src/configparserenhanced/unittests/config_test_configparserenhanced.ini] *)
Definition cpe_ini : str := lit
"#
# Configuration .ini File
# =======================
#
# This file is organized by sections [section_name] where each section defines
# a set of key-value pairs.  Keys and values can be separated by ':' or ""="" delimiters
# and both keys and values can have spaces.
#
# In this application, we split our keys into two values and the value side is handled
# based on what the `command` is:
#
#     <command> <key> : <value>
#
# Commands
# --------
# - use <SECTION_NAME>:
#   + Instructs the system to process a different section of the .ini file and insert the
#     commands it provides into the list of actions to be performed. The system will
#     recursively process all sections included with cyclic dependency detection to prevent
#     infinite recursion.
#   + The <value> parameter is ignored for this command.
#
# Tips and Tricks
# ---------------
#
#
[SECTION-A]
key1: value1
key2: value2
key3: value3

[SECTION-B]
key1: value 1
key2: value 2
key3: value 3

[SECTION C]
key 1: value 1
key 2: value 2
key 3: value 3

[SECTION-A+]
use SECTION-A:
key4: value4

[SECTION-B+]
use SECTION-B:
key4: value 4

[SECTION C+]
use 'SECTION C' 1:
key 4: value 4

[OPERAND_TEST]
op1              :
op1 op2          :
op1 'op2'        :
op1 'op 2'       :
op1 op2 op3      :
op1 'op2' op3    :
op-1             :
op-1 op2         :
op-1 op2 op3     :
op-1 'op2'       :
op-1 'op2' op3   :
op-1 'op 2'      :
op-1 'op 2' op3  :
op-1 op-2        :
op_1 op_2        :
op1   op2        :
op1   op2  +++   :
opA
op-A



[BAD_CHAR_IN_OP]
# 'op1' should not be detected as an 'op' due to the ""''"" character.
'op1' op2:
# This should also _not_ parse because '@' is not a valid character for a python function.
op@1 op2:


[CYCLE_TEST_A]
cta 1: cta 1
use CYCLE_TEST_B (1)
use CYCLE_TEST_B (2)

[CYCLE_TEST_B]
ctb 1: ctb 1
use CYCLE_TEST_C

[CYCLE_TEST_C]
ctc 1: ctc 1
use CYCLE_TEST_A

[ENVVAR-PREPEND-TEST]
envvar-prepend PATH : /foo/bar/baz

[HANDLER_FAIL_TEST]
test_handler_fail :


#
# DEP TESTS
# - ConfigParserEnhancedDataSection (configdata_parsed)
#   should parse out to something like this:
#
# [DEP-TEST-A]
# key1: value1-A
# key2: value1-A
#
# [DEP-TEST-B]
# key1: value1-B
# key2: value2-A
#
[DEP-TEST-A]
use DEP-TEST-B:
key1: value1-A
key2: value2-A

[DEP-TEST-B]
use DEP-TEST-A:
key1: value1-B


# Ambiguous Handler Test Section
[AMBIGUOUS_HANDLER_TEST]
operation: Test should define _handler_operation and handler_operation.


# Test keys with no-values
[NOVALUE_TEST]
key1:
key2
key3: value3


# Test more key variations
[KEY_VARIANT_TEST]
key1: value1
key two: value two
key 'three A': value string
key four:
key five


# Test an empty section
[SEC_EMPTY]


# Test a section with only ""handled"" items (no 'generic handler' entries)
# This also will test calling the same section multiple times
#   which should be ok since it's not adding a 'back-edge' to the DAG.
[SEC_ALL_HANDLED]
use SEC_EMPTY A
use SEC_EMPTY B:


# Test section names with `dots` in them.
# (Issue #10)
[TEST_SECTION-0.1.0]
key-0.1.0 : value-0.1.0


[TEST_SECTION-0.2.0]
use TEST_SECTION-0.1.0
key-0.2.0 : value-0.2.0


[EMPTY_SECTION]
".

(** [src/configparserenhanced/unittests/config_test_configparserenhanced_badkeys.ini] *)
Definition cpe_badkeys_ini : str := lit
"#
# Configuration .ini File (BadKeys)
# =================================
#
# This .ini file is used to test an exception that
# configparser.ConfigParser will raise when it encounters
# a file that has a section in it with two keys that are
# the same.
#
#

[SECTION-A]
key1: value1
key2: value2
key1: value3

[SECTION-B]
key1: value 1
key2: value 2
key3: value 3


".

(** [src/configparserenhanced/unittests/config_test_configparserenhanced_default.ini] *)
Definition cpe_default_ini : str := lit
"[DEFAULT]
Key D1: value D1

[SECTION-A]
key A1 : value A1
key A2 : value A2
key A3 : value A3

[SECTION-A+]
Key D1 : value A+D1
use SECTION-A:
key A+4: value A+4
key A3 : value A+3


".

(** [src/configparserenhanced/unittests/config_test_configparserenhanced_validation_01.ini] *)
Definition cpe_validation_01_ini : str := lit
"# This test file is used to test
# - assert_section_all_options_handled
# - assert_file_all_sections_handled
# Where there are NO unhandled operations.

[SECTION A]

[SECTION B]
use ""SECTION A""

[SECTION C]
use 'SECTION B'

[SECTION D]
use 'SECTION C'

".

(** [src/configparserenhanced/unittests/config_test_configparserenhanced_validation_02.ini] *)
Definition cpe_validation_02_ini : str := lit
"# This test file is used to test
# - assert_section_all_options_handled
# - assert_file_all_sections_handled
# Where thare are UNHANDLED options that result in
# regular key:value pairs to be generated.
# Parsing Sections A and B will pass a check but
# Checking C, D, or the whole file will trigger an
# error.

[SECTION A]

[SECTION B]
use ""SECTION A""

[SECTION C]
use 'SECTION B'
key C-1: Value C-1

[SECTION D]
use 'SECTION C'
key D-1: Value D-1

".

(** [src/configparserenhanced/unittests/config_test_configparserenhanced_validation_03a.ini] *)
Definition cpe_validation_03a_ini : str := lit
"# This test file is used to test
# - assert_section_all_options_handled
# - assert_file_all_sections_handled
# Where thare are UNHANDLED options that result in
# regular key:value pairs to be generated.
# Parsing Sections A and B will pass a check but
# Checking C, D, or the whole file will trigger an
# error.

[SECTION A]

[SECTION B]
use ""SECTION A""

".

(** [src/configparserenhanced/unittests/config_test_configparserenhanced_validation_03b.ini] *)
Definition cpe_validation_03b_ini : str := lit
"# This test file is used to test
# - assert_section_all_options_handled
# - assert_file_all_sections_handled
# Where thare are UNHANDLED options that result in
# regular key:value pairs to be generated.
# Parsing Sections A and B will pass a check but
# Checking C, D, or the whole file will trigger an
# error.

[SECTION C]
use 'SECTION B'
key C-1: Value C-1

[SECTION D]
use 'SECTION C'
key D-1: Value D-1

".

(** [examples/example-01.ini] *)
Definition example_ini : str := lit
"[SECTION-A]
key A1 : value A1
key A2 : value A2
key A3 : value A3

[SECTION-B]
use SECTION-A:
key B1 : value B1


".

(** [examples/ConfigParserEnhanced-example-01.log] *)
Definition example_log : str := lit
"Using filename: `example-01.ini`

Section data for `SECTION-B`:
{'key A1': 'value A1', 'key A2': 'value A2', 'key A3': 'value A3', 'key B1': 'value B1'}

Section List:
- SECTION-A
- SECTION-B

Section Details:
[SECTION-B]
key A1 : value A1
key A2 : value A2
key A3 : value A3
key B1 : value B1

[SECTION-A]
key A1 : value A1
key A2 : value A2
key A3 : value A3

Done.
".

(** [wip/keywordparser/tests/test_supported_envs.ini] *)
Definition kp_envs_ini : str := lit
"[machine-type-1]
# This is a comment that takes up one or more
# lines before you finally get to an
intel-19.0.4-mpich-7.7.15-hsw-openmp: # Comment here
    # Yet another comment
    intel-hsw-openmp                  # Comment here
    intel-hsw
    default-env-hsw                   # It's the default
    intel-openmp
    intel
intel-19.0.4-mpich-7.7.15-knl-openmp:
    intel-knl-openmp
    intel-knl
    default-env-knl

[machine-prefix-1]
cuda-9.2-gnu-7.2.0-openmpi-2.1.2:
    cuda-9
    cuda
cuda-10.1-gnu-7.2.0-openmpi-4.0.1:
    cuda-10
gnu-7.2.0-openmpi-2.1.2-openmp:
    gnu-openmp
    gnu
    default-env
gnu-7.2.0-openmpi-2.1.2-serial:
    gnu-serial

[machine-type-4]
arm-20.0-openmpi-4.0.2-openmp:
    arm-20.0-openmp
    arm-20.0
    arm-20-openmp
    arm-20
    arm-openmp
    arm
    default-env
arm-20.0-openmpi-4.0.2-serial:
    arm-20.0-serial
    arm-20-serial
    arm-serial
arm-20.1-openmpi-4.0.3-openmp:
    arm-20.1-openmp
    arm-20.1
arm-20.1-openmpi-4.0.3-serial:
    arm-20.1-serial

[test-system]
env-name-serial:
    env-name
env-name-aliases-empty-string:
env-name-aliases-none
another-env:
    with-an-alias
".

(** [wip/determinesystem/tests/test_supported_systems.ini] *)
Definition ds_systems_ini : str := lit
"[machine-type-1]
machine-prefix-1.*  # Comments here

[machine-type-2]
# Comment at beginning of line
machine-prefix-2.*

[machine-type-3]
machine-prefix-3.*

[rhel7]
machine-prefix-4.*
machine-prefix-5.*

[machine-type-4]
machine-prefix-6.*
".

(** [wip/loadenv/loadenv/unittests/supporting_files/test_supported_systems.ini] *)
Definition le_supported_systems_ini : str := lit
"[rhel7]

[machine-type-1]
machine-type-1_host  # Comments here

[test-sys-1]
# Comment at beginning of line
test-sys-1.*
test-sys-2.*

[machine-type-4]
machine-type-4_host

[test-system]
foo.*
".

(** [wip/loadenv/loadenv/unittests/supporting_files/test_supported_envs.ini] *)
Definition le_supported_envs_ini : str := lit
"[rhel7]
cee-cuda-10.1.243-gnu-7.2.0-openmpi-4.0.3:
    cuda

[machine-type-1]
# This is a comment that takes up one or more
# lines before you finally get to an
intel-19.0.4-mpich-7.7.15-hsw-openmp: # Comment here
    # Yet another comment
    intel-hsw-openmp                  # Comment here
    intel-hsw
    default-env-hsw                   # It's the default
    intel-openmp
    intel
intel-19.0.4-mpich-7.7.15-knl-openmp:
    intel-knl-openmp
    intel-knl
    default-env-knl

[test-sys-1]
cuda-9.2-gnu-7.2.0-openmpi-2.1.2:
    cuda-9
    cuda
cuda-10.1-gnu-7.2.0-openmpi-4.0.1:
    cuda-10
gnu-7.2.0-openmpi-2.1.2-openmp:
    gnu-openmp
    gnu
    default-env
gnu-7.2.0-openmpi-2.1.2-serial:
    gnu-serial

[machine-type-4]
arm-20.0-openmpi-4.0.2-openmp:
    arm-20.0-openmp
    arm-20.0
    arm-20-openmp
    arm-20
    arm-openmp
    arm
    default-env
arm-20.0-openmpi-4.0.2-serial:
    arm-20.0-serial
    arm-20-serial
    arm-serial
arm-20.1-openmpi-4.0.3-openmp:
    arm-20.1-openmp
    arm-20.1
arm-20.1-openmpi-4.0.3-serial:
    arm-20.1-serial

[test-system]
env-name-serial:
    env-name
env-name-aliases-empty-string:
env-name-aliases-none
another-env:
    with-an-alias
".

(** [wip/loadenv/loadenv/unittests/supporting_files/test_environment_specs.ini] *)
Definition le_environment_specs_ini : str := lit
"#------------------------------------------------------------------------------
# Common environment options not specific to a particular system.
#------------------------------------------------------------------------------

[COMPILER-VARS]
envvar-set CC  : mpicc
envvar-set CXX : mpicxx
envvar-set FC  : mpif77
envvar-set F90 : mpif90

[MPI-COMPILER-VARS]
envvar-find-in-path MPICC  : mpicc
envvar-find-in-path MPICXX : mpicxx
envvar-find-in-path MPIF90 : mpif90


#------------------------------------------------------------------------------
# machine-type-1
#------------------------------------------------------------------------------
[RHEL7_PRE]
module-use                     : loadenv/unittests/modulefiles

[RHEL7_POST]
module-load sparc-tools/python : 3.7.9

[rhel7_cee-cuda-10.1.243-gnu-7.2.0-openmpi-4.0.3]
use RHEL7_PRE
module-load sparc-dev : cuda-10.1.243_gcc-7.2.0_openmpi-4.0.3
use MPI-COMPILER-VARS
use RHEL7_POST

#------------------------------------------------------------------------------
# machine-type-1
#------------------------------------------------------------------------------

# Partial environments intended to be `use`d within others.

[ATS1]
envvar-prepend      PATH      : /path/to/atdm/ninja-1.8.2/bin
envvar-set          LDFLAGS A : -L/path/to/gcc/x86_64-suse-linux/8.3.0/ -lpthread ${LDFLAGS}
envvar-set          LDFLAGS B : -L${MPI_ROOT}/lib -lmpich -lrt ${ATP_INSTALL_DIR}/lib/libAtpSigHandler.a ${ATP_INSTALL_DIR}/lib/libbreakpad_client_nostdlib.a ${LDFLAGS}
envvar-find-in-path MPICXX    : CC
envvar-find-in-path MPICC     : cc
envvar-find-in-path MPIF90    : ftn
envvar-set          CXX       : ${MPICXX}
envvar-set          CC        : ${MPICC}
envvar-set          F77       : ${MPIF90}
envvar-set          FC        : ${MPIF90}
envvar-set          F90       : ${MPIF90}

# Full environments intended to be loaded.

[machine-type-1_intel-19.0.4-mpich-7.7.15-hsw-openmp]
module-load  sparc-dev       : intel-19.0.4_mpich-7.7.15_hsw
envvar-set   OMP_NUM_THREADS : 2
envvar-unset OMP_PLACES
use ATS1

[machine-type-1_intel-19.0.4-mpich-7.7.15-knl-openmp]
module-load  sparc-dev            : intel-19.0.4_mpich-7.7.15_knl
envvar-set   SLURM_TASKS_PER_NODE : 16
envvar-set   OMP_NUM_THREADS      : 8
envvar-unset OMP_PLACES
envvar-unset OMP_PROC_BIND
use ATS1



#------------------------------------------------------------------------------
# machine-type-4
#------------------------------------------------------------------------------

# Partial environments intended to be `use`d within others.

[VAN1-TX2]
module-purge
module-load  ninja            : 1.2.3            # JMG:  remove fake version
module-load  cmake            : 3.17.1
envvar-set   MPI_ROOT         : ${MPI_DIR}
envvar-set   BLAS_ROOT        : ${ARMPL_DIR}
envvar-set   HDF5_ROOT        : ${HDF5_DIR}
envvar-set   NETCDF_ROOT      : ${NETCDF_DIR}
envvar-set   PNETCDF_ROOT     : ${PNETCDF_DIR}
envvar-set   ZLIB_ROOT        : ${ZLIB_DIR}
envvar-set   CGNS_ROOT        : ${CGNS_DIR}
envvar-set   BOOST_ROOT       : ${BOOST_DIR}
envvar-set   METIS_ROOT       : ${METIS_DIR}
envvar-set   PARMETIS_ROOT    : ${PARMETIS_DIR}
envvar-set   SUPERLUDIST_ROOT : ${SUPLERLU_DIST_DIR}
envvar-set   BINUTILS_ROOT    : ${BINUTILS_DIR}
envvar-unset HWLOC_LIBS
use COMPILER-VARS
envvar-set   FC               : mpif90
use MPI-COMPILER-VARS

[VAN1-TX2_OPENMP]
envvar-set OMP_NUM_THREADS : 2

[VAN1-TX2_SERIAL]
envvar-set OMP_PROC_BIND   : FALSE # is this the same as unset?
envvar-set OMP_NUM_THREADS : 1     # is this the same as unset?

[VAN1-TX2_ARM-20.0-OPENMPI-4.0.2]
module-load   devpack-arm : 1.2.3                # JMG:  remove fake version
module-unload yaml-cpp
module-load   python      : 3.6.8-arm
module-load   arm         : 20.0
module-load   openmpi4    : 4.0.2
module-load   armpl       : 20.0.0
module-load   git         : 2.19.2
envvar-set    LAPACK_ROOT : ${ARMPL_DIR}
use VAN1-TX2

[VAN1-TX2_ARM-20.1-OPENMPI-4.0.3]
module-load   sparc-dev : arm-20.1_openmpi-4.0.3
module-unload yaml-cpp
use VAN1-TX2

# Full environments intended to be loaded.

[machine-type-4_arm-20.0-openmpi-4.0.2-openmp]
use VAN1-TX2_ARM-20.0-OPENMPI-4.0.2
use VAN1-TX2_OPENMP

[machine-type-4_arm-20.0-openmpi-4.0.2-serial]
use VAN1-TX2_ARM-20.0-OPENMPI-4.0.2
use VAN1-TX2_SERIAL

[machine-type-4_arm-20.1-openmpi-4.0.3-openmp]
use VAN1-TX2_ARM-20.1-OPENMPI-4.0.3
use VAN1-TX2_OPENMP
envvar-unset OMP_PLACES
envvar-unset OMP_PROC_BIND

[machine-type-4_arm-20.1-openmpi-4.0.3-serial]
use VAN1-TX2_ARM-20.1-OPENMPI-4.0.3
use VAN1-TX2_SERIAL
".

(** [wip/loadenv/loadenv/unittests/supporting_files/test_load_env.ini] *)
Definition le_load_env_ini : str := lit
"# test_load_env.ini
#
#------------------------------------------------------------------------------
#
# This is the top-level configuration file for the `LoadEnv` tool.  The tool
# uses three different configuration files that users can locate wherever they
# deem appropriate within their repository.  This file points the tool to where
# those additional configuration files are stored.  To edit the locations,
# simply change the paths to the right of the colons.  Note that the paths are
# relative to the directory containing this file.
#
#------------------------------------------------------------------------------

[load-env]
supported-systems : test_supported_systems.ini
supported-envs    : test_supported_envs.ini
environment-specs : test_environment_specs.ini
".

(** [wip/genconfig/tests/supporting_files/test-supported-systems.ini] *)
Definition gc_supported_systems_ini : str := lit
"[machine-type-5]
machine-name-2.*  # Comments here

[machine-type-4]
machine-name-3.*

[machine-name-1]
# Comment at beginning of line
machine-name-1.*
machine-name-4.*

[machine-type-3]
machine-name5.*

[test-system]
foo.*
".

(** [wip/genconfig/tests/supporting_files/test-supported-envs.ini] *)
Definition gc_supported_envs_ini : str := lit
"[machine-type-5]
# This is a comment that takes up one or more
# lines before you finally get to an
intel-19.0.4-mpich-7.7.15-hsw-openmp: # Comment here
    # Yet another comment
    intel-hsw-openmp                  # Comment here
    intel-hsw
    default-env-hsw                   # It's the default
    intel-openmp
    intel
intel-19.0.4-mpich-7.7.15-knl-openmp:
    intel-knl-openmp
    intel-knl
    default-env-knl

[machine-type-4]
intel-19.0.4-mpich-7.7.15-hsw-openmp: # Comment here
    # Yet another comment
    intel-hsw-openmp                  # Comment here
    intel-hsw
    default-env-hsw                   # It's the default
    intel-openmp
    intel
intel-19.0.4-mpich-7.7.15-knl-openmp:
    intel-knl-openmp
    intel-knl
    default-env-knl

[machine-name-1]
cuda-9.2-gnu-7.2.0-openmpi-2.1.2:
    cuda-9
    cuda
cuda-10.1-gnu-7.2.0-openmpi-4.0.1:
    cuda-10
gnu-7.2.0-openmpi-2.1.2-openmp:
    gnu-openmp
    gnu
    default-env
gnu-7.2.0-openmpi-2.1.2-serial:
    gnu-serial

[machine-type-3]
arm-20.0-openmpi-4.0.2-openmp:
    arm-20.0-openmp
    arm-20.0
    arm-20-openmp
    arm-20
    arm-openmp
    arm
    default-env
arm-20.0-openmpi-4.0.2-serial:
    arm-20.0-serial
    arm-20-serial
    arm-serial
arm-20.1-openmpi-4.0.3-openmp:
    arm-20.1-openmp
    arm-20.1
arm-20.1-openmpi-4.0.3-serial:
    arm-20.1-serial

[test-system]
env-name-serial:
    env-name
env-name-aliases-empty-string:
env-name-aliases-none
another-env:
    with-an-alias
".

(** [wip/genconfig/tests/supporting_files/test-supported-config-flags.ini] *)
Definition gc_supported_config_flags_ini : str := lit
"# Syntax:
# [configure-flags]
# flag1:  SELECT_ONE   # SELECT_ONE or SELECT_MANY indicates whether multiple
#     option1          # options can be selected for that flag or not.
#     option2
# flag2:  SELECT_MANY  # flag names must be unique
#     option3          # option names must also all be unique
#     option4

[configure-flags]
use-mpi:  SELECT_ONE
    mpi # the first option is the default if neither is specified in the build name
    no-mpi
node-type:  SELECT_ONE
    serial
    openmp
package-enables:  SELECT_MANY
    none   # by default, don't turn anything on
    empire
    sparc  # flags can support more than just two options
    muelu  # e.g., a common configuration used by the MueLu team
    jmgate # e.g., just my personal configuration, not intended to be used by others
# etc.
".

(** [wip/genconfig/tests/supporting_files/test-config-specs.ini] *)
Definition gc_config_specs_ini : str := lit
"[machine-type-5]
opt-set-cmake-var MPI_EXEC_NUMPROCS_FLAG STRING : -p

[machine-type-5-EMPIRE]
opt-set-cmake-var Trilinos_ENABLE_Panzer BOOL : ON

[machine-type-5_intel-19.0.4-mpich-7.7.15-hsw-openmp_mpi_serial_none]
use machine-type-5

[machine-type-5_intel-19.0.4-mpich-7.7.15-hsw-openmp_mpi_serial_sparc]
use machine-type-5
opt-set-cmake-var TPL_ENABLE_MPI BOOL : ON

[machine-type-5_intel-19.0.4-mpich-7.7.15-hsw-openmp_no-mpi_serial_sparc]
use machine-type-5

[machine-type-5_intel-19.0.4-mpich-7.7.15-hsw-openmp_mpi_serial_empire_sparc]
use machine-type-5
opt-set-cmake-var TPL_ENABLE_MPI BOOL : ON
use machine-type-5-EMPIRE

[machine-type-4]
opt-set-cmake-var MPI_EXEC_NUMPROCS_FLAG STRING : -p

[machine-type-4_intel-19.0.4-mpich-7.7.15-hsw-openmp_no-mpi_serial_sparc]
use machine-type-4

[machine-type-4_intel-19.0.4-mpich-7.7.15-hsw-openmp_mpi_serial_empire_sparc]
use machine-type-4
opt-set-cmake-var TPL_ENABLE_MPI BOOL : ON
".

(** [wip/genconfig/tests/supporting_files/test-environment-specs.ini] *)
Definition gc_environment_specs_ini : str := lit
"#------------------------------------------------------------------------------
# Common environment options not specific to a particular system.
#------------------------------------------------------------------------------

[COMPILER-VARS]
envvar-set CC  : mpicc
envvar-set CXX : mpicxx
envvar-set FC  : mpif77
envvar-set F90 : mpif90

[MPI-COMPILER-VARS]
envvar-find-in-path MPICC  : mpicc
envvar-find-in-path MPICXX : mpicxx
envvar-find-in-path MPIF90 : mpif90



#------------------------------------------------------------------------------
# machine-type-5
#------------------------------------------------------------------------------

# Partial environments intended to be `use`d within others.

[machine-type-5]
envvar-prepend      PATH      : /projects/netpub/atdm/ninja-1.8.2/bin
envvar-set          LDFLAGS A : -L/opt/gcc/8.3.0/snos/lib/gcc/x86_64-suse-linux/8.3.0/ -lpthread ${LDFLAGS}
envvar-set          LDFLAGS B : -L${MPI_ROOT}/lib -lmpich -lrt ${ATP_INSTALL_DIR}/lib/libAtpSigHandler.a ${ATP_INSTALL_DIR}/lib/libbreakpad_client_nostdlib.a ${LDFLAGS}
envvar-find-in-path MPICXX    : CC
envvar-find-in-path MPICC     : cc
envvar-find-in-path MPIF90    : ftn
envvar-set          CXX       : ${MPICXX}
envvar-set          CC        : ${MPICC}
envvar-set          F77       : ${MPIF90}
envvar-set          FC        : ${MPIF90}
envvar-set          F90       : ${MPIF90}

# Full environments intended to be loaded.

[machine-type-5_intel-19.0.4-mpich-7.7.15-hsw-openmp]
module-load  sparc-dev       : intel-19.0.4_mpich-7.7.15_hsw
envvar-set   OMP_NUM_THREADS : 2
envvar-unset OMP_PLACES
use machine-type-5

[machine-type-5_intel-19.0.4-mpich-7.7.15-knl-openmp]
module-load  sparc-dev            : intel-19.0.4_mpich-7.7.15_knl
envvar-set   SLURM_TASKS_PER_NODE : 16
envvar-set   OMP_NUM_THREADS      : 8
envvar-unset OMP_PLACES
envvar-unset OMP_PROC_BIND
use machine-type-5



#------------------------------------------------------------------------------
# machine-type-3
#------------------------------------------------------------------------------

# Partial environments intended to be `use`d within others.

[machine-type-3]
module-purge
module-load  ninja            : 1.2.3            # JMG:  remove fake version
module-load  cmake            : 3.17.1
envvar-set   MPI_ROOT         : ${MPI_DIR}
envvar-set   BLAS_ROOT        : ${ARMPL_DIR}
envvar-set   HDF5_ROOT        : ${HDF5_DIR}
envvar-set   NETCDF_ROOT      : ${NETCDF_DIR}
envvar-set   PNETCDF_ROOT     : ${PNETCDF_DIR}
envvar-set   ZLIB_ROOT        : ${ZLIB_DIR}
envvar-set   CGNS_ROOT        : ${CGNS_DIR}
envvar-set   BOOST_ROOT       : ${BOOST_DIR}
envvar-set   METIS_ROOT       : ${METIS_DIR}
envvar-set   PARMETIS_ROOT    : ${PARMETIS_DIR}
envvar-set   SUPERLUDIST_ROOT : ${SUPLERLU_DIST_DIR}
envvar-set   BINUTILS_ROOT    : ${BINUTILS_DIR}
envvar-unset HWLOC_LIBS
use COMPILER-VARS
envvar-set   FC               : mpif90
use MPI-COMPILER-VARS

[machine-type-3_OPENMP]
envvar-set OMP_NUM_THREADS : 2

[machine-type-3_SERIAL]
envvar-set OMP_PROC_BIND   : FALSE # is this the same as unset?
envvar-set OMP_NUM_THREADS : 1     # is this the same as unset?

[machine-type-3_ARM-20.0-OPENMPI-4.0.2]
module-load   devpack-arm : 1.2.3                # JMG:  remove fake version
module-unload yaml-cpp
module-load   python      : 3.6.8-arm
module-load   arm         : 20.0
module-load   openmpi4    : 4.0.2
module-load   armpl       : 20.0.0
module-load   git         : 2.19.2
envvar-set    LAPACK_ROOT : ${ARMPL_DIR}
use machine-type-3

[machine-type-3_ARM-20.1-OPENMPI-4.0.3]
module-load   sparc-dev : arm-20.1_openmpi-4.0.3
module-unload yaml-cpp
use machine-type-3

# Full environments intended to be loaded.

[machine-type-3_arm-20.0-openmpi-4.0.2-openmp]
use machine-type-3_ARM-20.0-OPENMPI-4.0.2
use machine-type-3_OPENMP

[machine-type-3_arm-20.0-openmpi-4.0.2-serial]
use machine-type-3_ARM-20.0-OPENMPI-4.0.2
use machine-type-3_SERIAL

[machine-type-3_arm-20.1-openmpi-4.0.3-openmp]
use machine-type-3_ARM-20.1-OPENMPI-4.0.3
use machine-type-3_OPENMP
envvar-unset OMP_PLACES
envvar-unset OMP_PROC_BIND

[machine-type-3_arm-20.1-openmpi-4.0.3-serial]
use machine-type-3_ARM-20.1-OPENMPI-4.0.3
use machine-type-3_SERIAL
".
